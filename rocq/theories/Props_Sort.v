(** C09 (generic part), C10: the two sorters. *)
From Verif Require Import Base Data PFHw PFRef SpecSort RankFacts SortProofs.

Theorem C09_ptsort_hwopt_top_n : forall (T : Type) (pt : T -> Z) (zero : T -> T) (junk : nat -> T) (input : list T) (nout : nat),
  (forall x, pt (zero x) = 0) -> (forall x, In x input -> 0 <= pt x) -> (nout <= length input)%nat ->
  exists out, ptsort_hwopt pt zero junk input nout = Ok out /\ top_n pt true nout input out.
Proof. exact @ptsort_hwopt_top. Qed.
Print Assumptions C09_ptsort_hwopt_top_n.
Example C09_ptsort_hwopt_ex : let pt := fun p : Z * Z => fst p in
  ptsort_hwopt pt (fun p => (0, snd p)) (fun _ => (99, 99)) [(3, 1); (7, 2); (3, 3); (0, 4); (9, 5)] 4 = Ok [(9, 5); (7, 2); (3, 3); (3, 1)].
Proof. vm_compute. reflexivity. Qed.

(** the output is determined by [top_n]: nothing else satisfies it *)
Theorem C09_top_n_unique : forall (T : Type) (pt : T -> Z) later n (input o1 o2 : list T),
  top_n pt later n input o1 -> top_n pt later n input o2 -> o1 = o2.
Proof. exact @top_n_fun. Qed.
Print Assumptions C09_top_n_unique.

(** what [top_n] means for sortedness and for what is dropped *)
Theorem C09_top_n_sorted_and_dominating : forall (T : Type) (pt : T -> Z) later n (input out : list T),
  top_n pt later n input out ->
  (forall i j x y, (i < j)%nat -> nth_error out i = Some x -> nth_error out j = Some y -> pt y <= pt x) /\
  exists dropped, Permutation.Permutation input (out ++ dropped) /\
    forall x y, In x out -> In y dropped -> pt y <= pt x.
Proof. exact @top_n_meaning. Qed.
Print Assumptions C09_top_n_sorted_and_dominating.

(** [old] is the previous content of the output array of ptsort_ref *)
Theorem C10_sorters_agree : forall (T : Type) (pt : T -> Z) (zero : T -> T) (junk : nat -> T) (input old : list T),
  (forall x, pt (zero x) = 0) -> (forall x, In x input -> 0 <= pt x) -> (length old <= length input)%nat ->
  exists out, ptsort_hwopt pt zero junk input (length old) = Ok out /\ ptsort_ref pt zero input old = Ok out.
Proof. exact @sorters_agree. Qed.
Print Assumptions C10_sorters_agree.
Example C10_sorters_agree_ex : let pt := fun p : Z * Z => fst p in
  ptsort_ref pt (fun p => (0, snd p)) [(3, 1); (7, 2); (3, 3); (0, 4); (9, 5)] [(1, 1); (2, 2); (3, 3); (4, 4)] = Ok [(9, 5); (7, 2); (3, 3); (3, 1)].
Proof. vm_compute. reflexivity. Qed.
