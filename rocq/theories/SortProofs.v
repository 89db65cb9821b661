(** Proofs of C09 and C10. *)
From Coq Require Import Permutation Sorted.
From Verif Require Import Base BaseFacts PFHw PFRef SortFacts SpecSort RankFacts.

Lemma ptsort_hwopt_top (T : Type) (pt : T -> Z) (zero : T -> T) (junk : nat -> T) (input : list T) (nout : nat) :
  (forall x, pt (zero x) = 0) -> (forall x, In x input -> 0 <= pt x) -> (nout <= length input)%nat ->
  exists out, ptsort_hwopt pt zero junk input nout = Ok out /\ top_n pt true nout input out.
Proof.
  intros Hz Hx Hn. eexists. split; [apply ptsort_hwopt_sorted; assumption|]. exact (top_n_rsort true pt nout input).
Qed.

Lemma top_n_fun (T : Type) (pt : T -> Z) later n (input o1 o2 : list T) :
  top_n pt later n input o1 -> top_n pt later n input o2 -> o1 = o2.
Proof. apply top_n_unique. Qed.

Lemma rsort_desc {T} later (pt : T -> Z) input : StronglySorted (fun x y => pt y <= pt x) (rsort later pt input).
Proof.
  assert (E : rsort later pt input = map snd (rsort later (fun p => pt (snd p)) (indexed input))).
  { rewrite <- (rsort_map later snd (fun p => pt (snd p)) pt (indexed input)) by reflexivity. rewrite map_snd_indexed. reflexivity. }
  rewrite E. eapply StronglySorted_map; [|apply rsort_ranked]. intros a b _ _ [H|[H _]]; lia.
Qed.

Lemma StronglySorted_nth {A} (R : A -> A -> Prop) l : StronglySorted R l ->
  forall i j x y, (i < j)%nat -> nth_error l i = Some x -> nth_error l j = Some y -> R x y.
Proof.
  induction 1 as [|a l S IH F]; intros i j x y Hij Hi Hj; [destruct i; discriminate|].
  destruct j as [|j]; [lia|]. destruct i as [|i].
  - cbn in Hi, Hj. inversion Hi; subst. rewrite Forall_forall in F. apply F. eapply nth_error_In; eauto.
  - cbn in Hi, Hj. eapply (IH i j); eauto. lia.
Qed.

Lemma top_n_is_firstn {T} (pt : T -> Z) later n input out : top_n pt later n input out -> out = firstn n (rsort later pt input).
Proof. intros H. eapply top_n_unique; [exact H|]. apply top_n_rsort. Qed.

Lemma top_n_meaning (T : Type) (pt : T -> Z) later n (input out : list T) :
  top_n pt later n input out ->
  (forall i j x y, (i < j)%nat -> nth_error out i = Some x -> nth_error out j = Some y -> pt y <= pt x) /\
  exists dropped, Permutation input (out ++ dropped) /\ forall x y, In x out -> In y dropped -> pt y <= pt x.
Proof.
  intros H. apply top_n_is_firstn in H. subst out. pose proof (rsort_desc later pt input) as D. split.
  - intros i j x y Hij Hi Hj. rewrite nth_error_firstn in Hi, Hj.
    destruct (i <? n)%nat; [|discriminate]. destruct (j <? n)%nat; [|discriminate].
    exact (StronglySorted_nth _ _ D i j x y Hij Hi Hj).
  - exists (skipn n (rsort later pt input)). rewrite firstn_skipn. split; [symmetry; apply rsort_perm|].
    intros x y Hx Hy. apply In_nth_error in Hx as [i Hi]. apply In_nth_error in Hy as [j Hj].
    rewrite nth_error_firstn in Hi. rewrite nth_error_skipn in Hj. destruct (Nat.ltb_spec i n); [|discriminate].
    refine (StronglySorted_nth _ _ D i (n + j) x y _ Hi Hj). lia.
Qed.

Lemma sorters_agree (T : Type) (pt : T -> Z) (zero : T -> T) (junk : nat -> T) (input old : list T) :
  (forall x, pt (zero x) = 0) -> (forall x, In x input -> 0 <= pt x) -> (length old <= length input)%nat ->
  exists out, ptsort_hwopt pt zero junk input (length old) = Ok out /\ ptsort_ref pt zero input old = Ok out.
Proof.
  intros Hz Hx Hn. eexists. split; [apply ptsort_hwopt_sorted; assumption|apply ptsort_ref_sorted; assumption].
Qed.
