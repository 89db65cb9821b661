(** Proofs that large sector buffers make the selection global (C97). *)
From Coq Require Import Permutation Sorted.
From Verif Require Import Base BaseFacts PFHw SortFacts SpecSort RankFacts TabFacts Regionizer SpecRegion RegionFacts RegionLoops RegionMuon RegionProofs SpecRegMove RegMoveProofs SpecCopies CopiesProofs.

Section hardest.
Context {A : Type} (d : A).
Implicit Types (x y o : robj A) (l p q u v : list (robj A)).

Notation sort l := (rsort false r_pt l).
Definition at_pt (w : Z) l : list (robj A) := filter (fun x => r_pt x =? w) l.

(** a sorted list is determined by its parts of equal pt *)
Lemma at_pt_low w l : Forall (fun y => r_pt y < w) l -> at_pt w l = [].
Proof. intros F. induction F as [|y l H F IH]; [reflexivity|]. unfold at_pt in *. cbn [filter]. rewrite IH. destruct (Z.eqb_spec (r_pt y) w); [lia|reflexivity]. Qed.
Lemma desc_at_pt p : desc r_pt p -> forall q, desc r_pt q -> (forall w, at_pt w p = at_pt w q) -> p = q.
Proof.
  intros D. induction D as [|x p D IH F]; intros q D' E.
  - destruct q as [|y q]; [reflexivity|]. specialize (E (r_pt y)). unfold at_pt in E. cbn [filter] in E. rewrite Z.eqb_refl in E. discriminate.
  - destruct q as [|y q]. { specialize (E (r_pt x)). unfold at_pt in E. cbn [filter] in E. rewrite Z.eqb_refl in E. discriminate. }
    inversion D' as [|? ? D2 F2]; subst. rewrite Forall_forall in F, F2.
    assert (P : r_pt x = r_pt y).
    { destruct (Z.lt_trichotomy (r_pt x) (r_pt y)) as [H|[H|H]]; [exfalso|exact H|exfalso].
      - specialize (E (r_pt y)). rewrite (at_pt_low _ (x :: p)) in E by (constructor; [lia|]; apply Forall_forall; intros z Hz; specialize (F z Hz); lia).
        unfold at_pt in E. cbn [filter] in E. rewrite Z.eqb_refl in E. discriminate.
      - specialize (E (r_pt x)). rewrite (at_pt_low _ (y :: q)) in E by (constructor; [lia|]; apply Forall_forall; intros z Hz; specialize (F2 z Hz); lia).
        unfold at_pt in E. cbn [filter] in E. rewrite Z.eqb_refl in E. discriminate. }
    assert (Q : x = y). { specialize (E (r_pt x)). unfold at_pt in E. cbn [filter] in E. rewrite <- P, Z.eqb_refl in E. injection E as E _. exact E. }
    subst y. f_equal. apply IH; [exact D2|]. intros w. specialize (E w). unfold at_pt in *. cbn [filter] in E. destruct (r_pt x =? w); [injection E as E; exact E|exact E].
Qed.
Lemma at_pt_ins w x l : desc r_pt l -> at_pt w (rins false r_pt l x) = at_pt w l ++ (if r_pt x =? w then [x] else []).
Proof.
  intros D. unfold rins, at_pt. induction D as [|y l D IH F]; cbn [ins filter].
  - destruct (r_pt x =? w); reflexivity.
  - destruct (cmp false (r_pt y) (r_pt x)) eqn:C.
    + cbn [filter]. unfold cmp in C. destruct (Z.eqb_spec (r_pt x) w) as [P|P]; [|rewrite app_nil_r; reflexivity].
      destruct (Z.eqb_spec (r_pt y) w) as [Q|Q]; [lia|]. fold (at_pt w l). rewrite at_pt_low; [reflexivity|].
      eapply Forall_impl; [|exact F]. cbn. intros; lia.
    + cbn [filter]. rewrite IH. destruct (r_pt y =? w); reflexivity.
Qed.
Lemma at_pt_sort w l : at_pt w (sort l) = at_pt w l.
Proof.
  induction l as [|x l IH] using rev_ind; [reflexivity|]. unfold rsort in *. rewrite fold_left_app. cbn [fold_left].
  rewrite at_pt_ins by (apply (rsort_desc l)). rewrite IH. unfold at_pt. rewrite filter_app. cbn [filter]. reflexivity.
Qed.
Lemma sort_sorted u l v : sort (u ++ sort l ++ v) = sort (u ++ l ++ v).
Proof.
  apply desc_at_pt; [apply rsort_desc|apply rsort_desc|]. intros w. rewrite !at_pt_sort. unfold at_pt. rewrite !filter_app. do 2 f_equal. apply at_pt_sort.
Qed.

(** an object with [n] objects of at least its pt before it does not reach the first [n] slots *)
Lemma firstn_fold n v : forall p q, firstn n p = firstn n q -> firstn n (fold_left (rins false r_pt) v p) = firstn n (fold_left (rins false r_pt) v q).
Proof.
  induction v as [|x v IH]; intros p q E; [exact E|]. cbn [fold_left]. apply IH. unfold rins.
  rewrite <- (firstn_ins_firstn _ x n p), <- (firstn_ins_firstn _ x n q), E. reflexivity.
Qed.
Lemma firstn_late x : forall l n, desc r_pt l -> (n <= length (filter (fun y => (r_pt x <=? r_pt y)%Z) l))%nat -> firstn n (rins false r_pt l x) = firstn n l.
Proof.
  unfold rins. intros l n D. revert n. induction D as [|y l D IH F]; intros n H; cbn [filter] in H; [cbn in H; replace n with 0%nat by lia; reflexivity|].
  cbn [ins]. destruct (cmp false (r_pt y) (r_pt x)) eqn:C; unfold cmp in C.
  - assert (E : filter (fun z => (r_pt x <=? r_pt z)%Z) (y :: l) = []).
    { destruct (filter (fun z => (r_pt x <=? r_pt z)%Z) (y :: l)) as [|z r] eqn:E; [reflexivity|]. assert (Hz : In z (z :: r)) by (left; reflexivity).
      rewrite <- E in Hz. apply filter_In in Hz as [[<-|Hz] Hp]; [lia|]. rewrite Forall_forall in F. specialize (F z Hz). lia. }
    cbn [filter] in E. rewrite E in H. cbn in H. replace n with 0%nat by lia. reflexivity.
  - destruct n as [|n]; [reflexivity|]. cbn [firstn]. f_equal. apply IH. destruct (r_pt x <=? r_pt y) eqn:Q; [cbn in H; lia|lia].
Qed.
Lemma count_perm x p q : Permutation p q -> length (filter (fun y => (r_pt x <=? r_pt y)%Z) p) = length (filter (fun y => (r_pt x <=? r_pt y)%Z) q).
Proof.
  intros P. induction P as [|z p q P IH|z z' p|p q r P IH P' IH']; cbn [filter]; [reflexivity| | |congruence].
  - destruct (_ <=? _); cbn [length]; rewrite IH; reflexivity.
  - destruct (r_pt x <=? r_pt z), (r_pt x <=? r_pt z'); reflexivity.
Qed.
Lemma drop_late n u x v : (n <= length (filter (fun y => (r_pt x <=? r_pt y)%Z) u))%nat -> firstn n (sort (u ++ x :: v)) = firstn n (sort (u ++ v)).
Proof.
  intros H. unfold rsort. rewrite !fold_left_app. cbn [fold_left]. apply firstn_fold. apply firstn_late; [apply (rsort_desc u)|].
  rewrite (count_perm x _ u) by apply rsort_perm. exact H.
Qed.
Lemma firstn_cut n m u p v : (n <= m)%nat -> desc r_pt p -> firstn n (sort (u ++ firstn m p ++ v)) = firstn n (sort (u ++ p ++ v)).
Proof.
  intros L D. destruct (Nat.le_gt_cases (length p) m) as [S0|S0]; [rewrite (firstn_all2 p S0); reflexivity|].
  rewrite <- (firstn_skipn m p) in D. rewrite <- (firstn_skipn m p) at 2. assert (Lp : (n <= length (firstn m p))%nat) by (rewrite firstn_length; lia).
  revert D Lp. generalize (firstn m p), (skipn m p). intros a b. clear p S0. intros D Lp.
  induction b as [|x b IH] using rev_ind; [rewrite app_nil_r; reflexivity|].
  rewrite (app_assoc a b) in D. assert (D' : desc r_pt (a ++ b) /\ Forall (fun y => r_pt x <= r_pt y) (a ++ b)).
  { revert D. generalize (a ++ b). intros l D. induction l as [|y l IHl]; [split; constructor|]. cbn [app] in D. inversion D as [|? ? D1 F1]; subst.
    destruct (IHl D1) as [D2 F2]. apply Forall_app in F1 as [F1 F3]. inversion F3; subst. split; constructor; assumption. }
  destruct D' as [D1 F1]. rewrite (IH D1). replace (u ++ (a ++ b ++ [x]) ++ v) with ((u ++ a ++ b) ++ x :: v) by (rewrite <- !app_assoc; reflexivity).
  rewrite drop_late; [rewrite <- !app_assoc; reflexivity|]. rewrite !filter_app, !app_length. apply Forall_app in F1 as [F1 _].
  assert (E : filter (fun y => (r_pt x <=? r_pt y)%Z) a = a).
  { clear -F1. induction F1 as [|y a H F IH]; [reflexivity|]. cbn [filter]. rewrite IH. destruct (Z.leb_spec (r_pt x) (r_pt y)); [reflexivity|lia]. }
  rewrite E. lia.
Qed.
Lemma K_firstn n l l' : firstn n (sort l) = firstn n (sort l') -> K d n l = K d n l'.
Proof. intros E. rewrite !K_eq, E. reflexivity. Qed.

Lemma cut_part n m (f : robj A -> robj A) u l v : (forall y, r_pt (f y) = r_pt y) -> (n <= m)%nat ->
  firstn n (sort (u ++ map f (firstn m (sort l)) ++ v)) = firstn n (sort (u ++ map f l ++ v)).
Proof.
  intros E L. rewrite <- firstn_map, <- (rsort_map false f r_pt r_pt l) by exact E. rewrite firstn_cut by (exact L || apply rsort_desc). rewrite sort_sorted. reflexivity.
Qed.
Lemma R_offered nsec nreg (objs : nat -> list (robj A)) ie ip : (nreg <= nsec)%nat -> R d nsec nreg objs ie ip = K d nreg (offered objs ie ip).
Proof.
  intros L. unfold R, offered. cbn [flat_map]. apply K_firstn.
  pose proof (cut_part nreg nsec (local_phi 0) [] (slice_cands ie (objs (region_sector ip 0)))) as C0. cbn [app] in C0. rewrite C0 by (reflexivity || exact L).
  rewrite cut_part by (reflexivity || exact L). rewrite !app_assoc.
  pose proof (cut_part nreg nsec (local_phi 2) (map (local_phi 0) (slice_cands ie (objs (region_sector ip 0))) ++ map (local_phi 1) (slice_cands ie (objs (region_sector ip 1)))) (slice_cands ie (objs (region_sector ip 2))) []) as C2.
  rewrite !app_assoc in C2. rewrite !app_nil_r in *. rewrite C2 by (reflexivity || exact L). reflexivity.
Qed.
Lemma c97_hardest nobj nsec nreg nf fibers out ie ip : (nreg <= nsec)%nat ->
  fibres_ok nobj nf fibers -> (ie < 3)%nat -> (ip < 6)%nat -> gives d nobj nsec nreg nf fibers out ->
  kept d nreg (offered (arrivals nf (nobj / nf) fibers) ie ip) (region out ie ip).
Proof. intros L O He Hp G. rewrite (region_R _ _ _ _ _ _ _ O G ie ip He Hp), R_offered by exact L. apply kept_K. Qed.

Lemma c97_hardest_muons nmu fibers out ie ip : mu_ok nmu fibers ->
  (forall fib x, In fib fibers -> In x (firstn nmu fib) -> 0 < r_pt x -> -180 < r_phi x <= 180) ->
  (ie < 3)%nat -> (ip < 6)%nat -> gives_muons d nmu fibers out ->
  exists order, Permutation order (mu_offered (fun m => firstn nmu (nth m fibers [])) ie ip) /\ kept d nmu order (region out ie ip).
Proof.
  intros O N He Hp G. rewrite (region_M _ _ _ _ O G ie ip He Hp). eexists. split; [|apply kept_K].
  assert (E : mcands nmu (arrivals 1 nmu fibers) ie ip = mcands nmu (fun m => firstn nmu (nth m fibers [])) ie ip) by (unfold mcands, mt; rewrite !arrivals_one; reflexivity).
  rewrite E. apply mcands_perm; [exact Hp| |].
  - intros m _. rewrite firstn_length. lia.
  - intros m Hm x Hx Px. destruct O as [O1 O2]. apply (N (nth m fibers []) x); [apply nth_In; lia|exact Hx|exact Px].
Qed.
End hardest.

(** three muons, the softest alone in its slice *)
Definition crowd : list (list (robj Z)) := [[mkR 9 (-200) 0 1; mkR 8 (-200) 5 2]; [mkR 5 200 0 3; rclear 0]] ++ repeat [rclear 0; rclear 0] 10.
Lemma c97_crowd : dims2 12 2 crowd /\ (forall s x, (s < 12)%nat -> In x (nth s crowd []) -> -60 < r_phi x <= 60) /\
  In (mkR 5 200 0 3) (nth 1 crowd []) /\ mu_here 2 0 0 (mkR 5 200 0 3) = true /\
  forall out0 fibers out, dims2 4 2 out0 -> merge_muon_in 0 2 crowd out0 = Ok fibers -> gives_muons 0 2 fibers out -> region out 2 0 = [rclear 0; rclear 0].
Proof.
  assert (D : dims2 12 2 crowd).
  { split; [reflexivity|]. intros a Ha. cbn in Ha. repeat (destruct Ha as [<-|Ha]; [reflexivity|]). destruct Ha. }
  split; [exact D|]. split.
  { intros s x Hs Hx. do 12 (destruct s as [|s]; [cbn in Hx; repeat (destruct Hx as [<-|Hx]; [cbn; lia|]); destruct Hx|]). lia. }
  split; [left; reflexivity|]. split; [reflexivity|]. intros out0 fibers out D0 M G. rewrite merge_muon_in_K in M by assumption. injection M as <-.
  assert (O : mu_ok 2 (tab 4 (fun m => K 0 2 (mu_in crowd 12 m)))); [|rewrite (region_M 0 2 _ out O G 2 0) by lia; vm_compute; reflexivity].
  split; [apply tab_length|]. intros fib H. unfold tab in H. apply in_map_iff in H as (m & <- & _). rewrite K_length. lia.
Qed.
