(** Proofs that soft objects have no influence on harder ones (C97). *)
From Coq Require Import Permutation Sorted.
From Verif Require Import Base BaseFacts PFHw SortFacts SpecSort RankFacts TabFacts Regionizer SpecRegion RegionFacts RegionLoops RegionMuon RegionProofs SpecRegMove RegMoveProofs SpecSoft.

Lemma filter_filter_comm {B} (f g : B -> bool) l : filter f (filter g l) = filter g (filter f l).
Proof.
  induction l as [|x l IH]; [reflexivity|]. cbn [filter]. destruct (f x) eqn:F, (g x) eqn:G; cbn [filter]; rewrite ?F, ?G, ?IH; reflexivity.
Qed.
Lemma filter_map_same {B C} (h : B -> C) (f : C -> bool) (g : B -> bool) l : (forall x, f (h x) = g x) -> filter f (map h l) = map h (filter g l).
Proof. intros E. induction l as [|x l IH]; [reflexivity|]. cbn [map filter]. rewrite E, IH. destruct (g x); reflexivity. Qed.

Section soft.
Context {A : Type} (d : A) (T : Z) (T0 : 0 <= T).
Implicit Types (x y o : robj A) (l p q a objs : list (robj A)) (fibers out : list (list (robj A))).

Lemma hard_app l l' : hard T (l ++ l') = hard T l ++ hard T l'.
Proof. apply filter_app. Qed.
Lemma hard_map (f : robj A -> robj A) l : (forall x, r_pt (f x) = r_pt x) -> hard T (map f l) = map f (hard T l).
Proof. intros E. apply filter_map_same. intros x. rewrite E. reflexivity. Qed.
Lemma hard_soft l : Forall (fun y => r_pt y <= T) l -> hard T l = [].
Proof. intros F. induction F as [|y l H F IH]; [reflexivity|]. unfold hard in *. cbn [filter]. rewrite IH. destruct (Z.ltb_spec T (r_pt y)); [lia|reflexivity]. Qed.

(** a sorted list shows its hard objects first *)
Lemma hard_desc l : desc r_pt l -> l = hard T l ++ filter (fun x => negb (T <? r_pt x)) l.
Proof.
  intros H. induction H as [|y l H IH F]; [reflexivity|]. unfold hard in *. cbn [filter]. destruct (Z.ltb_spec T (r_pt y)) as [P|P]; cbn [negb app].
  - f_equal. exact IH.
  - fold (hard T l) in *. rewrite hard_soft in * by (eapply Forall_impl; [|exact F]; cbn; intros; lia). cbn [app] in *. f_equal. exact IH.
Qed.
Lemma hard_firstn n l : desc r_pt l -> hard T (firstn n l) = firstn n (hard T l).
Proof.
  intros H. revert n. induction H as [|y l H IH F]; intros n; [rewrite !firstn_nil; reflexivity|].
  destruct n as [|n]; [reflexivity|]. cbn [firstn]. unfold hard in *. cbn [filter]. destruct (Z.ltb_spec T (r_pt y)) as [P|P].
  - cbn [firstn]. f_equal. apply IH.
  - rewrite IH. fold (hard T l). rewrite hard_soft by (eapply Forall_impl; [|exact F]; cbn; intros; lia). rewrite !firstn_nil. reflexivity.
Qed.

Lemma hard_rins l x : desc r_pt l -> hard T (rins false r_pt l x) = if T <? r_pt x then rins false r_pt (hard T l) x else hard T l.
Proof.
  intros H. unfold rins, hard. induction H as [|y l H IH F]; cbn [ins filter].
  - destruct (T <? r_pt x); reflexivity.
  - destruct (cmp false (r_pt y) (r_pt x)) eqn:C.
    + cbn [filter]. destruct (Z.ltb_spec T (r_pt x)) as [P|P]; [|reflexivity].
      destruct (Z.ltb_spec T (r_pt y)) as [Q|Q]; cbn [ins]; [rewrite C; reflexivity|].
      fold (hard T l). rewrite hard_soft by (eapply Forall_impl; [|exact F]; cbn; intros; lia). reflexivity.
    + cbn [filter]. rewrite IH. destruct (Z.ltb_spec T (r_pt x)) as [P|P]; [|reflexivity].
      destruct (Z.ltb_spec T (r_pt y)) as [Q|Q]; cbn [ins]; [rewrite C; reflexivity|]. unfold cmp in C. lia.
Qed.
Lemma hard_rsort l : hard T (rsort false r_pt l) = rsort false r_pt (hard T l).
Proof.
  induction l as [|x l IH] using rev_ind; [reflexivity|].
  rewrite hard_app. unfold rsort in *. rewrite !fold_left_app. cbn [fold_left].
  rewrite hard_rins by (apply (rsort_desc l)). rewrite IH. unfold hard at 3. cbn [filter]. destruct (T <? r_pt x); reflexivity.
Qed.
Lemma hard_K n l : hard T (K d n l) = firstn n (rsort false r_pt (hard T l)).
Proof.
  rewrite K_eq, hard_app, hard_firstn, hard_rsort by apply rsort_desc. rewrite (hard_soft (repeat _ _)); [apply app_nil_r|].
  apply Forall_forall. intros y Hy. apply repeat_spec in Hy. subst. cbn. exact T0.
Qed.
Lemma hard_cands ie objs : hard T (slice_cands ie objs) = slice_cands ie (hard T objs).
Proof. unfold slice_cands. rewrite hard_map by reflexivity. f_equal. apply filter_filter_comm. Qed.
Lemma hard_t n ie objs : hard T (firstn n (rsort false r_pt (slice_cands ie objs))) = firstn n (rsort false r_pt (slice_cands ie (hard T objs))).
Proof. rewrite hard_firstn, hard_rsort, hard_cands by apply rsort_desc. reflexivity. Qed.
Lemma hard_R nsec nreg (objs : nat -> list (robj A)) ie ip : hard T (R d nsec nreg objs ie ip) = hard T (R d nsec nreg (fun s => hard T (objs s)) ie ip).
Proof.
  unfold R. rewrite !hard_K. do 2 f_equal. rewrite !hard_app, !hard_map, !hard_t by reflexivity.
  assert (I : forall l, hard T (hard T l) = hard T l).
  { intros l. induction l as [|y l IH]; [reflexivity|]. unfold hard in *. cbn [filter]. destruct (T <? r_pt y) eqn:E; cbn [filter]; rewrite ?E, IH; reflexivity. }
  rewrite !I. reflexivity.
Qed.

Lemma desc_K n l : pos l -> desc r_pt (K d n l).
Proof.
  intros P. rewrite K_eq. assert (D : desc r_pt (firstn n (rsort false r_pt l))) by (apply desc_firstn, rsort_desc).
  assert (Q : pos (firstn n (rsort false r_pt l))).
  { pose proof (pos_rsort l P) as Q. apply Forall_forall. intros y Hy. unfold pos in Q. rewrite Forall_forall in Q. apply Q. rewrite <- (firstn_skipn n). apply in_or_app. left; exact Hy. }
  revert D Q. generalize (firstn n (rsort false r_pt l)). intros q. generalize (n - length q)%nat. intros m D Q.
  induction D as [|y q D IH F]; cbn [app].
  - clear. induction m as [|m IH]; cbn [repeat]; constructor; [exact IH|]. apply Forall_forall. intros y Hy. apply repeat_spec in Hy. subst. lia.
  - inversion Q; subst. constructor; [apply IH; assumption|]. apply Forall_app. split; [exact F|].
    apply Forall_forall. intros z Hz. apply repeat_spec in Hz. subst. cbn. lia.
Qed.

(** the same hard objects in order, in sorted slots, sit in the same slots *)
Lemma same_hard_desc p q : desc r_pt p -> desc r_pt q -> hard T p = hard T q -> same_hard T p q.
Proof.
  assert (G : forall p q, desc r_pt p -> desc r_pt q -> hard T p = hard T q -> forall i o, T < r_pt o -> nth_error p i = Some o -> nth_error q i = Some o).
  { clear p q. intros p q P Q E i o Ho Hi. rewrite (hard_desc p P) in Hi. rewrite (hard_desc q Q), <- E.
    destruct (Nat.lt_ge_cases i (length (hard T p))) as [L|L].
    - rewrite nth_error_app1 in * by exact L. exact Hi.
    - rewrite nth_error_app2 in Hi by exact L. apply nth_error_In in Hi. apply filter_In in Hi. lia. }
  intros P Q E i o Ho. split; apply G; auto.
Qed.

Lemma pos_cands ie objs : pos (slice_cands ie objs).
Proof. rewrite <- selm_cands. apply pos_selm. Qed.
Lemma pos_t n ie objs : pos (firstn n (rsort false r_pt (slice_cands ie objs))).
Proof.
  pose proof (pos_rsort _ (pos_cands ie objs)) as Q. apply Forall_forall. intros y Hy. unfold pos in Q. rewrite Forall_forall in Q. apply Q. rewrite <- (firstn_skipn n). apply in_or_app. left; exact Hy.
Qed.
Lemma pos_same_pt (f : robj A -> robj A) l : (forall x, r_pt (f x) = r_pt x) -> pos l -> pos (map f l).
Proof. intros E P. unfold pos in *. rewrite Forall_map. eapply Forall_impl; [|exact P]. cbn. intros y Hy. rewrite E. exact Hy. Qed.
Lemma desc_R nsec nreg (objs : nat -> list (robj A)) ie ip : desc r_pt (R d nsec nreg objs ie ip).
Proof. unfold R. apply desc_K. unfold pos. rewrite !Forall_app. repeat split; apply pos_same_pt; try reflexivity; apply pos_t. Qed.

Lemma c97_regions nobj nsec nreg nf fibers fibers' out out' ie ip :
  fibres_ok nobj nf fibers -> fibres_ok nobj nf fibers' -> (ie < 3)%nat -> (ip < 6)%nat ->
  gives d nobj nsec nreg nf fibers out -> gives d nobj nsec nreg nf fibers' out' ->
  (forall j, (j < 3)%nat -> hard T (arrivals nf (nobj / nf) fibers (region_sector ip j)) = hard T (arrivals nf (nobj / nf) fibers' (region_sector ip j))) ->
  same_hard T (region out ie ip) (region out' ie ip).
Proof.
  intros O O' He Hp G G' E. rewrite (region_R _ _ _ _ _ _ _ O G ie ip He Hp), (region_R _ _ _ _ _ _ _ O' G' ie ip He Hp).
  apply same_hard_desc; [apply desc_R|apply desc_R|]. rewrite hard_R, (hard_R nsec nreg (arrivals nf (nobj / nf) fibers')). f_equal. apply R_ext. intros j Hj. f_equal. apply E. exact Hj.
Qed.

(** ** muons *)
Lemma hard_filter g l : hard T (filter g l) = filter g (hard T l).
Proof. apply filter_filter_comm. Qed.
Lemma hard_mcands nmu (objs : nat -> list (robj A)) ie ip : hard T (mcands nmu objs ie ip) = mcands nmu (fun s => hard T (objs s)) ie ip.
Proof.
  unfold mcands, mt. cbv zeta. destruct (ip mod 3)%nat as [|[|]]; rewrite ?hard_app, ?hard_map, ?hard_filter, ?hard_t by reflexivity; reflexivity.
Qed.
Lemma pos_filter g l : pos l -> pos (filter g l).
Proof. intros P. unfold pos in *. rewrite Forall_forall in *. intros y Hy. apply filter_In in Hy. apply P, Hy. Qed.
Lemma pos_mcands' nmu (objs : nat -> list (robj A)) ie ip : pos (mcands nmu objs ie ip).
Proof.
  unfold mcands, mt. cbv zeta. destruct (ip mod 3)%nat as [|[|]]; [apply pos_t| |];
    (apply Forall_app; split; apply pos_same_pt; [reflexivity|apply pos_filter, pos_t|reflexivity|apply pos_filter, pos_t]).
Qed.
Lemma c97_muons nmu fibers fibers' out out' ie ip :
  mu_ok nmu fibers -> mu_ok nmu fibers' -> (ie < 3)%nat -> (ip < 6)%nat ->
  gives_muons d nmu fibers out -> gives_muons d nmu fibers' out' ->
  (forall m, (m < 4)%nat -> hard T (firstn nmu (nth m fibers [])) = hard T (firstn nmu (nth m fibers' []))) ->
  same_hard T (region out ie ip) (region out' ie ip).
Proof.
  intros O O' He Hp G G' E. rewrite (region_M _ _ _ _ O G ie ip He Hp), (region_M _ _ _ _ O' G' ie ip He Hp).
  apply same_hard_desc; [apply desc_K, pos_mcands'|apply desc_K, pos_mcands'|]. rewrite !hard_K, !hard_mcands. do 2 f_equal.
  unfold mcands, mt. cbv zeta. rewrite !arrivals_one. 
  rewrite (E (2 * ip / 3)%nat), (E ((2 * ip / 3 + 1) mod 4)%nat) by lia. reflexivity.
Qed.

(** ** from the twelve muon sectors *)
Lemma hard_mu_in (input input' : list (list (robj A))) m : (m < 4)%nat -> (forall s, (s < 12)%nat -> hard T (nth s input []) = hard T (nth s input' [])) ->
  hard T (mu_in input 12 m) = hard T (mu_in input' 12 m).
Proof.
  intros Hm E. assert (Sh : forall z l, hard (A := A) T (shifted z l) = shifted z (hard T l)).
  { intros z l. unfold shifted. rewrite hard_map by reflexivity. f_equal. apply hard_filter. }
  rewrite !mu_in_sectors, !hard_app, !Sh by exact Hm. rewrite !E by lia. reflexivity.
Qed.
Lemma c97_chain nmu input input' out0 out0' fibers fibers' out out' ie ip :
  dims2 12 nmu input -> dims2 12 nmu input' -> dims2 4 nmu out0 -> dims2 4 nmu out0' -> (ie < 3)%nat -> (ip < 6)%nat ->
  merge_muon_in d nmu input out0 = Ok fibers -> merge_muon_in d nmu input' out0' = Ok fibers' ->
  gives_muons d nmu fibers out -> gives_muons d nmu fibers' out' ->
  (forall s, (s < 12)%nat -> hard T (nth s input []) = hard T (nth s input' [])) ->
  same_hard T (region out ie ip) (region out' ie ip).
Proof.
  intros I I' O0 O0' He Hp M M' G G' E. rewrite merge_muon_in_K in M, M' by assumption. injection M as <-. injection M' as <-.
  assert (Ok' : forall inp, mu_ok nmu (tab 4 (fun m => K d nmu (mu_in (A := A) inp 12 m)))).
  { intros inp. split; [apply tab_length|]. intros fib H. unfold tab in H. apply in_map_iff in H as (m & <- & _). rewrite K_length. lia. }
  eapply c97_muons; [apply Ok'|apply Ok'|exact He|exact Hp|exact G|exact G'|].
  intros m Hm. rewrite !nth_tab by exact Hm. rewrite !firstn_all2 by (rewrite K_length; lia). rewrite !hard_K. rewrite (hard_mu_in _ _ m Hm E). reflexivity.
Qed.
End soft.

(** ** more slots *)
Section slots.
Context {A : Type} (d : A).
Lemma K_more n m (l : list (robj A)) : (n <= m)%nat -> K d n l = firstn n (K d m l).
Proof.
  intros H. unfold K. rewrite firstn_firstn, (Nat.min_l n m) by exact H. replace m with (n + (m - n))%nat by lia. rewrite repeat_app, app_assoc.
  rewrite (firstn_app n (_ ++ repeat _ n)). rewrite app_length, repeat_length. replace (n - (length (rsort false r_pt l) + n))%nat with 0%nat by lia. cbn [firstn]. rewrite app_nil_r. reflexivity.
Qed.
Lemma c97_more_slots nobj nsec nreg nreg' nf fibers out out' ie ip : (nreg <= nreg')%nat ->
  fibres_ok nobj nf fibers -> (ie < 3)%nat -> (ip < 6)%nat ->
  gives d nobj nsec nreg nf fibers out -> gives d nobj nsec nreg' nf fibers out' ->
  region out ie ip = firstn nreg (region out' ie ip).
Proof.
  intros L O He Hp G G'. rewrite (region_R _ _ _ _ _ _ _ O G ie ip He Hp), (region_R _ _ _ _ _ _ _ O G' ie ip He Hp). apply K_more. exact L.
Qed.
End slots.
