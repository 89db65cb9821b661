(** The two merges of three sorted sector lists. *)
From Coq Require Import Permutation Sorted.
From Verif Require Import Base BaseFacts PFHw SortFacts SpecSort RankFacts TabFacts Regionizer SpecRegion RegionFacts.

Section merge.
Context {A : Type} (d : A).
Implicit Types (x y o : robj A) (l p q a b c m out : list (robj A)).
Notation clr := (rclear d).

Definition hd_pt l : Z := match l with x :: _ => r_pt x | [] => 0 end.

Lemma desc_hd x l y : desc r_pt (x :: l) -> In y (x :: l) -> r_pt y <= r_pt x.
Proof. intros D [<-|H]; [lia|]. inversion D as [|? ? _ Q]; subst. rewrite Forall_forall in Q. apply Q; assumption. Qed.
Lemma desc_tl x l : desc r_pt (x :: l) -> desc r_pt l.
Proof. intros D; inversion D; assumption. Qed.

Lemma FL x m c : desc r_pt c -> hd_pt c <= r_pt x -> F c (x :: m) = x :: F c m.
Proof.
  intros D H. apply F_cons_ge. intros y Hy. destruct c as [|z c]; [destruct Hy|].
  pose proof (desc_hd _ _ _ D Hy). cbn in H. lia.
Qed.
Lemma FR z c m : desc r_pt (z :: c) -> hd_pt m < r_pt z -> F (z :: c) m = z :: F c m.
Proof. intros D H. destruct m as [|x m]; [apply F_step_right_nil; assumption|apply F_step_right; assumption]. Qed.

Lemma hd_nonneg l : pos l -> 0 <= hd_pt l.
Proof. intros P. destruct P; cbn; lia. Qed.
Lemma hd_zero l : pos l -> hd_pt l <= 0 -> l = [].
Proof. intros P H. destruct P as [|x l Hx]; [reflexivity|]. cbn in H. lia. Qed.
Lemma hd_F b a : desc r_pt b -> pos a -> pos b -> hd_pt (F b a) = Z.max (hd_pt a) (hd_pt b).
Proof.
  intros D Pa Pb. destruct a as [|x a].
  - destruct b as [|y b]; [reflexivity|]. rewrite F_step_right_nil by assumption. cbn. inversion Pb; subst. lia.
  - destruct b as [|y b]; [cbn; inversion Pa; subst; lia|]. destruct (Z_le_gt_dec (r_pt y) (r_pt x)).
    + rewrite F_step_left by assumption. cbn. lia.
    + rewrite F_step_right by (assumption || lia). cbn. lia.
Qed.

(** the choice made by the reference merge *)
Lemma merge_choice a b c : desc r_pt a -> desc r_pt b -> desc r_pt c -> pos a -> pos b -> pos c ->
  let T := F c (F b a) in
  if (hd_pt a >=? hd_pt b) && (hd_pt a >=? hd_pt c) then
    if hd_pt a =? 0 then T = [] else exists x a', a = x :: a' /\ T = x :: F c (F b a')
  else if (hd_pt a <? hd_pt b) && (hd_pt b >=? hd_pt c) then exists x b', b = x :: b' /\ T = x :: F c (F b' a)
  else exists x c', c = x :: c' /\ T = x :: F c' (F b a).
Proof.
  intros Da Db Dc Pa Pb Pc T. pose proof (hd_nonneg _ Pa). pose proof (hd_nonneg _ Pb). pose proof (hd_nonneg _ Pc).
  pose proof (hd_F b a Db Pa Pb) as HF.
  destruct ((hd_pt a >=? hd_pt b) && (hd_pt a >=? hd_pt c)) eqn:E1.
  - destruct (Z.eqb_spec (hd_pt a) 0) as [E|E].
    + unfold T. rewrite (hd_zero a), (hd_zero b), (hd_zero c) by (assumption || lia). reflexivity.
    + destruct a as [|x a]; [cbn in E; lia|]. exists x, a. split; [reflexivity|]. unfold T. cbn [hd_pt] in *.
      rewrite (FL x a b) by (assumption || lia). apply FL; [assumption|lia].
  - destruct ((hd_pt a <? hd_pt b) && (hd_pt b >=? hd_pt c)) eqn:E2.
    + destruct b as [|y b]; [cbn in *; lia|]. exists y, b. split; [reflexivity|]. unfold T. cbn [hd_pt] in *.
      rewrite (FR y b a) by (assumption || lia). apply FL; [assumption|lia].
    + destruct c as [|z c]; [cbn in *; lia|]. exists z, c. split; [reflexivity|]. unfold T. cbn [hd_pt] in *.
      apply FR; [assumption|lia].
Qed.

(** ** lists of slots *)
Definition slots (n : nat) p : list (robj A) := p ++ repeat clr (n - length p).

Lemma nth_error_repeat_lt {B} (v : B) n i : (i < n)%nat -> nth_error (repeat v n) i = Some v.
Proof. revert i; induction n as [|n IH]; intros [|i] H; cbn; try lia; [reflexivity|]. apply IH; lia. Qed.
Lemma nth_error_slots n p i : (length p <= n)%nat -> nth_error (slots n p) i =
  if (i <? length p)%nat then nth_error p i else if (i <? n)%nat then Some clr else None.
Proof.
  intros H. unfold slots. destruct (Nat.ltb_spec i (length p)).
  - apply nth_error_app1; assumption.
  - rewrite nth_error_app2 by assumption. destruct (Nat.ltb_spec i n).
    + apply nth_error_repeat_lt. lia.
    + apply nth_error_None. rewrite repeat_length. lia.
Qed.
Lemma slots_length n p : (length p <= n)%nat -> length (slots n p) = n.
Proof. intros H. unfold slots. rewrite app_length, repeat_length. lia. Qed.

Lemma K_slots n p : desc r_pt p -> (length p <= n)%nat -> K d n p = slots n p.
Proof. intros D H. rewrite K_eq, rsort_sorted, firstn_all2 by assumption. reflexivity. Qed.

Lemma filter_slots n p : pos p -> filter (fun x => 0 <? r_pt x) (slots n p) = p.
Proof.
  intros P. unfold slots. induction P as [|x p Hx P IH]; cbn [app filter].
  - cbn [length]. generalize (n - 0)%nat. intros k; induction k as [|k IH]; cbn; [reflexivity|]. assumption.
  - destruct (Z.ltb_spec 0 (r_pt x)); [|lia]. f_equal.
    assert (G : forall k, filter (fun x => 0 <? r_pt x) (p ++ repeat clr k) = p); [|apply G].
    intros k. rewrite filter_app. assert (E : filter (fun x => 0 <? r_pt x) p = p).
    { clear -P. induction P as [|y p Hy P IH]; cbn; [reflexivity|]. destruct (Z.ltb_spec 0 (r_pt y)); [|lia]. f_equal; assumption. }
    rewrite E. assert (R : filter (fun x => 0 <? r_pt x) (repeat clr k) = []).
    { induction k as [|k IHk]; cbn; [reflexivity|]. assumption. }
    rewrite R. apply app_nil_r.
Qed.

Lemma sorted_slots_form n l : sorted_slots d n l -> exists p, l = slots n p /\ (length p <= n)%nat /\ pos p /\ desc r_pt p.
Proof.
  intros (p & E & L & P & D). exists p. split; [exact E|]. split; [exact L|]. split.
  - apply Forall_forall. exact P.
  - clear -D. induction p as [|x p IH]; constructor.
    + apply IH. intros i j y z Hij Hy Hz. apply (D (S i) (S j) y z); [lia|assumption|assumption].
    + apply Forall_forall. intros y Hy. apply In_nth_error in Hy as [j Hj]. apply (D 0%nat (S j) x y); [lia|reflexivity|assumption].
Qed.

Lemma desc_map_phi s p : desc r_pt p -> desc r_pt (map (add_phi s) p).
Proof. intros D. induction D as [|x p D IH Q]; cbn; constructor; [exact IH|]. rewrite Forall_forall in *. intros y Hy. apply in_map_iff in Hy as (z & <- & Hz). exact (Q z Hz). Qed.
Lemma pos_map_phi s p : pos p -> pos (map (add_phi s) p).
Proof. intros P. induction P; cbn; constructor; assumption. Qed.

(** ** merge_smart *)
Lemma firstn_snoc {B} (l : list B) k (x : B) : nth_error l k = Some x -> firstn (k + 1) l = firstn k l ++ [x].
Proof. revert l; induction k as [|k IH]; intros [|y l] H; try discriminate; cbn in *; [congruence|]. f_equal. apply IH; assumption. Qed.

Definition posf l := filter (fun x => 0 <? r_pt x) l.

Lemma insert_list_K nreg nsec s l q : length l = nsec -> pos q ->
  insert_list nreg s l nsec (K d nreg q) = Ok (K d nreg (q ++ map (add_phi s) (posf l))).
Proof.
  intros L P. unfold insert_list.
  apply (foldM_states0 _ (fun k => K d nreg (q ++ map (add_phi s) (posf (firstn k l))))).
  - cbn. rewrite app_nil_r. reflexivity.
  - rewrite firstn_all2 by lia. reflexivity.
  - intros k Hk. destruct (nth_error_lt l k ltac:(lia)) as [x Ex]. unfold rd. rewrite Ex. cbn [bind].
    rewrite push_K.
    + f_equal. f_equal. rewrite (firstn_snoc _ _ _ Ex). unfold posf. rewrite filter_app, map_app, app_assoc. f_equal. cbn [filter].
      destruct (Z.ltb_spec 0 (r_pt x)); cbn [map]; [|reflexivity]. destruct (Z.gtb_spec (r_pt x) 0); [reflexivity|lia].
    + apply Forall_app. split; [assumption|]. apply pos_map_phi. apply Forall_forall. intros y Hy. unfold posf in Hy. apply filter_In in Hy. lia.
    + destruct (r_pt x >? 0); reflexivity.
Qed.

Lemma copy_loop nreg (tmp out : list (robj A)) : length tmp = nreg -> length out = nreg ->
  foldM (fun out i => do x <- rd tmp i; wr out i x) (seq 0 nreg) out = Ok tmp.
Proof.
  intros Ht Ho. apply (foldM_states0 _ (fun k => tab nreg (fun i => if (i <? k)%nat then nth i tmp clr else nth i out clr))).
  - rewrite (list_tab out clr) at 1. rewrite Ho. apply tab_ext. intros i Hi. reflexivity.
  - rewrite (list_tab tmp clr) at 1. rewrite Ht. apply tab_ext. intros i Hi. destruct (Nat.ltb_spec i nreg); [reflexivity|lia].
  - intros k Hk. rewrite (rd_Ok _ _ clr) by lia. cbn [bind]. rewrite wr_tab by assumption. f_equal. apply tab_ext. intros i Hi.
    natcases.
Qed.

Theorem merge_smart_K nsec nreg p1 s1 p2 s2 p3 s3 junk out :
  (nsec <= nreg)%nat -> length out = nreg ->
  (length p1 <= nsec)%nat -> (length p2 <= nsec)%nat -> (length p3 <= nsec)%nat ->
  pos p1 -> pos p2 -> pos p3 -> desc r_pt p1 ->
  merge_smart d nsec nreg (slots nsec p1) s1 (slots nsec p2) s2 (slots nsec p3) s3 junk out
  = Ok (K d nreg (map (add_phi s1) p1 ++ map (add_phi s2) p2 ++ map (add_phi s3) p3)).
Proof.
  intros Hn Ho L1 L2 L3 P1 P2 P3 D1. unfold merge_smart.
  set (g := fun i => let x := nth i (slots nsec p1) clr in if r_pt x >? 0 then add_phi s1 x else x).
  assert (E1 : foldM (fun tmp i => do x <- rd (slots nsec p1) i; wr tmp i (if r_pt x >? 0 then add_phi s1 x else x)) (seq 0 nsec) (map junk (seq 0 nreg))
             = Ok (tab nreg (fun i => if (i <? nsec)%nat then g i else junk i))).
  { apply (foldM_states0 _ (fun k => tab nreg (fun i => if (i <? k)%nat then g i else junk i))).
    - reflexivity.
    - reflexivity.
    - intros k Hk. rewrite (rd_Ok _ _ clr) by (rewrite slots_length; lia). cbn [bind]. fold (g k). rewrite wr_tab by lia. f_equal. apply tab_ext.
      intros i Hi. natcases. }
  rewrite E1. cbn [bind].
  assert (E2 : foldM (fun tmp i => wr tmp i (rclear d)) (seq nsec (nreg - nsec)) (tab nreg (fun i => if (i <? nsec)%nat then g i else junk i))
             = Ok (K d nreg (map (add_phi s1) p1))).
  { assert (E := foldM_states (fun tmp i => wr tmp i (rclear d)) (fun k => tab nreg (fun i => if (i <? nsec)%nat then g i else if (i <? k)%nat then clr else junk i)) nsec (nreg - nsec)).
    rewrite (tab_ext nreg _ (fun i => if (i <? nsec)%nat then g i else if (i <? nsec)%nat then clr else junk i)) by (intros i Hi; destruct (i <? nsec)%nat; reflexivity).
    rewrite E.
    - f_equal. replace (nsec + (nreg - nsec))%nat with nreg by lia.
      rewrite K_slots; [|apply desc_map_phi; assumption|rewrite map_length; lia].
      apply nth_error_ext. intros i. rewrite nth_error_tab, nth_error_slots by (rewrite map_length; lia). rewrite map_length.
      destruct (Nat.ltb_spec i nreg), (Nat.ltb_spec i (length p1)); try lia; try reflexivity.
      + destruct (Nat.ltb_spec i nsec); [|lia]. unfold g. destruct (nth_error_lt p1 i ltac:(lia)) as [x Ex].
        rewrite nth_error_map', Ex. cbn [option_map]. unfold slots. rewrite app_nth1 by assumption. rewrite (nth_error_nth _ _ clr Ex).
        unfold pos in P1. rewrite Forall_forall in P1. specialize (P1 x (nth_error_In _ _ Ex)).
        destruct (Z.gtb_spec (r_pt x) 0); [reflexivity|lia].
      + destruct (Nat.ltb_spec i nsec); [|reflexivity]. unfold g.
        assert (Q : nth_error (slots nsec p1) i = Some clr).
        { rewrite nth_error_slots by assumption. destruct (Nat.ltb_spec i (length p1)); [lia|]. destruct (Nat.ltb_spec i nsec); [reflexivity|lia]. }
        rewrite (nth_error_nth _ _ clr Q). reflexivity.
    - intros k Hk. rewrite wr_tab by lia. f_equal. apply tab_ext. intros i Hi.
      natcases. }
  rewrite E2. cbn [bind].
  rewrite insert_list_K; [|apply slots_length; assumption|apply pos_map_phi; assumption]. cbn [bind].
  unfold posf at 1. rewrite filter_slots by assumption.
  rewrite insert_list_K; [|apply slots_length; assumption|apply Forall_app; split; apply pos_map_phi; assumption]. cbn [bind].
  unfold posf. rewrite filter_slots by assumption. rewrite <- app_assoc.
  apply copy_loop; [apply K_length|assumption].
Qed.

(** a write past the end of tmp *)
Theorem merge_smart_oob nsec nreg l1 s1 l2 s2 l3 s3 junk out :
  (nreg < nsec)%nat -> length l1 = nsec ->
  merge_smart d nsec nreg l1 s1 l2 s2 l3 s3 junk out = UB OutOfBounds.
Proof.
  intros H L. unfold merge_smart. cbv zeta.
  assert (E : forall (m : nat) (t : list (robj A)), (nreg < m)%nat -> (m <= length l1)%nat -> length t = nreg ->
    foldM (fun tmp i => do x <- rd l1 i; wr tmp i (if r_pt x >? 0 then add_phi s1 x else x)) (seq 0 m) t = UB OutOfBounds).
  { intros m t Hm Hl Ht. replace m with (nreg + (m - nreg))%nat by lia. rewrite seq_app, foldM_app.
    assert (G := foldM_Ok (fun tmp i => do x <- rd l1 i; wr tmp i (if r_pt x >? 0 then add_phi s1 x else x))
       (fun tmp i => upd tmp i (if r_pt (nth i l1 clr) >? 0 then add_phi s1 (nth i l1 clr) else nth i l1 clr)) (fun t => length t = nreg) (seq 0 nreg) t).
    destruct G as [G1 G2]; [exact Ht| |].
    - intros u i Hu Hi. apply in_seq in Hi. rewrite (rd_Ok _ _ clr) by lia. cbn [bind]. rewrite wr_Ok by lia. split; [reflexivity|].
      rewrite length_upd. assumption.
    - rewrite G1. cbn [bind]. revert G2.
      match goal with |- length ?u = _ -> _ => generalize u end. intros u Hu.
      destruct (m - nreg)%nat as [|k] eqn:Ek; [lia|]. cbn [seq foldM]. cbn [Nat.add].
      rewrite (rd_Ok _ _ clr) by lia. cbn [bind]. unfold wr at 1. destruct (Nat.ltb_spec nreg (length u)); [lia|reflexivity]. }
  rewrite E; [reflexivity|assumption|lia|]. rewrite map_length, seq_length. reflexivity.
Qed.

(** ** merge_sectors_ref *)
Lemma slots_head nsec p s i : (length p <= nsec)%nat -> pos p ->
  head_pt nsec (slots nsec p) i = Ok (hd_pt (skipn i (map (add_phi s) p))) /\
  (forall x a, skipn i (map (add_phi s) p) = x :: a ->
     (i < nsec)%nat /\ exists y, rd (slots nsec p) i = Ok y /\ x = add_phi s y /\ a = skipn (S i) (map (add_phi s) p)).
Proof.
  intros L P. unfold head_pt. assert (E : nth_error (skipn i (map (add_phi s) p)) 0 = option_map (add_phi s) (nth_error p i)).
  { rewrite nth_error_skipn, Nat.add_0_r. apply nth_error_map'. }
  assert (Hd : hd_pt (skipn i (map (add_phi s) p)) = match nth_error p i with Some x => r_pt x | None => 0 end).
  { destruct (skipn i (map (add_phi s) p)) as [|x a]; cbn in E; destruct (nth_error p i); cbn in E; try discriminate; [reflexivity|].
    injection E as ->. reflexivity. }
  split.
  - rewrite Hd. unfold rd. rewrite nth_error_slots by assumption. destruct (nth_error p i) as [y|] eqn:Ey.
    + assert (i < length p)%nat by (apply nth_error_Some; congruence). destruct (Nat.ltb_spec i nsec); [|lia].
      destruct (Nat.ltb_spec i (length p)); [|lia]. reflexivity.
    + apply nth_error_None in Ey. destruct (Nat.ltb_spec i (length p)); [lia|]. destruct (Nat.ltb_spec i nsec); reflexivity.
  - intros x a Ex. rewrite Ex in E. cbn in E. destruct (nth_error p i) as [y|] eqn:Ey; [|discriminate]. cbn in E. injection E as ->.
    assert (i < length p)%nat by (apply nth_error_Some; congruence). split; [lia|]. exists y. split; [|split; [reflexivity|]].
    + unfold rd. rewrite nth_error_slots by assumption. destruct (Nat.ltb_spec i (length p)); [|lia]. rewrite Ey. reflexivity.
    + clear -Ex. revert Ex. generalize (map (add_phi s) p) as l. revert a. induction i as [|i IH]; intros a [|z l] Ex; cbn in *; try discriminate.
      * injection Ex as _ <-. reflexivity.
      * apply IH. assumption.
Qed.

Lemma desc_skipn i l : desc r_pt l -> desc r_pt (skipn i l).
Proof. revert l; induction i as [|i IH]; intros [|x l] D; cbn; try assumption. apply IH. inversion D; assumption. Qed.
Lemma pos_skipn i l : pos l -> pos (skipn i l).
Proof. revert l; induction i as [|i IH]; intros [|x l] D; cbn; try assumption. apply IH. inversion D; assumption. Qed.

Lemma skipn_cons_firstn {B} (l : list B) i (x : B) r : skipn i l = x :: r -> firstn (i + 1) l = firstn i l ++ [x] /\ skipn (i + 1) l = r /\ (i < length l)%nat.
Proof.
  revert l; induction i as [|i IH]; intros [|y l] E; cbn in *; try discriminate.
  - injection E as -> ->. repeat split. lia.
  - destruct (IH l E) as (H1 & H2 & H3). rewrite H1, H2. repeat split. lia.
Qed.

Lemma wr_slots n p v : (length p < n)%nat -> wr (slots n p) (length p) v = Ok (slots n (p ++ [v])).
Proof.
  intros H. rewrite wr_Ok by (rewrite slots_length; lia). f_equal. unfold slots. rewrite app_length. cbn [length].
  replace (n - length p)%nat with (S (n - (length p + 1))) by lia. cbn [repeat]. generalize (n - (length p + 1))%nat. intros k.
  clear H. induction p as [|y p IH]; cbn [length upd app]; [reflexivity|]. f_equal. apply IH.
Qed.

Section refm.
Context (nsec nreg : nat) (p1 p2 p3 : list (robj A)) (s1 s2 s3 : Z).
Hypothesis (L1 : (length p1 <= nsec)%nat) (L2 : (length p2 <= nsec)%nat) (L3 : (length p3 <= nsec)%nat).
Hypothesis (P1 : pos p1) (P2 : pos p2) (P3 : pos p3) (D1 : desc r_pt p1) (D2 : desc r_pt p2) (D3 : desc r_pt p3).

Definition mtotal : list (robj A) := F (map (add_phi s3) p3) (F (map (add_phi s2) p2) (map (add_phi s1) p1)).

Definition minv (i : nat) (st : mstate A) : Prop :=
  let T := mtotal in
  if m_break st then m_out st = slots nreg T /\ (length T <= nreg)%nat
  else (i <= length T)%nat /\ m_out st = slots nreg (firstn i T) /\
       skipn i T = F (skipn (m_i3 st) (map (add_phi s3) p3)) (F (skipn (m_i2 st) (map (add_phi s2) p2)) (skipn (m_i1 st) (map (add_phi s1) p1))).

Lemma merge_ref_step_inv i st : (i < nreg)%nat -> minv i st ->
  exists st', merge_ref_step nsec (slots nsec p1) s1 (slots nsec p2) s2 (slots nsec p3) s3 st i = Ok st' /\ minv (i + 1) st'.
Proof.
  intros Hi. unfold minv at 1, merge_ref_step. destruct st as [i1 i2 i3 out br]. cbn [m_break m_out m_i1 m_i2 m_i3].
  destruct br; [intros H; eexists; split; [reflexivity|exact H]|].
  intros (HT & Ho & HS).
  destruct (slots_head nsec p1 s1 i1 L1 P1) as [H1 R1]. destruct (slots_head nsec p2 s2 i2 L2 P2) as [H2 R2]. destruct (slots_head nsec p3 s3 i3 L3 P3) as [H3 R3].
  rewrite H1, H2, H3. cbn [bind].
  assert (C := merge_choice (skipn i1 (map (add_phi s1) p1)) (skipn i2 (map (add_phi s2) p2)) (skipn i3 (map (add_phi s3) p3))
    (desc_skipn _ _ (desc_map_phi s1 _ D1)) (desc_skipn _ _ (desc_map_phi s2 _ D2)) (desc_skipn _ _ (desc_map_phi s3 _ D3))
    (pos_skipn _ _ (pos_map_phi s1 _ P1)) (pos_skipn _ _ (pos_map_phi s2 _ P2)) (pos_skipn _ _ (pos_map_phi s3 _ P3))).
  cbv zeta in C. rewrite <- HS in C.
  assert (W : forall x r, skipn i mtotal = x :: r -> wr out i x = Ok (slots nreg (firstn (i + 1) mtotal)) /\ skipn (i + 1) mtotal = r /\ (i + 1 <= length mtotal)%nat).
  { intros x r E. destruct (skipn_cons_firstn _ _ _ _ E) as (E1 & E2 & E3). split; [|split; [assumption|lia]].
    rewrite Ho, E1. assert (Lf : length (firstn i mtotal) = i) by (rewrite firstn_length; lia).
    rewrite <- Lf at 2. apply wr_slots. lia. }
  destruct ((_ >=? _) && (_ >=? _)).
  - destruct (Z.eqb_spec (hd_pt (skipn i1 (map (add_phi s1) p1))) 0) as [Z|Z].
    + eexists. split; [reflexivity|]. unfold minv. cbn [m_break m_out].
      assert (LT : length mtotal = i). { assert (Q := firstn_skipn i mtotal). rewrite C, app_nil_r in Q. rewrite <- Q, firstn_length. lia. }
      split; [|lia]. rewrite Ho, firstn_all2 by lia. reflexivity.
    + destruct C as (x & a' & Ea & ET). destruct (R1 x a' Ea) as (B & y & Ey & -> & ->). rewrite Ey. cbn [bind].
      destruct (W _ _ ET) as (W1 & W2 & W3). rewrite W1. cbn [bind]. eexists. split; [reflexivity|]. unfold minv. cbn [m_break m_out m_i1 m_i2 m_i3].
      split; [assumption|]. split; [reflexivity|]. exact W2.
  - destruct ((_ <? _) && (_ >=? _)).
    + destruct C as (x & a' & Ea & ET). destruct (R2 x a' Ea) as (B & y & Ey & -> & ->). destruct (Nat.ltb_spec i2 nsec); [|lia]. rewrite Ey. cbn [bind].
      destruct (W _ _ ET) as (W1 & W2 & W3). rewrite W1. cbn [bind]. eexists. split; [reflexivity|]. unfold minv. cbn [m_break m_out m_i1 m_i2 m_i3].
      split; [assumption|]. split; [reflexivity|]. exact W2.
    + destruct C as (x & a' & Ea & ET). destruct (R3 x a' Ea) as (B & y & Ey & -> & ->). destruct (Nat.ltb_spec i3 nsec); [|lia]. rewrite Ey. cbn [bind].
      destruct (W _ _ ET) as (W1 & W2 & W3). rewrite W1. cbn [bind]. eexists. split; [reflexivity|]. unfold minv. cbn [m_break m_out m_i1 m_i2 m_i3].
      split; [assumption|]. split; [reflexivity|]. exact W2.
Qed.

Lemma merge_ref_loop k : (k <= nreg)%nat ->
  exists st, foldM (merge_ref_step nsec (slots nsec p1) s1 (slots nsec p2) s2 (slots nsec p3) s3) (seq 0 k) (mkM 0 0 0 (repeat clr nreg) false) = Ok st /\ minv k st.
Proof.
  induction k as [|k IH]; intros Hk.
  - eexists. split; [reflexivity|]. unfold minv; cbn [m_break m_out m_i1 m_i2 m_i3 firstn skipn]. split; [lia|]. split; [|reflexivity].
    unfold slots. cbn [length app]. rewrite Nat.sub_0_r. reflexivity.
  - destruct IH as (st & E & I); [lia|]. rewrite seq_S, foldM_app, E. cbn [bind foldM Nat.add].
    destruct (merge_ref_step_inv k st ltac:(lia) I) as (st' & E' & I'). rewrite E'. cbn [bind]. exists st'. split; [reflexivity|].
    replace (S k) with (k + 1)%nat by lia. assumption.
Qed.

Lemma mtotal_rsort : mtotal = rsort false r_pt (map (add_phi s1) p1 ++ map (add_phi s2) p2 ++ map (add_phi s3) p3).
Proof.
  unfold rsort. rewrite !fold_left_app. unfold mtotal, F. f_equal. f_equal. symmetry.
  apply (rsort_sorted (map (add_phi s1) p1)). apply desc_map_phi. assumption.
Qed.

Theorem merge_ref_K out : length out = nreg ->
  merge_sectors_ref d nsec nreg (slots nsec p1) s1 (slots nsec p2) s2 (slots nsec p3) s3 out
  = Ok (K d nreg (map (add_phi s1) p1 ++ map (add_phi s2) p2 ++ map (add_phi s3) p3)).
Proof.
  intros Ho. unfold merge_sectors_ref.
  assert (E0 : map (fun _ => clr) out = repeat clr nreg).
  { rewrite <- Ho. clear. induction out; cbn; [reflexivity|]. f_equal; assumption. }
  rewrite E0. destruct (merge_ref_loop nreg ltac:(lia)) as (st & E & I). rewrite E. cbn [bind]. f_equal.
  rewrite K_eq, <- mtotal_rsort. change (m_out st = slots nreg (firstn nreg mtotal)).
  unfold minv in I. destruct (m_break st); [|tauto]. destruct I as [I L]. rewrite firstn_all2 by assumption. assumption.
Qed.
End refm.
End merge.
