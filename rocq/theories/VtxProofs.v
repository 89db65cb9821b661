(** Proofs about the simple vertex finders. *)
From Coq Require Import Permutation.
From Verif Require Import Base BaseFacts Bhv SpecBhv BhvProofs Vtx SpecVtx.

Lemma wrapS_small w x : 0 < w -> inS w x -> wrapS w x = x.
Proof.
  intros Hw H. unfold inS in H. unfold wrapS. assert (2 ^ w = 2 * 2 ^ (w - 1)) as E.
  { rewrite <- (Z.pow_succ_r 2 (w - 1)) by lia. f_equal. lia. }
  rewrite Z.mod_small by lia. lia.
Qed.

Lemma wrapS_add w a b : 0 < w -> wrapS w (wrapS w a + wrapS w b) = wrapS w (a + b).
Proof.
  intros Hw. unfold wrapS. set (h := 2 ^ (w - 1)). set (m := 2 ^ w).
  assert (0 < m) by (apply Z.pow_pos_nonneg; lia).
  replace (((a + h) mod m - h + ((b + h) mod m - h)) + h) with ((a + h) mod m + ((b + h) mod m - h)) by lia.
  rewrite Zplus_mod_idemp_l. replace (a + h + ((b + h) mod m - h)) with ((b + h) mod m + a) by lia.
  rewrite Zplus_mod_idemp_l. f_equal. f_equal. lia.
Qed.
Lemma wrapS_add_l w a b : 0 < w -> wrapS w (wrapS w a + b) = wrapS w (a + b).
Proof.
  intros Hw. unfold wrapS. set (h := 2 ^ (w - 1)). set (m := 2 ^ w).
  assert (0 < m) by (apply Z.pow_pos_nonneg; lia).
  replace (((a + h) mod m - h + b) + h) with ((a + h) mod m + b) by lia.
  rewrite Zplus_mod_idemp_l. f_equal. f_equal. lia.
Qed.

(** ** bins of the reference *)
Lemma ref_bin_spec z : inS 10 z -> (bad_z0 z -> ref_bin z = 15) /\ (~ bad_z0 z -> ref_bin z = slice z /\ 0 <= slice z < 15).
Proof.
  unfold inS, bad_z0, ref_bin, slice, NVTXBINS, wrapS. change (2 ^ (10 - 1)) with 512. change (2 ^ (5 - 1)) with 16. change (2 ^ 5) with 32.
  change (Z.of_nat 15) with 15.
  intros Hz. assert (Z.quot z 20 = if z <? 0 then - (- z / 20) else z / 20) as ->.
  { destruct (z <? 0) eqn:E.
    - replace z with (- (- z)) at 1 by lia. rewrite Z.quot_opp_l by lia. rewrite Z.quot_div_nonneg by lia. reflexivity.
    - apply Z.quot_div_nonneg; lia. }
  set (q := if z <? 0 then - (- z / 20) else z / 20).
  assert (Hq : q = if z <? 0 then - (- z / 20) else z / 20) by reflexivity. clearbody q.
  split.
  - intros [H|H]; (assert (q = 15 \/ q = -17) as [-> | ->] by (destruct (z <? 0) eqn:E; lia); reflexivity).
  - intros H.
    destruct (Z_lt_ge_dec z (-359)); [|destruct (Z_lt_ge_dec z 20); [|destruct (Z_lt_ge_dec z 320)]].
    + replace (z <? -359) with true by lia. replace (z <? 0) with true in Hq by lia.
      replace ((q + 16) mod 32 - 16) with (q + 32) by lia.
      replace (q + 32 <? 0) with false by lia. replace (q + 32 >? 15) with false by lia. lia.
    + replace (z <? -359) with false by lia. replace (z <? 20) with true by lia.
      assert (-16 <= q <= 0) by (destruct (z <? 0) eqn:E; lia).
      replace ((q + 16) mod 32 - 16) with q by lia. destruct (q <? 0) eqn:E; [cbn; lia|].
      replace (q >? 15) with false by lia. lia.
    + replace (z <? -359) with false by lia. replace (z <? 20) with false by lia. replace (z <? 320) with true by lia.
      replace (z <? 0) with false in Hq by lia. replace ((q + 16) mod 32 - 16) with q by lia.
      replace (q <? 0) with false by lia. replace (q >? 15) with false by lia. lia.
    + replace (z <? -359) with false by lia. replace (z <? 20) with false by lia. replace (z <? 320) with false by lia.
      replace (z <? 0) with false in Hq by lia. replace ((q + 16) mod 32 - 16) with (q - 32) by lia.
      replace (q - 32 <? 0) with true by lia. cbn. lia.
Qed.

Lemma bad_dec z : {bad_z0 z} + {~ bad_z0 z}.
Proof.
  unfold bad_z0. destruct (Z_le_gt_dec 300 z), (Z_le_gt_dec z 319), (Z_le_gt_dec (-359) z), (Z_le_gt_dec z (-340)); try (left; lia); right; lia.
Qed.

(** ** filling one bin *)
Lemma bump_ok w a i d x : 0 <= i -> nth_error a (Z.to_nat i) = Some x -> bump w a i d = Ok (upd a (Z.to_nat i) (wrapS w (x + d))).
Proof.
  intros Hi E. unfold bump. replace (i <? 0) with false by lia. unfold rd. rewrite E. cbn [bind]. unfold wr.
  assert (Z.to_nat i < length a)%nat by (apply nth_error_Some; congruence).
  replace (Z.to_nat i <? length a)%nat with true by (symmetry; apply Nat.ltb_lt; lia). reflexivity.
Qed.
Lemma bump_oob w a i d : 0 <= i -> (length a <= Z.to_nat i)%nat -> bump w a i d = UB OutOfBounds.
Proof.
  intros Hi E. unfold bump. replace (i <? 0) with false by lia. unfold rd. rewrite (proj2 (nth_error_None _ _)) by lia. reflexivity.
Qed.

Lemma c31 tracks old : Forall (fun t => inS 10 (v_z0 t)) tracks ->
  ((exists t, In t tracks /\ bad_z0 (v_z0 t)) -> simple_vtx_ref tracks old = UB OutOfBounds) /\
  ((forall t, In t tracks -> ~ bad_z0 (v_z0 t)) -> exists o, simple_vtx_ref tracks old = Ok o).
Proof.
  intros H. unfold simple_vtx_ref.
  assert (forall vb sb, length vb = 15%nat -> length sb = 15%nat ->
    ((exists t, In t tracks /\ bad_z0 (v_z0 t)) -> foldM vtx_ref_fill tracks (vb, sb) = UB OutOfBounds) /\
    ((forall t, In t tracks -> ~ bad_z0 (v_z0 t)) -> exists vb' sb', foldM vtx_ref_fill tracks (vb, sb) = Ok (vb', sb') /\ length vb' = 15%nat /\ length sb' = 15%nat)) as G.
  { induction H as [|t l Ht H IH]; intros vb sb Lv Ls.
    - split; [intros (t & [] & _)|]. intros _. exists vb, sb. auto.
    - destruct (ref_bin_spec _ Ht) as (B1 & B2). cbn [foldM vtx_ref_fill].
      destruct (bad_dec (v_z0 t)) as [B|B].
      + rewrite (B1 B). rewrite bump_oob by (rewrite ?Lv; change (Z.to_nat 15) with 15%nat; lia). cbn [bind]. split; [reflexivity|].
        intros N. exfalso. exact (N t (or_introl eq_refl) B).
      + destruct (B2 B) as (-> & R).
        destruct (nth_error vb (Z.to_nat (slice (v_z0 t)))) as [x|] eqn:E1; [|apply nth_error_None in E1; lia].
        destruct (nth_error sb (Z.to_nat (slice (v_z0 t)))) as [y|] eqn:E2; [|apply nth_error_None in E2; lia].
        rewrite (bump_ok 5 _ _ _ _ (proj1 R) E1). cbn [bind]. rewrite (bump_ok 16 _ _ _ _ (proj1 R) E2). cbn [bind].
        edestruct (IH (upd vb (Z.to_nat (slice (v_z0 t))) (wrapS 5 (x + 1))) (upd sb (Z.to_nat (slice (v_z0 t))) (wrapS 16 (y + clip_pt (v_pt t))))) as (I1 & I2);
          [rewrite upd_length; assumption|rewrite upd_length; assumption|].
        split.
        * intros (u & [<-|Hu] & Bu); [contradiction|]. apply I1. exists u. auto.
        * intros N. apply I2. intros u Hu. apply N. right. exact Hu. }
  destruct (G (repeat 0 NVTXBINS) (repeat 0 NVTXBINS)) as (G1 & G2); try apply repeat_length.
  split.
  - intros E. rewrite (G1 E). reflexivity.
  - intros N. destruct (G2 N) as (vb & sb & -> & Lv & Ls). cbn [bind].
    destruct (foldM_seq_inv (vtx_ref_scan vb sb) (fun _ _ => True) NVTXBINS (mkVtx 0 0 0 (x_id old)) I) as (o & -> & _).
    + intros k s Hk _. unfold NVTXBINS in Hk. unfold vtx_ref_scan, rd.
      destruct (nth_error vb k) as [x|] eqn:E1; [|apply nth_error_None in E1; lia].
      destruct (nth_error sb k) as [y|] eqn:E2; [|apply nth_error_None in E2; lia].
      cbn [bind]. destruct (y >? x_sum s); eauto.
    + cbn [bind]. eauto.
Qed.

(** ** content of the two histograms of the reference *)

Lemma clip_min pt : clip_pt pt = Z.min 200 pt.
Proof. unfold clip_pt, VTXPTMAX. destruct (pt >? 200) eqn:E; lia. Qed.

Lemma slice_sum_cons f t l b : slice_sum f (t :: l) b = (if f (v_z0 t) =? Z.of_nat b then Z.min 200 (v_pt t) else 0) + slice_sum f l b.
Proof. unfold slice_sum, in_slice. cbn [filter]. destruct (f (v_z0 t) =? Z.of_nat b); [reflexivity|lia]. Qed.
Lemma slice_count_cons f t l b : slice_count f (t :: l) b = (if f (v_z0 t) =? Z.of_nat b then 1 else 0) + slice_count f l b.
Proof. unfold slice_count, in_slice. cbn [filter]. destruct (f (v_z0 t) =? Z.of_nat b); cbn [length]; lia. Qed.
Lemma slice_countp_cons f t l b : slice_count_pos f (t :: l) b = (if (f (v_z0 t) =? Z.of_nat b) && (0 <? v_pt t) then 1 else 0) + slice_count_pos f l b.
Proof. unfold slice_count_pos, in_slice. cbn [filter]. destruct (f (v_z0 t) =? Z.of_nat b); cbn [filter]; [destruct (0 <? v_pt t)|]; cbn [length andb]; lia. Qed.

Lemma nth_error_upd {A} (l : list A) i j v : (i < length l)%nat -> nth_error (upd l i v) j = if Nat.eqb i j then Some v else nth_error l j.
Proof.
  intros H. destruct (Nat.eqb_spec i j) as [<-|N]; [apply nth_error_upd_same; exact H|apply nth_error_upd_other; exact N].
Qed.

Lemma vtx_fill_spec tracks : Forall vt_ok tracks -> forall vb sb, length vb = 15%nat -> length sb = 15%nat ->
  (forall b x, nth_error vb b = Some x -> inS 5 x) -> (forall b x, nth_error sb b = Some x -> inS 16 x) ->
  exists vb' sb', foldM vtx_ref_fill tracks (vb, sb) = Ok (vb', sb') /\ length vb' = 15%nat /\ length sb' = 15%nat /\
    (forall b x, nth_error vb b = Some x -> nth_error vb' b = Some (wrapS 5 (x + slice_count slice tracks b))) /\
    (forall b x, nth_error sb b = Some x -> nth_error sb' b = Some (wrapS 16 (x + slice_sum slice tracks b))).
Proof.
  induction 1 as [|t l (Hz & Hp & Nb) H IH]; intros vb sb Lv Ls Rv Rs.
  - exists vb, sb. repeat split; auto; intros b x E; rewrite E; f_equal; unfold slice_count, slice_sum, in_slice; cbn; rewrite Z.add_0_r;
      symmetry; apply wrapS_small; try lia; eauto.
  - destruct (ref_bin_spec _ Hz) as (_ & B2). destruct (B2 Nb) as (E & R). cbn [foldM vtx_ref_fill]. rewrite E. clear B2 E.
    set (i := Z.to_nat (slice (v_z0 t))).
    destruct (nth_error vb i) as [x0|] eqn:E1; [|apply nth_error_None in E1; lia].
    destruct (nth_error sb i) as [y0|] eqn:E2; [|apply nth_error_None in E2; lia].
    rewrite (bump_ok 5 _ _ _ _ (proj1 R) E1). cbn [bind]. rewrite (bump_ok 16 _ _ _ _ (proj1 R) E2). cbn [bind]. fold i.
    rewrite clip_min.
    assert (forall w v, 0 < w -> inS w (wrapS w v)) as RW.
    { intros w v Hw. unfold inS, wrapS. assert (2 ^ w = 2 * 2 ^ (w - 1)) by (rewrite <- (Z.pow_succ_r 2 (w - 1)) by lia; f_equal; lia).
      assert (0 < 2 ^ (w - 1)) by (apply Z.pow_pos_nonneg; lia). pose proof (Z.mod_pos_bound (v + 2 ^ (w - 1)) (2 ^ w) ltac:(lia)). lia. }
    destruct (IH (upd vb i (wrapS 5 (x0 + 1))) (upd sb i (wrapS 16 (y0 + Z.min 200 (v_pt t))))) as (vb' & sb' & Ef & L1 & L2 & N1 & N2);
      rewrite ?upd_length; auto.
    { intros b x Hx. rewrite nth_error_upd in Hx by lia. destruct (Nat.eqb i b); [injection Hx as <-; apply RW; lia|eauto]. }
    { intros b x Hx. rewrite nth_error_upd in Hx by lia. destruct (Nat.eqb i b); [injection Hx as <-; apply RW; lia|eauto]. }
    exists vb', sb'. split; [exact Ef|]. split; [exact L1|]. split; [exact L2|]. split.
    + intros b x Hx. rewrite slice_count_cons. specialize (N1 b). rewrite nth_error_upd in N1 by lia. destruct (Nat.eqb_spec i b) as [Eib|Nb2].
      * subst b. rewrite E1 in Hx. injection Hx as <-. rewrite (N1 _ eq_refl). replace (slice (v_z0 t) =? Z.of_nat i) with true by (subst i; lia).
        rewrite wrapS_add_l by lia. do 2 f_equal. lia.
      * rewrite (N1 _ Hx). replace (slice (v_z0 t) =? Z.of_nat b) with false by (subst i; lia). reflexivity.
    + intros b x Hx. rewrite slice_sum_cons. specialize (N2 b). rewrite nth_error_upd in N2 by lia. destruct (Nat.eqb_spec i b) as [Eib|Nb2].
      * subst b. rewrite E2 in Hx. injection Hx as <-. rewrite (N2 _ eq_refl). replace (slice (v_z0 t) =? Z.of_nat i) with true by (subst i; lia).
        rewrite wrapS_add_l by lia. do 2 f_equal. lia.
      * rewrite (N2 _ Hx). replace (slice (v_z0 t) =? Z.of_nat b) with false by (subst i; lia). reflexivity.
Qed.

(** ** the scan over bins, for both functions *)
Definition scan_with (g : nat -> Z) (vb sb : list Z) (o : vtxobj) (it : nat) : res vtxobj :=
  do s <- rd sb it;
  if s >? x_sum o then do m <- rd vb it; Ok (mkVtx s (g it) m (x_id o)) else Ok o.

(** either all sums are 0 (or nothing scanned) and the object is unchanged, or
    it describes the first maximum *)
Lemma scan_with_spec g vb sb f n z0 m0 id0 : (forall b, (b < n)%nat -> nth_error sb b = Some (f b)) -> (forall b, (b < n)%nat -> exists x, nth_error vb b = Some x) ->
  (forall b, 0 <= f b) ->
  exists o, foldM (scan_with g vb sb) (seq 0 n) (mkVtx 0 z0 m0 id0) = Ok o /\ x_id o = id0 /\
    (((forall b, (b < n)%nat -> f b = 0) /\ o = mkVtx 0 z0 m0 id0) \/
     exists b m, first_max f n b (x_sum o) /\ 0 < x_sum o /\ nth_error vb b = Some m /\ o = mkVtx (x_sum o) (g b) m id0).
Proof.
  intros Es Ev P.
  destruct (foldM_seq_inv (scan_with g vb sb) (fun k o => x_id o = id0 /\
    (((forall b, (b < k)%nat -> f b = 0) /\ o = mkVtx 0 z0 m0 id0) \/
     exists b m, first_max f k b (x_sum o) /\ 0 < x_sum o /\ nth_error vb b = Some m /\ o = mkVtx (x_sum o) (g b) m id0)) n (mkVtx 0 z0 m0 id0)) as (o & E & I).
  - split; [reflexivity|]. left. split; [intros; lia|reflexivity].
  - intros k o Hk (Ei & C). unfold scan_with, rd. rewrite (Es k Hk). cbn [bind]. destruct (Ev k Hk) as (x & Ex). rewrite Ex. cbn [bind].
    destruct (f k >? x_sum o) eqn:G.
    + eexists. split; [reflexivity|]. cbn [x_id x_sum]. split; [exact Ei|]. right. exists k, x.
      assert (forall j, (j < k)%nat -> f j < f k) as M.
      { intros j Hj. destruct C as [(A & ->)|(b & m & [L V M F] & Hs & _)]; [cbn in G; rewrite (A j Hj); lia|]. specialize (M j Hj). lia. }
      assert (0 <= x_sum o) by (destruct C as [(A & ->)|(b & m & _ & Hs & _)]; [cbn; lia|lia]).
      repeat split; auto; try lia; try congruence. intros j Hj. destruct (Nat.eq_dec j k) as [->|]; [lia|]. specialize (M j ltac:(lia)). lia.
    + exists o. split; [reflexivity|]. split; [exact Ei|]. destruct C as [(A & E)|(b & m & [L V M F] & Hs & Eb & E)].
      * left. split; [|exact E]. intros j Hj. destruct (Nat.eq_dec j k) as [->|]; [subst o; cbn in G; specialize (P k); lia|apply A; lia].
      * right. exists b, m. repeat split; auto; try lia. intros j Hj. destruct (Nat.eq_dec j k) as [->|]; [lia|apply M; lia].
  - exists o. tauto.
Qed.

Lemma slice_sum_bound f ts b : Forall (fun t => 0 <= v_pt t) ts -> 0 <= slice_sum f ts b <= 200 * Z.of_nat (length ts).
Proof.
  induction 1 as [|t l Ht H IH]; [unfold slice_sum; cbn; lia|]. rewrite slice_sum_cons. cbn [length]. destruct (f (v_z0 t) =? Z.of_nat b); lia.
Qed.

Lemma inS0 w : 0 < w -> inS w 0.
Proof. intros H. unfold inS. assert (0 < 2 ^ (w - 1)) by (apply Z.pow_pos_nonneg; lia). lia. Qed.

Lemma repeat0_range w n b x : 0 < w -> nth_error (repeat 0 n) b = Some x -> inS w x.
Proof. intros Hw E. apply nth_error_In in E. apply repeat_spec in E. subst. apply inS0. exact Hw. Qed.

Lemma c32 tracks old : Forall vt_ok tracks -> Z.of_nat (length tracks) <= 163 ->
  ((forall b, (b < NVTXBINS)%nat -> slice_sum slice tracks b = 0) /\ simple_vtx_ref tracks old = Ok (mkVtx 0 0 0 0)) \/
  exists b s, first_max (slice_sum slice tracks) NVTXBINS b s /\ 0 < s /\
    simple_vtx_ref tracks old = Ok (mkVtx s (20 * Z.of_nat b + 10) (wrapS 5 (slice_count slice tracks b))
      (if wrapS 5 (slice_count slice tracks b) >? 3 then 1 else 0)).
Proof.
  intros H L. unfold simple_vtx_ref.
  destruct (vtx_fill_spec tracks H (repeat 0 NVTXBINS) (repeat 0 NVTXBINS)) as (vb & sb & -> & Lv & Ls & N1 & N2); try apply repeat_length;
    try (intros b x E; eapply repeat0_range; [|exact E]; lia).
  cbn [bind].
  assert (forall b, 0 <= slice_sum slice tracks b <= 200 * Z.of_nat (length tracks)) as B.
  { intros b. apply slice_sum_bound. eapply Forall_impl; [|exact H]. intros a (_ & Ha & _). lia. }
  destruct (scan_with_spec (fun it => wrapS 10 (Z.of_nat it * 20 + 10)) vb sb (slice_sum slice tracks) NVTXBINS 0 0 (x_id old)) as (o & E & Ei & C).
  - intros b Hb. rewrite (N2 b 0) by (apply nth_error_repeat'; exact Hb). f_equal. rewrite Z.add_0_l. apply wrapS_small; [lia|].
    unfold inS. change (2 ^ (16 - 1)) with 32768. specialize (B b). lia.
  - intros b Hb. eexists. apply N1. apply nth_error_repeat'. exact Hb.
  - intros b. apply B.
  - change (vtx_ref_scan vb sb) with (scan_with (fun it => wrapS 10 (Z.of_nat it * 20 + 10)) vb sb). rewrite E. cbn [bind].
    destruct C as [(A & ->)|(b & m & FM & Hs & Em & Eo)].
    + left. split; [exact A|reflexivity].
    + right. exists b, (x_sum o). split; [exact FM|]. split; [exact Hs|]. rewrite Eo. unfold vtx_flag. cbn [x_sum x_z0 x_mult].
      pose proof (fm_lt _ _ _ _ FM) as Lb. rewrite (N1 b 0) in Em by (apply nth_error_repeat'; exact Lb). injection Em as <-. rewrite ?Z.add_0_l.
      rewrite (wrapS_small 10) by (try lia; unfold inS; unfold NVTXBINS in Lb; cbn; lia). do 2 f_equal. lia.
Qed.

(** ** tree reduction *)
Definition range_sum (m : nat -> Z) (i n : nat) : Z := sumZ (map m (seq i n)).
Lemma range_sum_app m i a b : range_sum m i (a + b) = range_sum m i a + range_sum m (i + a) b.
Proof. unfold range_sum. rewrite seq_app, map_app, sumZ_app. reflexivity. Qed.

(** [m] is an n x cols matrix with entries [f i j] *)
Definition is_matrix (n cols : nat) (m : list (list Z)) : Prop :=
  length m = n /\ Forall (fun r => length r = cols) m.

Definition entry (m : list (list Z)) (i j : nat) (v : Z) : Prop := exists r, nth_error m i = Some r /\ nth_error r j = Some v.

Lemma row_add_nth w a b j x y : nth_error a j = Some x -> nth_error b j = Some y -> nth_error (row_add w a b) j = Some (wrapS w (x + y)).
Proof.
  unfold row_add. revert b j. induction a as [|a0 a IH]; intros [|b0 b] [|j] Ea Eb; cbn in *; try congruence.
  apply IH; assumption.
Qed.
Lemma row_add_length w a b : length b = length a -> length (row_add w a b) = length a.
Proof. intros H. unfold row_add. rewrite map_length, combine_length. lia. Qed.

Lemma tree_level w pow cnt cols (f : nat -> nat -> Z) m : (0 < pow)%nat -> 0 < w ->
  is_matrix (2 * pow * cnt) cols m ->
  (forall q j, (q < 2 * cnt)%nat -> (j < cols)%nat -> entry m (q * pow) j (wrapS w (f (q * pow)%nat j))) ->
  exists m', foldM (tree_add w pow) (strided (2 * pow * cnt) (pow * 2)) m = Ok m' /\ is_matrix (2 * pow * cnt) cols m' /\
    forall q j, (q < cnt)%nat -> (j < cols)%nat -> entry m' (q * (2 * pow)) j (wrapS w (f (q * (2 * pow))%nat j + f (q * (2 * pow) + pow)%nat j)).
Proof.
  intros Hp Hw [L FC] HE. unfold strided.
  assert (((2 * pow * cnt + pow * 2 - 1) / (pow * 2))%nat = cnt) as ->.
  { symmetry. apply (Nat.div_unique _ _ _ (pow * 2 - 1)%nat); nia. }
  rewrite (foldM_map (tree_add w pow)).
  destruct (foldM_seq_inv (fun s x => tree_add w pow s (x * (pow * 2))) (fun k m' => is_matrix (2 * pow * cnt) cols m' /\
     (forall q j, (q < k)%nat -> (j < cols)%nat -> entry m' (q * (2 * pow)) j (wrapS w (f (q * (2 * pow))%nat j + f (q * (2 * pow) + pow)%nat j))) /\
     (forall q j, (2 * k <= q < 2 * cnt)%nat -> (j < cols)%nat -> entry m' (q * pow) j (wrapS w (f (q * pow)%nat j)))) cnt m) as (m' & E & M & D & _).
  - split; [split; assumption|]. split; [intros; lia|]. intros q j Hq Hj. apply HE; lia.
  - intros k m1 Hk ([L1 F1] & D & R). unfold tree_add.
    replace (k * (pow * 2))%nat with ((2 * k) * pow)%nat by lia. replace (2 * k * pow + pow)%nat with ((2 * k + 1) * pow)%nat by lia.
    assert ((2 * k + 1) * pow < 2 * pow * cnt)%nat as Hlt by nia. assert (2 * k * pow < 2 * pow * cnt)%nat as Hlt2 by nia.
    unfold rd. destruct (nth_error m1 (2 * k * pow)) as [a|] eqn:Ea; [|apply nth_error_None in Ea; lia].
    destruct (nth_error m1 ((2 * k + 1) * pow)) as [b|] eqn:Eb; [|apply nth_error_None in Eb; lia]. cbn [bind].
    unfold wr. replace (2 * k * pow <? length m1)%nat with true by (symmetry; apply Nat.ltb_lt; lia).
    pose proof (proj1 (Forall_forall _ _) F1 a (nth_error_In _ _ Ea)) as La. pose proof (proj1 (Forall_forall _ _) F1 b (nth_error_In _ _ Eb)) as Lb. cbv beta in La, Lb.
    eexists. split; [reflexivity|]. split; [|split].
    + split; [rewrite upd_length; exact L1|]. apply EncProofs.Forall_upd; [exact F1|]. rewrite row_add_length; lia.
    + intros q j Hq Hj. destruct (Nat.eq_dec q k) as [->|N].
      * destruct (R (2 * k)%nat j ltac:(lia) Hj) as (a' & Ea' & Va). rewrite Ea in Ea'. injection Ea' as <-.
        destruct (R (2 * k + 1)%nat j ltac:(lia) Hj) as (b' & Eb' & Vb). rewrite Eb in Eb'. injection Eb' as <-.
        exists (row_add w a b). replace (k * (2 * pow))%nat with (2 * k * pow)%nat by lia.
        split; [apply nth_error_upd_same; lia|]. rewrite (row_add_nth _ _ _ _ _ _ Va Vb). f_equal.
        rewrite wrapS_add by lia. do 3 f_equal. lia.
      * destruct (D q j ltac:(lia) Hj) as (r & Er & Vr). exists r. split; [|exact Vr]. rewrite nth_error_upd_other; [exact Er|]. nia.
    + intros q j Hq Hj. destruct (R q j ltac:(lia) Hj) as (r & Er & Vr). exists r. split; [|exact Vr]. rewrite nth_error_upd_other; [exact Er|]. nia.
  - exists m'. split; [exact E|]. split; [exact M|exact D].
Qed.

Lemma tree_reduce_spec w npow cols (f : nat -> nat -> Z) m : 0 < w -> is_matrix (2 ^ npow) cols m ->
  (forall i j, (i < 2 ^ npow)%nat -> (j < cols)%nat -> entry m i j (wrapS w (f i j))) ->
  exists m', tree_reduce w npow m = Ok m' /\ is_matrix (2 ^ npow) cols m' /\
    forall j, (j < cols)%nat -> entry m' 0 j (wrapS w (range_sum (fun i => f i j) 0 (2 ^ npow))).
Proof.
  intros Hw M0 H0. unfold tree_reduce.
  destruct (foldM_seq_inv (fun m k => foldM (tree_add w (2 ^ k)) (strided (2 ^ npow) (2 ^ k * 2)) m)
    (fun k m' => is_matrix (2 ^ npow) cols m' /\
       forall q j, (q < 2 ^ (npow - k))%nat -> (j < cols)%nat -> entry m' (q * 2 ^ k) j (wrapS w (range_sum (fun i => f i j) (q * 2 ^ k) (2 ^ k)))) npow m) as (m' & E & M & D).
  - split; [exact M0|]. intros q j Hq Hj. rewrite Nat.sub_0_r in Hq. cbn [Nat.pow]. rewrite Nat.mul_1_r.
    replace (range_sum (fun i => f i j) q 1) with (f q j) by (unfold range_sum; cbn; lia). apply H0; assumption.
  - intros k m1 Hk (M1 & D). assert (0 < 2 ^ k)%nat by (apply Nat.neq_0_lt_0, Nat.pow_nonzero; lia).
    assert ((2 ^ (npow - k) = 2 * 2 ^ (npow - S k))%nat) as E1 by (rewrite <- Nat.pow_succ_r'; f_equal; lia).
    assert ((2 ^ npow = 2 * 2 ^ k * 2 ^ (npow - S k))%nat) as E2.
    { rewrite <- Nat.pow_succ_r', <- Nat.pow_add_r. f_equal. lia. }
    destruct (tree_level w (2 ^ k) (2 ^ (npow - S k)) cols (fun p j => range_sum (fun i => f i j) p (2 ^ k)) m1) as (m' & E & M' & D'); auto.
    { rewrite <- E2. exact M1. }
    { intros q j Hq Hj. apply D; [lia|exact Hj]. }
    rewrite <- E2 in *. exists m'. split; [exact E|]. split; [exact M'|]. intros q j Hq Hj.
    specialize (D' q j Hq Hj). rewrite Nat.pow_succ_r'. replace (2 * 2 ^ k)%nat with (2 ^ k + 2 ^ k)%nat at 2 3 by lia.
    rewrite range_sum_app. replace (2 ^ k + 2 ^ k)%nat with (2 * 2 ^ k)%nat by lia. exact D'.
  - exists m'. split; [exact E|]. split; [exact M|]. intros j Hj. rewrite Nat.sub_diag in D. specialize (D 0%nat j ltac:(cbn; lia) Hj).
    rewrite Nat.mul_0_l in D. exact D.
Qed.

(** ** rows filled by fillVtx *)

Lemma fillVtx_spec z0bin t : zok z0bin t ->
  exists vb sb, fillVtx z0bin t (repeat 0 NVTXBINS) (repeat 0 NVTXBINS) = Ok (vb, sb) /\ length vb = NVTXBINS /\ length sb = NVTXBINS /\
    forall j, (j < NVTXBINS)%nat ->
      nth_error vb j = Some (wrapS 5 (if (z0bin (v_z0 t) =? Z.of_nat j) && (0 <? v_pt t) then 1 else 0)) /\
      nth_error sb j = Some (wrapS 16 (if z0bin (v_z0 t) =? Z.of_nat j then Z.min 200 (v_pt t) else 0)).
Proof.
  unfold zok. intros H. unfold fillVtx. rewrite (wrapS_small 5) by (unfold inS, NVTXBINS in *; cbn in *; lia). rewrite clip_min.
  set (i := Z.to_nat (z0bin (v_z0 t))). assert (i < NVTXBINS)%nat as Hi by (subst i; lia).
  rewrite (bump_ok 5 _ _ _ 0) by (try lia; apply nth_error_repeat'; exact Hi). cbn [bind].
  rewrite (bump_ok 16 _ _ _ 0) by (try lia; apply nth_error_repeat'; exact Hi). cbn [bind]. fold i. rewrite !Z.add_0_l.
  eexists _, _. split; [reflexivity|]. rewrite !upd_length, !repeat_length. repeat split; auto.
  - rewrite nth_error_upd by (rewrite repeat_length; lia). destruct (Nat.eqb_spec i j) as [<-|N].
    + replace (z0bin (v_z0 t) =? Z.of_nat i) with true by (subst i; lia). cbn [andb]. do 2 f_equal.
      destruct (Z.min 200 (v_pt t) >? 0) eqn:E, (0 <? v_pt t) eqn:E'; lia.
    + replace (z0bin (v_z0 t) =? Z.of_nat j) with false by (subst i; lia). cbn [andb]. rewrite nth_error_repeat' by assumption. reflexivity.
  - rewrite nth_error_upd by (rewrite repeat_length; lia). destruct (Nat.eqb_spec i j) as [<-|N].
    + replace (z0bin (v_z0 t) =? Z.of_nat i) with true by (subst i; lia). reflexivity.
    + replace (z0bin (v_z0 t) =? Z.of_nat j) with false by (subst i; lia). rewrite nth_error_repeat' by assumption. reflexivity.
Qed.

Lemma fill_rows_spec z0bin tracks : Forall (zok z0bin) tracks ->
  exists vb sb, fill_rows z0bin tracks = Ok (vb, sb) /\ is_matrix (length tracks) NVTXBINS vb /\ is_matrix (length tracks) NVTXBINS sb /\
    forall i t j, nth_error tracks i = Some t -> (j < NVTXBINS)%nat ->
      entry vb i j (wrapS 5 (if (z0bin (v_z0 t) =? Z.of_nat j) && (0 <? v_pt t) then 1 else 0)) /\
      entry sb i j (wrapS 16 (if z0bin (v_z0 t) =? Z.of_nat j then Z.min 200 (v_pt t) else 0)).
Proof.
  intros H. unfold fill_rows.
  enough (exists rows, mapM (fun t => fillVtx z0bin t (repeat 0 NVTXBINS) (repeat 0 NVTXBINS)) tracks = Ok rows /\
    is_matrix (length tracks) NVTXBINS (map fst rows) /\ is_matrix (length tracks) NVTXBINS (map snd rows) /\
    forall i t j, nth_error tracks i = Some t -> (j < NVTXBINS)%nat ->
      entry (map fst rows) i j (wrapS 5 (if (z0bin (v_z0 t) =? Z.of_nat j) && (0 <? v_pt t) then 1 else 0)) /\
      entry (map snd rows) i j (wrapS 16 (if z0bin (v_z0 t) =? Z.of_nat j then Z.min 200 (v_pt t) else 0))) as (rows & -> & P).
  { cbn [bind]. exists (map fst rows), (map snd rows). split; [reflexivity|exact P]. }
  induction H as [|t l Ht H IH].
  - exists []. split; [reflexivity|]. split; [split; [reflexivity|constructor]|]. split; [split; [reflexivity|constructor]|]. intros [|i] t j E; discriminate E.
  - destruct IH as (rows & E & [L1 F1] & [L2 F2] & N). destruct (fillVtx_spec z0bin t Ht) as (v & s & Ef & Lv & Ls & Nn).
    exists ((v, s) :: rows). cbn [mapM]. rewrite Ef. cbn [bind]. rewrite E. cbn [bind].
    rewrite map_length in L1, L2. split; [reflexivity|]. split; [split; [cbn; rewrite map_length; congruence|constructor; auto]|]. split; [split; [cbn; rewrite map_length; congruence|constructor; auto]|].
    intros [|i] u j Hu Hj; cbn [nth_error] in Hu.
    + injection Hu as <-. destruct (Nn j Hj). split; [exists v|exists s]; split; auto.
    + destruct (N i u j Hu Hj) as [(r & A & B) (r' & A' & B')]. split; [exists r|exists r']; split; auto.
Qed.

Lemma range_sum_tracks (g : vtrack -> Z) tracks : range_sum (fun i => match nth_error tracks i with Some t => g t | None => 0 end) 0 (length tracks) = sumZ (map g tracks).
Proof.
  unfold range_sum. f_equal. induction tracks as [|t l IH]; [reflexivity|]. cbn [length seq map nth_error]. f_equal.
  rewrite <- seq_shift, map_map. exact IH.
Qed.

Lemma sum_slice f tracks j : sumZ (map (fun t => if f (v_z0 t) =? Z.of_nat j then Z.min 200 (v_pt t) else 0) tracks) = slice_sum f tracks j.
Proof. induction tracks as [|t l IH]; [reflexivity|]. rewrite slice_sum_cons, <- IH. reflexivity. Qed.
Lemma sum_count f tracks j : sumZ (map (fun t => if (f (v_z0 t) =? Z.of_nat j) && (0 <? v_pt t) then 1 else 0) tracks) = slice_count_pos f tracks j.
Proof. induction tracks as [|t l IH]; [reflexivity|]. rewrite slice_countp_cons, <- IH. reflexivity. Qed.

(** both reduced rows *)
Lemma c33 z0bin npow tracks : Forall (zok z0bin) tracks -> length tracks = (2 ^ npow)%nat ->
  exists vb sb vb' sb' v s, fill_rows z0bin tracks = Ok (vb, sb) /\ tree_reduce 5 npow vb = Ok vb' /\ tree_reduce 16 npow sb = Ok sb' /\
    nth_error vb' 0 = Some v /\ nth_error sb' 0 = Some s /\ length v = NVTXBINS /\ length s = NVTXBINS /\
    forall j, (j < NVTXBINS)%nat -> nth_error v j = Some (wrapS 5 (slice_count_pos z0bin tracks j)) /\
                                    nth_error s j = Some (wrapS 16 (slice_sum z0bin tracks j)).
Proof.
  intros H L. destruct (fill_rows_spec z0bin tracks H) as (vb & sb & E & Mv & Ms & N). rewrite L in Mv, Ms.
  destruct (tree_reduce_spec 5 npow NVTXBINS (fun i j => match nth_error tracks i with Some t => if (z0bin (v_z0 t) =? Z.of_nat j) && (0 <? v_pt t) then 1 else 0 | None => 0 end) vb) as (vb' & Ev & Mv' & Nv); auto; [lia| |].
  { intros i j Hi Hj. destruct (nth_error tracks i) as [t|] eqn:Et; [|apply nth_error_None in Et; lia]. apply (N i t j Et Hj). }
  destruct (tree_reduce_spec 16 npow NVTXBINS (fun i j => match nth_error tracks i with Some t => if z0bin (v_z0 t) =? Z.of_nat j then Z.min 200 (v_pt t) else 0 | None => 0 end) sb) as (sb' & Es & Ms' & Ns); auto; [lia| |].
  { intros i j Hi Hj. destruct (nth_error tracks i) as [t|] eqn:Et; [|apply nth_error_None in Et; lia]. apply (N i t j Et Hj). }
  assert (0 < 2 ^ npow)%nat by (apply Nat.neq_0_lt_0, Nat.pow_nonzero; lia).
  destruct Mv' as [Lv' Fv']. destruct Ms' as [Ls' Fs'].
  destruct (nth_error vb' 0) as [v|] eqn:E0; [|apply nth_error_None in E0; lia].
  destruct (nth_error sb' 0) as [s|] eqn:E1; [|apply nth_error_None in E1; lia].
  exists vb, sb, vb', sb', v, s. split; [exact E|]. split; [exact Ev|]. split; [exact Es|]. split; [exact E0|]. split; [exact E1|].
  split; [exact (proj1 (Forall_forall _ _) Fv' v (nth_error_In _ _ E0))|].
  split; [exact (proj1 (Forall_forall _ _) Fs' s (nth_error_In _ _ E1))|].
  intros j Hj. split.
  - destruct (Nv j Hj) as (r & Er & Vr). rewrite E0 in Er. injection Er as <-. rewrite Vr. rewrite <- L.
    rewrite (range_sum_tracks (fun t => if (z0bin (v_z0 t) =? Z.of_nat j) && (0 <? v_pt t) then 1 else 0)). rewrite sum_count. reflexivity.
  - destruct (Ns j Hj) as (r & Er & Vr). rewrite E1 in Er. injection Er as <-. rewrite Vr. rewrite <- L.
    rewrite (range_sum_tracks (fun t => if z0bin (v_z0 t) =? Z.of_nat j then Z.min 200 (v_pt t) else 0)). rewrite sum_slice. reflexivity.
Qed.

(** the whole function *)
Lemma c34 z0bin conv npow tracks old : Forall (zok z0bin) tracks -> length tracks = (2 ^ npow)%nat -> (npow <= 6)%nat ->
  Forall (fun t => 0 <= v_pt t) tracks ->
  ((forall b, (b < NVTXBINS)%nat -> slice_sum z0bin tracks b = 0) /\
     simple_vtx_hwopt z0bin conv npow tracks old = Ok (mkVtx 0 (wrapS 10 (conv (x_z0 old))) (x_mult old) (if x_mult old >? 3 then 1 else 0))) \/
  exists b s, first_max (slice_sum z0bin tracks) NVTXBINS b s /\ 0 < s /\
    simple_vtx_hwopt z0bin conv npow tracks old = Ok (mkVtx s (wrapS 10 (conv (Z.of_nat b))) (wrapS 5 (slice_count_pos z0bin tracks b))
      (if wrapS 5 (slice_count_pos z0bin tracks b) >? 3 then 1 else 0)).
Proof.
  intros H L Hn Hp. destruct (c33 z0bin npow tracks H L) as (vb & sb & vb' & sb' & v & s & E & Ev & Es & E0 & E1 & Lv & Ls & N).
  unfold simple_vtx_hwopt. rewrite E. cbn [bind]. rewrite Ev, Es. cbn [bind].
  assert (rd vb' 0 = Ok v) as -> by (unfold rd; rewrite E0; reflexivity). assert (rd sb' 0 = Ok s) as -> by (unfold rd; rewrite E1; reflexivity). cbn [bind].
  assert (Z.of_nat (2 ^ npow) <= 64) as B64.
  { assert (2 ^ npow <= 2 ^ 6)%nat by (apply Nat.pow_le_mono_r; lia). change (2 ^ 6)%nat with 64%nat in *. lia. }
  pose proof (fun b => slice_sum_bound z0bin tracks b Hp) as B. rewrite L in B.
  destruct (scan_with_spec (fun it => wrapS 10 (Z.of_nat it)) v s (slice_sum z0bin tracks) NVTXBINS (x_z0 old) (x_mult old) (x_id old)) as (o & Eo & Ei & C).
  - intros b Hb. rewrite (proj2 (N b Hb)). f_equal. apply wrapS_small; [lia|]. unfold inS. change (2 ^ (16 - 1)) with 32768. specialize (B b). lia.
  - intros b Hb. eexists. apply (N b Hb).
  - intros b. apply B.
  - change (vtx_hw_scan v s) with (scan_with (fun it => wrapS 10 (Z.of_nat it)) v s). rewrite Eo. cbn [bind].
    destruct C as [(A & ->)|(b & m & FM & Hs & Em & Eq)].
    + left. split; [exact A|reflexivity].
    + right. exists b, (x_sum o). split; [exact FM|]. split; [exact Hs|]. rewrite Eq. unfold vtx_flag. cbn [x_sum x_z0 x_mult].
      pose proof (fm_lt _ _ _ _ FM) as Lb. rewrite (proj1 (N b Lb)) in Em. injection Em as <-.
      rewrite (wrapS_small 10 (Z.of_nat b)) by (try lia; unfold inS; unfold NVTXBINS in Lb; cbn; lia). reflexivity.
Qed.

Lemma c32_flag tracks old b s : Forall vt_ok tracks -> Z.of_nat (length tracks) <= 163 -> first_max (slice_sum slice tracks) NVTXBINS b s -> 0 < s ->
  slice_count slice tracks b < 16 ->
  simple_vtx_ref tracks old = Ok (mkVtx s (20 * Z.of_nat b + 10) (slice_count slice tracks b) (if slice_count slice tracks b >? 3 then 1 else 0)).
Proof.
  intros H L FM Hs Hc. destruct (c32 tracks old H L) as [(A & _)|(b' & s' & FM' & _ & E)].
  - pose proof (fm_val _ _ _ _ FM). rewrite (A b (fm_lt _ _ _ _ FM)) in *. lia.
  - destruct (first_max_unique _ _ _ _ _ _ FM FM') as [<- <-]. rewrite E.
    rewrite !wrapS_small by (try lia; unfold inS; cbn; unfold slice_count in *; lia). reflexivity.
Qed.

Lemma slice_sensible z : -340 < z < 300 -> slice z = if z <? 20 then 0 else z / 20.
Proof. intros H. unfold slice. replace (z <? -359) with false by lia. destruct (z <? 20) eqn:E; [reflexivity|]. replace (z <? 320) with true by lia. reflexivity. Qed.

Lemma c32_alias_lo z pt old : -512 <= z <= -360 -> 0 < pt < 32768 ->
  exists b, 7 <= b <= 14 /\ simple_vtx_ref [mkVtrack pt z] old = Ok (mkVtx (Z.min 200 pt) (20 * b + 10) 1 0).
Proof.
  intros Hz Hp. assert (vt_ok (mkVtrack pt z)) as Hv by (repeat split; cbn; try lia; unfold bad_z0; cbn; lia).
  assert (slice z = 32 - (- z / 20)) as Es by (unfold slice; replace (z <? -359) with true by lia; reflexivity).
  assert (7 <= slice z <= 14) as R by lia. exists (slice z). split; [exact R|].
  set (b := Z.to_nat (slice z)). assert (Z.of_nat b = slice z) as Eb by lia.
  assert (forall j, slice_sum slice [mkVtrack pt z] j = if slice z =? Z.of_nat j then Z.min 200 pt else 0) as S1.
  { intros j. rewrite slice_sum_cons. cbn [v_z0 v_pt]. unfold slice_sum at 1. cbn. destruct (slice z =? Z.of_nat j); lia. }
  assert (slice_count slice [mkVtrack pt z] b = 1) as Ec.
  { rewrite slice_count_cons. cbn [v_z0]. replace (slice z =? Z.of_nat b) with true by lia. reflexivity. }
  rewrite (c32_flag [mkVtrack pt z] old b (Z.min 200 pt)).
  - rewrite Ec, Eb. reflexivity.
  - constructor; [exact Hv|constructor].
  - cbn. lia.
  - split.
    + unfold NVTXBINS. lia.
    + rewrite S1. replace (slice z =? Z.of_nat b) with true by lia. reflexivity.
    + intros j _. rewrite S1. destruct (slice z =? Z.of_nat j); lia.
    + intros j Hj. rewrite S1. replace (slice z =? Z.of_nat j) with false by lia. lia.
  - lia.
  - lia.
Qed.

Lemma c31_witness : exists tracks old, Forall (fun t => inS 10 (v_z0 t) /\ 0 <= v_pt t < 32768) tracks /\
  Z.of_nat (length tracks) = 64 /\ simple_vtx_ref tracks old = UB OutOfBounds.
Proof.
  exists (mkVtrack 20 300 :: repeat (mkVtrack 0 0) 63), (mkVtx 0 0 0 0). split; [|split; [reflexivity|vm_compute; reflexivity]].
  constructor; [repeat split; cbn; lia|]. apply Forall_forall. intros t Ht. apply repeat_spec in Ht. subst. repeat split; cbn; lia.
Qed.

Lemma c32_mult old :
  simple_vtx_ref (mkVtrack 40 5 :: repeat (mkVtrack 0 0) 3) old = Ok (mkVtx 40 10 4 1) /\
  simple_vtx_ref (repeat (mkVtrack 40 5) 16) old = Ok (mkVtx 640 10 (-16) 0).
Proof. split; vm_compute; reflexivity. Qed.

Lemma c34_witness : exists z0bin conv tracks old old' o o', Forall (zok z0bin) tracks /\ length tracks = (2 ^ 6)%nat /\
  simple_vtx_hwopt z0bin conv 6 tracks old = Ok o /\ simple_vtx_hwopt z0bin conv 6 tracks old' = Ok o' /\
  x_mult o <> x_mult o' /\ x_z0 o <> x_z0 o' /\ x_id o <> x_id o'.
Proof.
  exists (fun z => Z.max 0 (Z.min 14 (z / 20))), (fun b => 20 * b + 10), (repeat (mkVtrack 0 0) 64), (mkVtx 100 3 7 1), (mkVtx 0 0 0 0), (mkVtx 0 70 7 1), (mkVtx 0 10 0 0).
  split.
  - apply Forall_forall. intros t Ht. apply repeat_spec in Ht. subst. unfold zok. cbn. lia.
  - split; [reflexivity|]. split; [vm_compute; reflexivity|]. split; [vm_compute; reflexivity|]. cbn. lia.
Qed.
