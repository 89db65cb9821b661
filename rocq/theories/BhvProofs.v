(** Proofs about the histogramming vertex finder. *)
From Coq Require Import Permutation.
From Verif Require Import Base BaseFacts Bhv SpecBhv EncProofs.

Lemma shiftr1 x : Z.shiftr x 1 = x / 2. Proof. rewrite Z.shiftr_div_pow2 by lia. reflexivity. Qed.
Lemma shiftr3 x : Z.shiftr x 3 = x / 8. Proof. rewrite Z.shiftr_div_pow2 by lia. reflexivity. Qed.

Lemma land512 s : Z.land s 512 = 512 * ((s / 512) mod 2).
Proof.
  apply Z.bits_inj'. intros n Hn. rewrite Z.land_spec.
  change 512 with (2 ^ 9) at 1. rewrite Z.pow2_bits_eqb by lia.
  replace (512 * ((s / 512) mod 2)) with (((s / 2 ^ 9) mod 2 ^ 1) * 2 ^ 9) by (change (2 ^ 9) with 512; change (2 ^ 1) with 2; ring).
  destruct (Z.eqb_spec 9 n) as [<-|N].
  - rewrite Z.mul_pow2_bits by lia. rewrite Z.mod_pow2_bits_low by lia. rewrite Z.div_pow2_bits by lia. rewrite andb_true_r. reflexivity.
  - rewrite andb_false_r. symmetry. destruct (Z_lt_ge_dec n 9).
    + rewrite Z.mul_pow2_bits_low by lia. reflexivity.
    + rewrite Z.mul_pow2_bits by lia. rewrite Z.mod_pow2_bits_high by lia. reflexivity.
Qed.

(** ** binning *)
Lemma fetch_bin_spec z : -100000 <= z <= 100000 ->
  fetch_bin_ref z = if (-288 <=? z) && (z <=? 287) then mkZbin (z / 8 + 36) true else mkZbin 0 false.
Proof.
  intros Hz. unfold fetch_bin_ref, BNV_SHIFT, BHV_NHALFBINS, BHV_NBINS. rewrite shiftr3.
  destruct ((-288 <=? z) && (z <=? 287)) eqn:E.
  - replace (z / 8 + 36 <? 0) with false by lia. replace (z / 8 + 36 >? 72 - 1) with false by lia.
    unfold wrapU. rewrite Z.mod_small by (change (2 ^ 10) with 1024; lia). reflexivity.
  - destruct (z / 8 + 36 <? 0) eqn:E1; [reflexivity|].
    replace (z / 8 + 36 >? 72 - 1) with true by lia. reflexivity.
Qed.

Lemma bin_center_spec b : 0 <= b < 72 -> bin_center_ref b = 8 * b - 284.
Proof.
  intros Hb. unfold bin_center_ref, BHV_NHALFBINS, BNV_SHIFT, wrapS.
  change (2 ^ 3) with 8. change (2 ^ (3 - 1)) with 4. change (2 ^ (10 - 1)) with 512. change (2 ^ 10) with 1024.
  rewrite Z.mod_small by lia. lia.
Qed.

Lemma c27_valid z : inS 10 z ->
  (zb_valid (fetch_bin_ref z) = true <-> -288 <= z <= 287) /\
  (zb_valid (fetch_bin_ref z) = true ->
    0 <= zb_bin (fetch_bin_ref z) < 72 /\ Z.abs (z - bin_center_ref (zb_bin (fetch_bin_ref z))) <= 4).
Proof.
  intros Hz. unfold inS in Hz. change (2 ^ (10 - 1)) with 512 in Hz. rewrite fetch_bin_spec by lia.
  destruct ((-288 <=? z) && (z <=? 287)) eqn:E; cbn [zb_valid zb_bin].
  - split; [split; [lia|reflexivity]|]. intros _. rewrite bin_center_spec by lia. lia.
  - split; [split; [congruence|lia]|congruence].
Qed.

Lemma c27_center b : 0 <= b < 72 -> fetch_bin_ref (bin_center_ref b) = mkZbin b true.
Proof.
  intros Hb. rewrite bin_center_spec by lia. rewrite fetch_bin_spec by lia.
  replace ((-288 <=? 8 * b - 284) && (8 * b - 284 <=? 287)) with true by lia. f_equal. lia.
Qed.

Lemma c27_mono z z' : inS 10 z -> inS 10 z' -> z <= z' -> zb_valid (fetch_bin_ref z) = true -> zb_valid (fetch_bin_ref z') = true ->
  zb_bin (fetch_bin_ref z) <= zb_bin (fetch_bin_ref z').
Proof.
  unfold inS. change (2 ^ (10 - 1)) with 512. intros H H' L. rewrite !fetch_bin_spec by lia.
  destruct ((-288 <=? z) && (z <=? 287)) eqn:E; destruct ((-288 <=? z') && (z' <=? 287)) eqn:E'; cbn [zb_valid zb_bin]; intros; try congruence. lia.
Qed.

(** ** filling *)


Definition hok (h : list Z) : Prop := Forall (fun x => 0 <= x <= 511) h.

Lemma pt16 pt : 0 <= pt < 32768 -> wrapS 16 (Z.shiftr pt 1) = pt / 2.
Proof. intros H. rewrite shiftr1. unfold wrapS. change (2 ^ (16 - 1)) with 32768. change (2 ^ 16) with 65536. rewrite Z.mod_small; lia. Qed.

Lemma cap100 x : (if x >? 100 then 100 else x) = Z.min 100 x. Proof. destruct (x >? 100) eqn:E; lia. Qed.

Lemma nth_error_upd_same {A} (l : list A) i v : (i < length l)%nat -> nth_error (upd l i v) i = Some v.
Proof. revert i. induction l; intros [|i] H; cbn in *; try lia; [reflexivity|apply IHl; lia]. Qed.
Lemma nth_error_upd_other {A} (l : list A) i j v : i <> j -> nth_error (upd l i v) j = nth_error l j.
Proof. revert i j. induction l; intros [|i] [|j] H; cbn; try congruence; try reflexivity. apply IHl; lia. Qed.
Lemma upd_length {A} (l : list A) i v : length (upd l i v) = length l.
Proof. revert i. induction l; intros [|i]; cbn; congruence. Qed.

Lemma upd_same {A} (h : list A) : forall i x, nth_error h i = Some x -> upd h i x = h.
Proof. induction h as [|a h IH]; intros [|i] x Ex; cbn in *; try congruence. f_equal. auto. Qed.

Lemma add_track_spec zb pt h : hok h -> 0 <= pt < 32768 -> (zb_valid zb = true -> 0 <= zb_bin zb < Z.of_nat (length h)) ->
  exists h', bhv_add_track zb pt h = Ok h' /\ hok h' /\ length h' = length h /\
    forall b x, nth_error h b = Some x ->
      nth_error h' b = Some (Z.min 511 (x + if sel (Z.of_nat b) (zb, pt) then hcontrib pt else 0)).
Proof.
  intros Hh Hp Hb. unfold bhv_add_track. unfold sel. cbn [fst]. destruct (zb_valid zb) eqn:V.
  2:{ exists h. repeat split; auto. intros b x Hx. cbn. rewrite Hx. f_equal.
      pose proof (proj1 (Forall_forall _ _) Hh x (nth_error_In _ _ Hx)). cbn in *. lia. }
  specialize (Hb eq_refl). rewrite pt16 by lia. unfold BHV_MAXPT, BHV_MAXBIN. rewrite cap100. fold (hcontrib pt).
  assert (0 <= hcontrib pt <= 100) as HC by (unfold hcontrib; lia).
  set (i := Z.to_nat (zb_bin zb)) in *. assert (i < length h)%nat as Hi by (subst i; lia).
  unfold rd. destruct (nth_error h i) as [x0|] eqn:E; [|apply nth_error_None in E; lia]. cbn [bind].
  pose proof (proj1 (Forall_forall _ _) Hh x0 (nth_error_In _ _ E)) as Hx0. cbv beta in Hx0.
  unfold i32. replace ((-2147483648 <=? x0 + hcontrib pt) && (x0 + hcontrib pt <=? 2147483647)) with true by lia. cbn [bind].
  unfold wr. replace (i <? length h)%nat with true by (symmetry; apply Nat.ltb_lt; exact Hi).
  assert (wrapU 9 (if negb (Z.land (x0 + hcontrib pt) (511 + 1) =? 0) then 511 else x0 + hcontrib pt) = Z.min 511 (x0 + hcontrib pt)) as ->.
  { change (511 + 1) with 512. rewrite land512. unfold wrapU. change (2 ^ 9) with 512.
    destruct (Z_lt_ge_dec (x0 + hcontrib pt) 512) as [L|G].
    - replace (512 * ((x0 + hcontrib pt) / 512 mod 2) =? 0) with true by lia. cbn [negb]. rewrite Z.mod_small by lia. lia.
    - replace (512 * ((x0 + hcontrib pt) / 512 mod 2) =? 0) with false by lia. cbn [negb]. change (511 mod 512) with 511. lia. }
  eexists. split; [reflexivity|]. split; [|split].
  - apply Forall_upd; [exact Hh|lia].
  - apply upd_length.
  - intros b x Hx. destruct (Nat.eq_dec i b) as [<-|N].
    + rewrite nth_error_upd_same by exact Hi. rewrite E in Hx. injection Hx as <-.
      replace (zb_bin zb =? Z.of_nat i) with true by (subst i; lia). reflexivity.
    + rewrite nth_error_upd_other by exact N. rewrite Hx. replace (zb_bin zb =? Z.of_nat b) with false by (subst i; lia). cbn.
      pose proof (proj1 (Forall_forall _ _) Hh x (nth_error_In _ _ Hx)). cbn in *. f_equal. lia.
Qed.

Lemma hcontrib_nonneg pt : 0 <= pt -> 0 <= hcontrib pt. Proof. unfold hcontrib. lia. Qed.

Lemma callsum_nonneg b calls : Forall (fun x => 0 <= snd x) calls -> 0 <= callsum b calls.
Proof.
  intros H. unfold callsum. induction H as [|x l Hx H IH]; [cbn; lia|]. cbn [filter]. destruct (sel b x); cbn [map sumZ fold_right] in *; [|exact IH].
  pose proof (hcontrib_nonneg _ Hx). unfold sumZ in *. lia.
Qed.

Lemma c26 calls h : Forall (fun x => 0 <= x <= 511) h ->
  Forall (fun x => 0 <= snd x < 32768 /\ (zb_valid (fst x) = true -> 0 <= zb_bin (fst x) < Z.of_nat (length h))) calls ->
  exists h', foldM (fun h x => bhv_add_track (fst x) (snd x) h) calls h = Ok h' /\ length h' = length h /\
    forall b x, nth_error h b = Some x -> nth_error h' b = Some (Z.min 511 (x + callsum (Z.of_nat b) calls)).
Proof.
  revert h. induction calls as [|[zb pt] calls IH]; intros h Hh Hc.
  - exists h. repeat split; auto. intros b x Hx. rewrite Hx. cbn. f_equal.
    pose proof (proj1 (Forall_forall _ _) Hh x (nth_error_In _ _ Hx)). cbn in *. lia.
  - inversion_clear Hc as [|? ? [Hp Hb] Hc']. cbn [fst snd] in *. cbn [foldM fst snd].
    destruct (add_track_spec zb pt h Hh Hp Hb) as (h1 & -> & Hh1 & L1 & N1). cbn [bind].
    destruct (IH h1 Hh1) as (h' & E & L & N). { rewrite L1. exact Hc'. }
    exists h'. split; [exact E|]. split; [congruence|]. intros b x1 Hx. rewrite (N b _ (N1 b x1 Hx)).
    assert (0 <= callsum (Z.of_nat b) calls) as P by (apply callsum_nonneg; eapply Forall_impl; [|exact Hc']; cbn; lia).
    f_equal. assert (callsum (Z.of_nat b) ((zb, pt) :: calls) = (if sel (Z.of_nat b) (zb, pt) then hcontrib pt else 0) + callsum (Z.of_nat b) calls) as ->.
    { unfold callsum. cbn [filter]. destruct (sel (Z.of_nat b) (zb, pt)); cbn [map snd]; [reflexivity|lia]. }
    lia.
Qed.

(** ** first maximum *)
Lemma first_max_unique f n b s b' s' : first_max f n b s -> first_max f n b' s' -> b = b' /\ s = s'.
Proof.
  intros [L V M F] [L' V' M' F'].
  assert (s = s') as Es by (pose proof (M b' L'); pose proof (M' b L); lia).
  split; [|exact Es]. destruct (lt_eq_lt_dec b b') as [[H|H]|H]; [|exact H|].
  - specialize (F' b H). lia.
  - specialize (F b' H). lia.
Qed.

Lemma first_max_ext f g n b s : (forall j, (j < n)%nat -> f j = g j) -> first_max f n b s -> first_max g n b s.
Proof.
  intros E [L V M F]. split; [exact L| | |].
  - rewrite <- E by exact L. exact V.
  - intros j Hj. rewrite <- E by exact Hj. auto.
  - intros j Hj. rewrite <- E by lia. auto.
Qed.

(** scan invariant: [best] is the first max of the first [k] entries, starting from (0,0) *)
Definition scan_inv (f : nat -> Z) (k : nat) (b : nat) (s : Z) : Prop :=
  (k = 0%nat /\ b = 0%nat /\ s = 0) \/ first_max f k b s \/ (s = 0 /\ b = 0%nat /\ (0 < k)%nat /\ forall j, (j < k)%nat -> f j = 0).

Lemma scan_step f k b s : (forall j, 0 <= f j) -> scan_inv f k b s ->
  scan_inv f (S k) (if f k >? s then k else b) (if f k >? s then f k else s).
Proof.
  intros P I. destruct (f k >? s) eqn:E.
  - right; left. destruct I as [(-> & -> & ->)|[[L V M F]|(-> & -> & L & Z)]]; split; auto; try lia.
    + intros j Hj. assert (j = 0)%nat by lia. subst. lia.
    + intros j Hj. destruct (Nat.eq_dec j k) as [->|]; [lia|]. specialize (M j ltac:(lia)). lia.
    + intros j Hj. specialize (M j Hj). lia.
    + intros j Hj. destruct (Nat.eq_dec j k) as [->|]; [lia|]. specialize (Z j ltac:(lia)). lia.
    + intros j Hj. specialize (Z j Hj). lia.
  - destruct I as [(-> & -> & ->)|[[L V M F]|(-> & -> & L & Z)]].
    + right; right. repeat split; auto; try lia. intros j Hj. assert (j = 0)%nat by lia. subst. specialize (P 0%nat). lia.
    + right; left. split; auto; try lia. intros j Hj. destruct (Nat.eq_dec j k) as [->|]; [lia|]. apply M; lia.
    + right; right. repeat split; auto; try lia. intros j Hj. destruct (Nat.eq_dec j k) as [->|]; [specialize (P k); lia|]. apply Z; lia.
Qed.

Lemma scan_done f n b s : (0 < n)%nat -> scan_inv f n b s -> first_max f n b s.
Proof.
  intros Hn [(-> & _)|[H|(-> & -> & L & Z)]]; [lia|exact H|]. split; auto; try lia. intros j Hj. rewrite Z by lia. lia.
Qed.

Lemma foldM_seq_inv {S} (f : S -> nat -> res S) (P : nat -> S -> Prop) n s0 :
  P 0%nat s0 -> (forall k s, (k < n)%nat -> P k s -> exists s', f s k = Ok s' /\ P (Datatypes.S k) s') ->
  exists s', foldM f (seq 0 n) s0 = Ok s' /\ P n s'.
Proof.
  intros H0 Hs. assert (forall m k s, (k + m <= n)%nat -> P k s -> exists s', foldM f (seq k m) s = Ok s' /\ P (k + m)%nat s') as G.
  { induction m as [|m IH]; intros k s Hk Hp; cbn.
    - exists s. rewrite Nat.add_0_r. auto.
    - destruct (Hs k s ltac:(lia) Hp) as (s1 & -> & P1). cbn [bind]. destruct (IH (Datatypes.S k) s1 ltac:(lia) P1) as (s' & E & P').
      exists s'. split; [exact E|]. replace (k + Datatypes.S m)%nat with (Datatypes.S k + m)%nat by lia. exact P'. }
  destruct (G n 0%nat s0 ltac:(lia) H0) as (s' & E & P'). exists s'. auto.
Qed.

(** ** find_pv *)
Lemma div2_even i : (2 * i / 2 = i)%nat. Proof. rewrite Nat.mul_comm. apply Nat.div_mul. lia. Qed.
Lemma div2_odd i : ((2 * i + 1) / 2 = i)%nat. Proof. symmetry. apply (Nat.div_unique _ _ _ 1); lia. Qed.
Lemma even_even i : Nat.even (2 * i) = true. Proof. rewrite Nat.even_mul. reflexivity. Qed.
Lemma even_odd i : Nat.even (2 * i + 1) = false. Proof. rewrite Nat.even_add, even_even. reflexivity. Qed.

Lemma pair_sums_spec nhalf hists i : words_ok nhalf hists -> (i < nhalf)%nat -> Z.of_nat (length hists) <= 64 ->
  pair_sums hists i = Ok (packed_total hists (2 * i + 1), packed_total hists (2 * i)) /\
  0 <= packed_total hists (2 * i + 1) <= 511 * Z.of_nat (length hists) /\ 0 <= packed_total hists (2 * i) <= 511 * Z.of_nat (length hists).
Proof.
  intros W Hi Hl. unfold pair_sums.
  assert (forall l a b, words_ok nhalf l -> 0 <= a -> 0 <= b ->
     a + 511 * Z.of_nat (length l) <= 32704 -> b + 511 * Z.of_nat (length l) <= 32704 ->
     foldM (fun acc h => let '(s1, s2) := acc in do w <- rd h i; do s1 <- i32 (s1 + lo9 w); do s2 <- i32 (s2 + hi9 w); Ok (s1, s2)) l (a, b)
      = Ok (a + packed_total l (2 * i + 1), b + packed_total l (2 * i)) /\
     0 <= packed_total l (2 * i + 1) <= 511 * Z.of_nat (length l) /\ 0 <= packed_total l (2 * i) <= 511 * Z.of_nat (length l)) as G.
  { induction l as [|h l IH]; intros a b Wl Ha Hb Ka Kb.
    - cbn. repeat split; try lia. do 2 f_equal; lia.
    - inversion_clear Wl as [|? ? [Lh Fh] Wl']. cbn [foldM]. unfold rd at 1.
      destruct (nth_error h i) as [w|] eqn:E; [|apply nth_error_None in E; lia]. cbn [bind].
      pose proof (proj1 (Forall_forall _ _) Fh w (nth_error_In _ _ E)) as Hw. unfold inU in Hw. change (2 ^ 18) with 262144 in Hw.
      assert (0 <= lo9 w <= 511) by (unfold lo9; lia). assert (0 <= hi9 w <= 511) by (unfold hi9; lia).
      cbn [length] in Ka, Kb. unfold i32.
      replace ((-2147483648 <=? a + lo9 w) && (a + lo9 w <=? 2147483647)) with true by lia. cbn [bind].
      replace ((-2147483648 <=? b + hi9 w) && (b + hi9 w <=? 2147483647)) with true by lia. cbn [bind].
      destruct (IH (a + lo9 w) (b + hi9 w) Wl' ltac:(lia) ltac:(lia) ltac:(lia) ltac:(lia)) as (IHe & B1 & B2).
      assert (packed_total (h :: l) (2 * i + 1) = lo9 w + packed_total l (2 * i + 1)) as E1.
      { unfold packed_total. cbn [map]. unfold sumZ at 1. cbn [fold_right]. fold (sumZ (map (half_of (2 * i + 1)) l)). f_equal.
        unfold half_of. rewrite div2_odd, even_odd, (nth_error_nth _ _ _ E). reflexivity. }
      assert (packed_total (h :: l) (2 * i) = hi9 w + packed_total l (2 * i)) as E2.
      { unfold packed_total. cbn [map]. unfold sumZ at 1. cbn [fold_right]. fold (sumZ (map (half_of (2 * i)) l)). f_equal.
        unfold half_of. rewrite div2_even, even_even, (nth_error_nth _ _ _ E). unfold hi9. lia. }
      unfold i32 in IHe. rewrite IHe, E1, E2. cbn [length]. repeat split; try lia. do 2 f_equal; lia. }
  destruct (G hists 0 0 W ltac:(lia) ltac:(lia) ltac:(lia) ltac:(lia)) as (E & B). rewrite E. split; [do 2 f_equal; lia|exact B].
Qed.

Lemma packed_nonneg hists b : Forall (fun h => Forall (inU 18) h) hists -> 0 <= packed_total hists b.
Proof.
  intros W. unfold packed_total. induction W as [|h l Hh W IH]; [cbn; lia|]. cbn [map]. unfold sumZ in *. cbn [fold_right].
  enough (0 <= half_of b h) by lia. unfold half_of.
  assert (0 <= nth (b / 2) h 0) as N.
  { destruct (Nat.lt_ge_cases (b / 2) (length h)) as [L|G].
    - pose proof (proj1 (Forall_forall _ _) Hh _ (nth_In h 0 L)) as I. unfold inU in I. lia.
    - rewrite nth_overflow by lia. lia. }
  destruct (Nat.even b); lia.
Qed.

Lemma words_ok_F nhalf hists : words_ok nhalf hists -> Forall (fun h => Forall (inU 18) h) hists.
Proof. intros W. eapply Forall_impl; [|exact W]. cbn. tauto. Qed.

Lemma c29 nhalf hists : (0 < nhalf)%nat -> Z.of_nat nhalf <= 512 -> Z.of_nat (length hists) <= 64 -> words_ok nhalf hists ->
  exists b s, bhv_find_pv nhalf hists = Ok (Z.of_nat b, s) /\ first_max (packed_total hists) (2 * nhalf) b s.
Proof.
  intros Hn Hn2 Hl W. unfold bhv_find_pv.
  pose proof (fun b => packed_nonneg hists b (words_ok_F _ _ W)) as P.
  destruct (foldM_seq_inv (find_pv_step hists)
     (fun k best => exists b, fst best = Z.of_nat b /\ scan_inv (packed_total hists) (2 * k) b (snd best) /\ 0 <= snd best <= 32704) nhalf (0, 0)) as ([ib sb] & E & b & Eb & I & R).
  - exists 0%nat. cbn. split; [reflexivity|]. split; [left; auto|lia].
  - intros k [ib sb] Hk (b & Eb & I & R). cbn [fst snd] in *.
    destruct (pair_sums_spec nhalf hists k W Hk Hl) as (Ep & B1 & B2). cbn [find_pv_step].
    rewrite Ep. cbn [bind].
    pose proof (scan_step _ _ _ _ P I) as I1. pose proof (scan_step _ _ _ _ P I1) as I2. clear I I1.
    replace (S (S (2 * k)))%nat with (2 * S k)%nat in I2 by lia. replace (S (2 * k))%nat with (2 * k + 1)%nat in I2 by lia.
    set (t1 := packed_total hists (2 * k + 1)) in *. set (t2 := packed_total hists (2 * k)) in *.
    destruct (t1 >? t2) eqn:C12; [destruct (t1 >? sb) eqn:C1s|destruct (t2 >? sb) eqn:C2s]; eexists; (split; [reflexivity|]); cbn [fst snd].
    + exists (2 * k + 1)%nat. split; [lia|]. split; [|lia]. destruct (t2 >? sb) eqn:C2s; rewrite ?C12, ?C1s in I2; exact I2.
    + exists b. split; [exact Eb|]. split; [|lia]. replace (t2 >? sb) with false in I2 by lia. rewrite C1s in I2. exact I2.
    + exists (2 * k)%nat. split; [lia|]. split; [|lia]. rewrite C12 in I2. exact I2.
    + exists b. split; [exact Eb|]. split; [|lia]. replace (t1 >? sb) with false in I2 by lia. exact I2.
  - rewrite E. cbn [bind fst snd] in *. subst ib. pose proof (scan_done _ (2 * nhalf) b sb ltac:(lia) I) as FM. exists b, sb.
    split; [|exact FM]. pose proof (fm_lt _ _ _ _ FM). unfold wrapU, wrapS. change (2 ^ 10) with 1024.
    change (2 ^ (16 - 1)) with 32768. change (2 ^ 16) with 65536. rewrite !Z.mod_small by lia. do 2 f_equal. lia.
Qed.

(** ** the whole chain *)
Definition tcall (t : vtrack) := (fetch_bin_ref (v_z0 t), v_pt t).

Lemma sel_in_bin b t : inS 10 (v_z0 t) -> 0 <= b < 72 -> sel b (tcall t) = in_bin b t.
Proof.
  unfold inS. change (2 ^ (10 - 1)) with 512. intros H Hb. unfold sel, tcall, in_bin. cbn [fst]. rewrite fetch_bin_spec by lia.
  destruct ((-288 <=? v_z0 t) && (v_z0 t <=? 287)) eqn:E; cbn [zb_valid zb_bin]; lia.
Qed.

Lemma callsum_tracks b ts : Forall track_ok ts -> 0 <= b < 72 ->
  callsum b (map tcall ts) = sumZ (map contrib (filter (in_bin b) ts)).
Proof.
  intros H Hb. unfold callsum. induction H as [|t l [Ht Hz] H IH]; [reflexivity|]. cbn [map filter].
  rewrite sel_in_bin by assumption. destruct (in_bin b t); [|exact IH]. cbn [map]. unfold sumZ in *. cbn [fold_right]. rewrite IH. reflexivity.
Qed.

Lemma foldM_map {A B S} (f : S -> B -> res S) (g : A -> B) l s : foldM f (map g l) s = foldM (fun s x => f s (g x)) l s.
Proof. revert s. induction l; intros s; cbn; [reflexivity|]. destruct (f s (g a)); cbn; auto. Qed.

Lemma nth_error_repeat' {A} (x : A) n i : (i < n)%nat -> nth_error (repeat x n) i = Some x.
Proof. revert i. induction n; intros [|i] H; cbn; try lia; [reflexivity|apply IHn; lia]. Qed.

Definition is_hist (ts : list vtrack) (h : list Z) : Prop :=
  length h = Z.to_nat 72 /\ forall b, (b < Z.to_nat 72)%nat -> nth_error h b = Some (bin_total (Z.of_nat b) ts).

Lemma hw_fill_spec ts : Forall track_ok ts -> exists h, hw_fill ts = Ok h /\ is_hist ts h.
Proof.
  intros H. unfold hw_fill, BHV_NBINS.
  rewrite <- (foldM_map (fun h x => bhv_add_track (fst x) (snd x) h) tcall).
  destruct (c26 (map tcall ts) (repeat 0 (Z.to_nat 72))) as (h & E & L & N).
  - apply Forall_forall. intros x Hx. apply repeat_spec in Hx. subst. lia.
  - apply Forall_forall. intros x Hx. apply in_map_iff in Hx. destruct Hx as (t & <- & Ht).
    pose proof (proj1 (Forall_forall _ _) H t Ht) as [K Kz]. split; [exact K|]. cbn [tcall fst]. intros V.
    rewrite repeat_length. destruct (c27_valid _ Kz) as (_ & Q). destruct (Q V). lia.
  - exists h. split; [exact E|]. split; [rewrite L, repeat_length; reflexivity|]. intros b Hb.
    rewrite (N b 0 (nth_error_repeat' 0 _ b Hb)). rewrite callsum_tracks by (assumption || lia). reflexivity.
Qed.

Lemma ref_fill_eq t h : hok h -> track_ok t -> length h = Z.to_nat 72 ->
  ref_fill h t = bhv_add_track (fetch_bin_ref (v_z0 t)) (v_pt t) h.
Proof.
  intros Hh [Hp Hz] L. unfold ref_fill, bhv_add_track. unfold inS in Hz. change (2 ^ (10 - 1)) with 512 in Hz.
  rewrite pt16 by lia. rewrite fetch_bin_spec by lia. unfold BHV_MAXPT, BHV_MAXBIN, BHV_NBINS. rewrite !cap100. fold (hcontrib (v_pt t)).
  assert (0 <= hcontrib (v_pt t) <= 100) as HC by (unfold hcontrib; lia).
  destruct ((-288 <=? v_z0 t) && (v_z0 t <=? 287)) eqn:E; cbn [zb_valid zb_bin].
  2:{ cbn. destruct (v_pt t / 2 >? 0); reflexivity. }
  replace ((0 <=? v_z0 t / 8 + 36) && (v_z0 t / 8 + 36 <? 72)) with true by lia.
  set (i := Z.to_nat (v_z0 t / 8 + 36)). assert (i < length h)%nat as Hi by (subst i; lia).
  destruct (nth_error h i) as [x|] eqn:Ex; [|apply nth_error_None in Ex; lia].
  pose proof (proj1 (Forall_forall _ _) Hh x (nth_error_In _ _ Ex)) as Hx. cbv beta in Hx.
  unfold rd. rewrite Ex. cbn [bind]. unfold i32. replace ((-2147483648 <=? x + hcontrib (v_pt t)) && (x + hcontrib (v_pt t) <=? 2147483647)) with true by lia.
  cbn [bind]. change (511 + 1) with 512. rewrite land512.
  assert ((if negb (512 * ((x + hcontrib (v_pt t)) / 512 mod 2) =? 0) then 511 else x + hcontrib (v_pt t)) =
          (if x + hcontrib (v_pt t) >? 511 then 511 else x + hcontrib (v_pt t))) as ->.
  { destruct (x + hcontrib (v_pt t) >? 511) eqn:G.
    - replace (512 * ((x + hcontrib (v_pt t)) / 512 mod 2) =? 0) with false by lia. reflexivity.
    - replace (512 * ((x + hcontrib (v_pt t)) / 512 mod 2) =? 0) with true by lia. reflexivity. }
  destruct (v_pt t / 2 >? 0) eqn:P; [reflexivity|].
  assert (hcontrib (v_pt t) = 0) as -> by (unfold hcontrib; lia). rewrite Z.add_0_r. replace (x >? 511) with false by lia.
  unfold wr. replace (i <? length h)%nat with true by (symmetry; apply Nat.ltb_lt; exact Hi).
  unfold wrapU. change (2 ^ 9) with 512. rewrite Z.mod_small by lia. f_equal. symmetry.
  exact (upd_same h i x Ex).
Qed.

Lemma ref_fill_spec ts : Forall track_ok ts -> foldM ref_fill ts (repeat 0 (Z.to_nat BHV_NBINS)) = hw_fill ts.
Proof.
  intros H. unfold hw_fill. assert (hok (repeat 0 (Z.to_nat BHV_NBINS))) as Hh.
  { apply Forall_forall. intros x Hx. apply repeat_spec in Hx. subst. lia. }
  assert (length (repeat 0 (Z.to_nat BHV_NBINS)) = Z.to_nat 72) as L by (rewrite repeat_length; reflexivity).
  revert Hh L. generalize (repeat 0 (Z.to_nat BHV_NBINS)). induction H as [|t l Ht H IH]; intros h Hh L; [reflexivity|].
  cbn [foldM]. rewrite ref_fill_eq by assumption. destruct Ht as [Hp Hz].
  destruct (add_track_spec (fetch_bin_ref (v_z0 t)) (v_pt t) h Hh Hp) as (h1 & -> & Hh1 & L1 & _).
  { intros V. destruct (c27_valid _ Hz) as (_ & Q). destruct (Q V). lia. }
  cbn [bind]. apply IH; [exact Hh1|congruence].
Qed.

Lemma bin_total_range b ts : Forall track_ok ts -> 0 <= bin_total b ts <= 511.
Proof.
  intros H. unfold bin_total. enough (0 <= sumZ (map contrib (filter (in_bin b) ts))) by lia.
  induction H as [|t l [Ht _] H IH]; [cbn; lia|]. cbn [filter]. destruct (in_bin b t); [|exact IH]. cbn [map]. unfold sumZ in *. cbn [fold_right].
  unfold contrib at 1. lia.
Qed.

Lemma nth_map_seq {A} (f : nat -> A) n i d : (i < n)%nat -> nth i (map f (seq 0 n)) d = f i.
Proof.
  intros H. rewrite nth_indep with (d' := f 0%nat) by (rewrite map_length, seq_length; exact H). rewrite map_nth, seq_nth by exact H. reflexivity.
Qed.

Lemma pack_spec ts h : Forall track_ok ts -> is_hist ts h ->
  exists p, pack_hist h = Ok p /\ length p = Z.to_nat 36 /\ Forall (inU 18) p /\
    forall b, (b < Z.to_nat 72)%nat -> half_of b p = bin_total (Z.of_nat b) ts.
Proof.
  intros T [L N]. unfold pack_hist, BHV_NHALFBINS.
  assert (mapM (fun i => do a <- rd h (2 * i); do b <- rd h (2 * i + 1); Ok (wrapU 9 a * 512 + wrapU 9 b)) (seq 0 (Z.to_nat 36)) =
    Ok (map (fun i => bin_total (Z.of_nat (2 * i)) ts * 512 + bin_total (Z.of_nat (2 * i + 1)) ts) (seq 0 (Z.to_nat 36)))) as ->.
  { assert (forall l, (forall i, In i l -> (i < Z.to_nat 36)%nat) -> mapM (fun i => do a <- rd h (2 * i); do b <- rd h (2 * i + 1); Ok (wrapU 9 a * 512 + wrapU 9 b)) l =
      Ok (map (fun i => bin_total (Z.of_nat (2 * i)) ts * 512 + bin_total (Z.of_nat (2 * i + 1)) ts) l)) as G.
    { induction l as [|i l IH]; intros HI; [reflexivity|]. cbn [mapM map]. specialize (HI i (or_introl eq_refl)) as Hi. unfold rd at 1 2.
      rewrite (N (2 * i)%nat) by lia. cbn [bind]. rewrite (N (2 * i + 1)%nat) by lia. cbn [bind].
      rewrite IH by (intros j Hj; apply HI; right; exact Hj). cbn [bind]. do 2 f_equal.
      pose proof (bin_total_range (Z.of_nat (2 * i)) ts T). pose proof (bin_total_range (Z.of_nat (2 * i + 1)) ts T).
      unfold wrapU. change (2 ^ 9) with 512. rewrite !Z.mod_small by lia. reflexivity. }
    apply G. intros i Hi. apply in_seq in Hi. lia. }
  eexists. split; [reflexivity|]. split; [rewrite map_length, seq_length; reflexivity|]. split.
  - apply Forall_forall. intros w Hw. apply in_map_iff in Hw. destruct Hw as (i & <- & _).
    pose proof (bin_total_range (Z.of_nat (2 * i)) ts T). pose proof (bin_total_range (Z.of_nat (2 * i + 1)) ts T).
    unfold inU. change (2 ^ 18) with 262144. lia.
  - intros b Hb. unfold half_of.
    assert (b / 2 < Z.to_nat 36)%nat as Hd by (apply Nat.div_lt_upper_bound; lia).
    rewrite (nth_map_seq _ _ _ 0 Hd).
    pose proof (bin_total_range (Z.of_nat (2 * (b / 2))) ts T). pose proof (bin_total_range (Z.of_nat (2 * (b / 2) + 1)) ts T).
    pose proof (Nat.div_mod b 2 ltac:(lia)) as D. destruct (Nat.even b) eqn:Ev.
    + apply Nat.even_spec in Ev. destruct Ev as [q ->]. rewrite div2_even in *. lia.
    + assert (exists q, b = 2 * q + 1)%nat as [q ->].
      { assert (Nat.odd b = true) as O by (unfold Nat.odd; rewrite Ev; reflexivity). apply Nat.odd_spec in O. exact O. }
      rewrite div2_odd in *. lia.
Qed.

Lemma mapM_hists sectors : Forall (Forall track_ok) sectors ->
  exists hs ps, mapM hw_fill sectors = Ok hs /\ mapM (fun ts => do h <- hw_fill ts; pack_hist h) sectors = Ok ps /\
    Forall2 is_hist sectors hs /\ words_ok (Z.to_nat 36) ps /\
    length ps = length sectors /\ forall b, (b < Z.to_nat 72)%nat -> packed_total ps b = grand_total sectors b.
Proof.
  induction 1 as [|ts l H _ IH]; [exists [], []; cbn; repeat split; auto; constructor|].
  destruct IH as (hs & ps & E1 & E2 & F & W & L & T). destruct (hw_fill_spec ts H) as (h & Eh & Ih).
  destruct (pack_spec ts h H Ih) as (p & Ep & Lp & Fp & Hp).
  exists (h :: hs), (p :: ps). cbn [mapM]. rewrite Eh. cbn [bind]. rewrite Ep. cbn [bind]. rewrite E1, E2. cbn [bind].
  repeat split; auto.
  - constructor; auto.
  - cbn. congruence.
  - intros b Hb. unfold packed_total, grand_total. cbn [map]. unfold sumZ in *. cbn [fold_right]. rewrite Hp by exact Hb. f_equal. apply T. exact Hb.
Qed.

Lemma hw_vertex_spec sectors : Forall (Forall track_ok) sectors -> Z.of_nat (length sectors) <= 64 ->
  exists b s, hw_vertex sectors = Ok (Z.of_nat b, s, 8 * Z.of_nat b - 284) /\ first_max (grand_total sectors) (Z.to_nat 72) b s.
Proof.
  intros H L. destruct (mapM_hists _ H) as (hs & ps & _ & E2 & _ & W & Lp & T). unfold hw_vertex. rewrite E2. cbn [bind].
  destruct (c29 (Z.to_nat 36) ps ltac:(lia) ltac:(lia) ltac:(lia) W) as (b & s & E & FM). unfold BHV_NHALFBINS. rewrite E. cbn [bind].
  change (2 * Z.to_nat 36)%nat with (Z.to_nat 72) in FM. pose proof (fm_lt _ _ _ _ FM).
  exists b, s. split; [rewrite bin_center_spec by lia; reflexivity|]. eapply first_max_ext; [|exact FM]. exact T.
Qed.

Lemma ref_sum_spec b sectors hs : (b < Z.to_nat 72)%nat -> Forall (Forall track_ok) sectors -> Forall2 is_hist sectors hs -> forall a,
  0 <= a -> a + 511 * Z.of_nat (length hs) <= 2147483647 ->
  foldM (fun s h => do x <- rd h b; i32 (s + x)) hs a = Ok (a + grand_total sectors b).
Proof.
  intros Hb T F. induction F as [|ts h ls lh [L N] F IH]; intros a Ha Hs; [cbn; f_equal; lia|].
  inversion_clear T as [|? ? Tt T']. cbn [foldM]. unfold rd at 1. rewrite (N b Hb). cbn [bind].
  pose proof (bin_total_range (Z.of_nat b) ts Tt) as R. cbn [length] in Hs. unfold i32 at 1.
  replace ((-2147483648 <=? a + bin_total (Z.of_nat b) ts) && (a + bin_total (Z.of_nat b) ts <=? 2147483647)) with true by lia. cbn [bind].
  rewrite IH by (assumption || lia). unfold grand_total. cbn [map]. unfold sumZ. cbn [fold_right]. f_equal. lia.
Qed.

Lemma grand_nonneg sectors : Forall (Forall track_ok) sectors -> forall b, 0 <= grand_total sectors b <= 511 * Z.of_nat (length sectors).
Proof.
  intros H b. induction H as [|ts l Ht H IH]; [cbn; lia|]. unfold grand_total in *. cbn [map length]. unfold sumZ in *. cbn [fold_right].
  pose proof (bin_total_range (Z.of_nat b) ts Ht). lia.
Qed.

Lemma mapM_ext_in {A B} (f g : A -> res B) l : (forall x, In x l -> f x = g x) -> mapM f l = mapM g l.
Proof. induction l; intros H; cbn; [reflexivity|]. rewrite (H a (or_introl eq_refl)), IHl by (intros; apply H; right; assumption). reflexivity. Qed.

Lemma ref_vertex_spec sectors : Forall (Forall track_ok) sectors -> Z.of_nat (length sectors) <= 4000000 ->
  exists b s, bhv_find_pv_ref sectors = Ok (Z.of_nat b, s, 8 * Z.of_nat b - 284) /\ first_max (grand_total sectors) (Z.to_nat 72) b s.
Proof.
  intros H L. destruct (mapM_hists _ H) as (hs & ps & E1 & _ & F & _). unfold bhv_find_pv_ref.
  rewrite (mapM_ext_in _ hw_fill) by (intros ts Ht; apply ref_fill_spec; exact (proj1 (Forall_forall _ _) H ts Ht)).
  rewrite E1. cbn [bind]. assert (length hs = length sectors) as Lh by (clear -F; induction F; cbn; congruence).
  pose proof (grand_nonneg sectors H) as G.
  destruct (foldM_seq_inv (ref_scan_step hs) (fun k best => exists b, fst best = Z.of_nat b /\ scan_inv (grand_total sectors) k b (snd best)) (Z.to_nat 72) (0, 0)) as ([ib sb] & E & b & Eb & I).
  - exists 0%nat. split; [reflexivity|left; auto].
  - intros k [ib sb] Hk (b & Eb & I). cbn [fst snd] in *. cbn [ref_scan_step].
    rewrite (ref_sum_spec k sectors hs Hk H F 0) by lia. cbn [bind]. rewrite Z.add_0_l.
    pose proof (scan_step _ _ _ _ (fun j => proj1 (G j)) I) as I1.
    destruct (grand_total sectors k >? sb); eexists; (split; [reflexivity|]); [exists k|exists b]; cbn [fst snd]; auto.
  - unfold BHV_NBINS. rewrite E. cbn [bind fst snd] in *. subst ib. pose proof (scan_done _ (Z.to_nat 72) b sb ltac:(lia) I) as FM.
    pose proof (fm_lt _ _ _ _ FM). exists b, sb. split; [|exact FM]. unfold wrapU. change (2 ^ 10) with 1024. rewrite !Z.mod_small by lia.
    rewrite bin_center_spec by lia. reflexivity.
Qed.

Lemma c28 sectors : Forall (Forall track_ok) sectors -> Z.of_nat (length sectors) <= 64 ->
  exists b s, hw_vertex sectors = Ok (Z.of_nat b, s, 8 * Z.of_nat b - 284) /\
    bhv_find_pv_ref sectors = Ok (Z.of_nat b, s, 8 * Z.of_nat b - 284) /\ first_max (grand_total sectors) (Z.to_nat 72) b s.
Proof.
  intros H L. destruct (hw_vertex_spec _ H L) as (b & s & E & FM). destruct (ref_vertex_spec sectors H ltac:(lia)) as (b' & s' & E' & FM').
  destruct (first_max_unique _ _ _ _ _ _ FM FM') as [<- <-]. exists b, s. auto.
Qed.

Lemma c28_perm sectors sectors' : Forall (Forall track_ok) sectors -> Z.of_nat (length sectors) <= 64 ->
  Forall2 (@Permutation vtrack) sectors sectors' -> hw_vertex sectors' = hw_vertex sectors.
Proof.
  intros H L P.
  assert (Forall (Forall track_ok) sectors' /\ length sectors' = length sectors /\ forall b, grand_total sectors b = grand_total sectors' b) as (H' & L' & G).
  { clear L. induction P as [|a b la lb Pab P IH]; [repeat split; auto|]. inversion_clear H as [|? ? Ha Hl]. destruct (IH Hl) as (I1 & I2 & I3).
    split; [|split].
    - constructor; [|exact I1]. rewrite <- Pab. exact Ha.
    - cbn. congruence.
    - intros c. unfold grand_total in *. cbn [map]. unfold sumZ in *. cbn [fold_right]. rewrite I3. f_equal. unfold bin_total. f_equal.
      clear -Pab. induction Pab; cbn [filter map].
      + reflexivity.
      + destruct (in_bin (Z.of_nat c) x); cbn [map]; unfold sumZ in *; cbn [fold_right]; lia.
      + destruct (in_bin (Z.of_nat c) x), (in_bin (Z.of_nat c) y); cbn [map]; unfold sumZ in *; cbn [fold_right]; lia.
      + congruence. }
  destruct (hw_vertex_spec sectors H L) as (b & s & -> & FM). destruct (hw_vertex_spec sectors' H' ltac:(lia)) as (b' & s' & -> & FM').
  pose proof (first_max_ext _ _ _ _ _ (fun j _ => G j) FM) as FM2. destruct (first_max_unique _ _ _ _ _ _ FM' FM2) as [-> ->]. reflexivity.
Qed.

(** ** negative pt *)
Lemma c30_neg z pt h x : inS 10 z -> -288 <= z <= 287 -> -1024 <= pt < 0 -> length h = Z.to_nat 72 ->
  nth_error h (Z.to_nat (z / 8 + 36)) = Some x -> 0 <= x < (- pt + 1) / 2 ->
  bhv_add_track (fetch_bin_ref z) pt h = Ok (upd h (Z.to_nat (z / 8 + 36)) 511) /\ ref_fill h (mkVtrack pt z) = Ok h.
Proof.
  unfold inS. change (2 ^ (10 - 1)) with 512. intros Hz Hz2 Hp L E Hx. unfold bhv_add_track, ref_fill. cbn [v_pt v_z0].
  rewrite fetch_bin_spec by lia. replace ((-288 <=? z) && (z <=? 287)) with true by lia. cbn [zb_valid zb_bin].
  assert (wrapS 16 (Z.shiftr pt 1) = pt / 2) as ->.
  { rewrite shiftr1. unfold wrapS. change (2 ^ (16 - 1)) with 32768. change (2 ^ 16) with 65536. rewrite Z.mod_small; lia. }
  split; [|replace (pt / 2 >? 0) with false by lia; reflexivity].
  unfold BHV_MAXPT, BHV_MAXBIN. replace (pt / 2 >? 100) with false by lia. unfold rd. rewrite E. cbn [bind]. unfold i32.
  replace ((-2147483648 <=? x + pt / 2) && (x + pt / 2 <=? 2147483647)) with true by lia. cbn [bind].
  change (511 + 1) with 512. rewrite land512.
  replace (512 * ((x + pt / 2) / 512 mod 2) =? 0) with false by lia. cbn [negb].
  unfold wr. replace (Z.to_nat (z / 8 + 36) <? length h)%nat with true by (symmetry; apply Nat.ltb_lt; lia).
  reflexivity.
Qed.

(** for non-negative pt, and for invalid z, the two agree on one track *)
Lemma c30_pos t h : hok h -> track_ok t -> length h = Z.to_nat 72 ->
  bhv_add_track (fetch_bin_ref (v_z0 t)) (v_pt t) h = ref_fill h t /\
  (v_pt t <= 1 -> bhv_add_track (fetch_bin_ref (v_z0 t)) (v_pt t) h = Ok h).
Proof.
  intros Hh Ht L. pose proof (ref_fill_eq t h Hh Ht L) as E. split; [symmetry; exact E|]. intros P. rewrite <- E. unfold ref_fill.
  destruct Ht as [Hp _]. rewrite pt16 by lia. replace (v_pt t / 2 >? 0) with false by lia. reflexivity.
Qed.

Lemma callsum_perm b c c' : Permutation c c' -> callsum b c = callsum b c'.
Proof.
  intros P. unfold callsum. induction P; cbn [filter].
  - reflexivity.
  - destruct (sel b x); cbn [map]; unfold sumZ in *; cbn [fold_right]; lia.
  - destruct (sel b x), (sel b y); cbn [map]; unfold sumZ in *; cbn [fold_right]; lia.
  - congruence.
Qed.

Lemma nth_error_eq_list {A} (l l' : list A) : length l = length l' -> (forall i, nth_error l i = nth_error l' i) -> l = l'.
Proof.
  revert l'. induction l as [|a l IH]; intros [|b l'] L H; cbn in *; try lia; [reflexivity|].
  pose proof (H 0%nat) as H0. cbn in H0. injection H0 as ->. f_equal. apply IH; [lia|]. intros i. exact (H (S i)).
Qed.

Lemma c26_perm calls calls' h : Forall (fun x => 0 <= x <= 511) h ->
  Forall (fun x => 0 <= snd x < 32768 /\ (zb_valid (fst x) = true -> 0 <= zb_bin (fst x) < Z.of_nat (length h))) calls ->
  Permutation calls calls' ->
  foldM (fun h x => bhv_add_track (fst x) (snd x) h) calls h = foldM (fun h x => bhv_add_track (fst x) (snd x) h) calls' h.
Proof.
  intros Hh Hc P. destruct (c26 calls h Hh Hc) as (h1 & -> & L1 & N1).
  assert (Forall (fun x => 0 <= snd x < 32768 /\ (zb_valid (fst x) = true -> 0 <= zb_bin (fst x) < Z.of_nat (length h))) calls') as Hc'.
  { rewrite <- P. exact Hc. }
  destruct (c26 calls' h Hh Hc') as (h2 & -> & L2 & N2).
  f_equal. apply nth_error_eq_list; [congruence|]. intros i. destruct (nth_error h i) as [x|] eqn:E.
  - rewrite (N1 i x E), (N2 i x E), (callsum_perm _ _ _ P). reflexivity.
  - apply nth_error_None in E. rewrite !(proj2 (nth_error_None _ _)) by lia. reflexivity.
Qed.

Lemma c30_vertex : exists sectors b s b' s',
  Forall (Forall (fun t => inS 16 (v_pt t) /\ inS 10 (v_z0 t))) sectors /\
  hw_vertex sectors = Ok (b, s, bin_center_ref b) /\ bhv_find_pv_ref sectors = Ok (b', s', bin_center_ref b') /\ b <> b'.
Proof.
  exists [[mkVtrack 200 0; mkVtrack (-2) 100]], 48, 511, 36, 100. split; [|split; [vm_compute; reflexivity|split; [vm_compute; reflexivity|lia]]].
  repeat constructor; cbn; lia.
Qed.
