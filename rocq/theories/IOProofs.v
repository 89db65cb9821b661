(** The region iteration. *)
From Coq Require Import QArith Qpower.
From Verif Require Import Base BaseFacts Data TabFacts Discrete Convert DiscreteIO SpecIO IOFacts ConvertFacts.
Open Scope Z_scope.

(** ** |x| > 1.5 on bit patterns *)
Lemma Qpow2_nonneg n : 0 <= n -> ((2 # 1) ^ n == inject_Z (2 ^ n))%Q.
Proof. intros H. rewrite Zpower_Qpower by exact H. reflexivity. Qed.
Lemma Qpow2_neg n : 0 <= n -> ((2 # 1) ^ (- n) == / inject_Z (2 ^ n))%Q.
Proof. intros H. rewrite Qpower_opp. rewrite Qpow2_nonneg by exact H. reflexivity. Qed.
(** m 2^-k <= 3/2 iff 2 m <= 3 2^k *)
Lemma scaled_le m k : 0 <= k -> Qle_bool (inject_Z m * (2 # 1) ^ (- k))%Q (3 # 2) = (2 * m <=? 3 * 2 ^ k).
Proof.
  intros H. apply eq_true_iff_eq. rewrite Qle_bool_iff, Z.leb_le. rewrite Qpow2_neg by exact H.
  assert (P : 0 < 2 ^ k) by (apply Z.pow_pos_nonneg; lia).
  assert (PQ : (0 < inject_Z (2 ^ k))%Q) by (unfold Qlt; cbn; lia).
  split.
  - intros G. apply (Qmult_le_compat_r _ _ (inject_Z (2 ^ k))) in G; [|apply Qlt_le_weak; exact PQ].
    rewrite <- Qmult_assoc, (Qmult_comm (/ _)), Qmult_inv_r, Qmult_1_r in G by (intros E; rewrite E in PQ; discriminate PQ). unfold Qle in G. cbn [Qnum Qden Qmult inject_Z] in G. change (Z.pos (2 * 1)) with 2 in G. lia.
  - intros G. apply Qle_shift_div_r; [exact PQ|]. unfold Qle. cbn [Qnum Qden Qmult inject_Z]. change (Z.pos (2 * 1)) with 2. lia.
Qed.
Lemma barrel_bits r : inU 32 (rg_etac r) -> region_finite r -> abs_gt_1p5 (rg_etac r) = negb (barrel r).
Proof.
  unfold region_finite, barrel. generalize (rg_etac r). intros b Hb Hf. unfold f32_finite, f32_abs, abs_gt_1p5, inU in *.
  set (x := (b / 2 ^ 23) mod 2 ^ 8) in *. set (f := b mod 2 ^ 23).
  assert (Hf2 : 0 <= f < 2 ^ 23) by (apply Z.mod_pos_bound; lia). assert (Hx : 0 <= x < 2 ^ 8) by (apply Z.mod_pos_bound; lia).
  assert (E : b mod 2 ^ 31 = x * 2 ^ 23 + f).
  { unfold x, f. change (2 ^ 31) with (2 ^ 23 * 2 ^ 8). rewrite Z.rem_mul_r by lia. lia. }
  rewrite E. clearbody x f. clear E Hb b. change (2 ^ 23) with 8388608 in *. change (2 ^ 8) with 256 in *.
  assert (FI : (x * 8388608 + f <=? 2139095040) = true) by lia. rewrite FI, andb_true_r.
  destruct (Z.eqb_spec x 0) as [->|NZ].
  - change (-149)%Z with (Z.opp 149). rewrite scaled_le by lia.
    assert (2 * f <= 3 * 2 ^ 149) by (apply Z.le_trans with (2 * 8388608); [lia|]; apply Z.leb_le; reflexivity). lia.
  - destruct (Z.le_gt_cases x 150) as [G|G].
    + replace (x - 150) with (- (150 - x)) by lia. rewrite scaled_le by lia.
      destruct (Z.lt_trichotomy x 127) as [L|[L|L]].
      * assert (2 ^ 24 <= 2 ^ (150 - x)) by (apply Z.pow_le_mono_r; lia). change (2 ^ 24) with 16777216 in *. lia.
      * subst x. change (2 ^ (150 - 127)) with 8388608. lia.
      * assert (2 ^ (150 - x) <= 2 ^ 22) by (apply Z.pow_le_mono_r; lia). change (2 ^ 22) with 4194304 in *. lia.
    + assert (N : Qle_bool (inject_Z (8388608 + f) * (2 # 1) ^ (x - 150))%Q (3 # 2) = false).
      { apply not_true_iff_false. rewrite Qle_bool_iff. rewrite Qpow2_nonneg by lia. unfold Qle. cbn [Qmult Qnum Qden inject_Z Pos.mul Z.mul].
        assert (1 <= 2 ^ (x - 150)) by (apply (Z.pow_le_mono_r 2 0); lia). nia. }
      rewrite N. lia.
Qed.

(** ** States of the iteration *)
Definition reload (s : inputs) : bool := (ev_event (in_event s) =? 0) || (Z.of_nat (in_region s) =? Z.of_nat (length (ev_regions (in_event s)))).
Definition bump (s : inputs) : inputs := mkIn (in_file s) (in_event s) (Z.to_nat (wrapU 32 (Z.of_nat (in_region s) + 1))).
Definition cur (s : inputs) : list (event * Region) :=
  if ev_event (in_event s) =? 0 then [] else map (pair (in_event s)) (filter barrel (skipn (in_region s) (ev_regions (in_event s)))).
Definition outk (e : event) : list (event * Region) := map (pair (event_kept e)) (event_regions (event_kept e)).
Definition vec_ok (r : Region) : Prop := fits (rg_calo r) /\ fits (rg_emcalo r) /\ fits (rg_track r) /\ fits (rg_muon r).
Definition etas_ok (rs : list Region) : Prop := Forall (fun r => inU 32 (rg_etac r) /\ region_finite r /\ vec_ok r) rs.
Definition done (s : inputs) : Prop := f_eof (in_file s) = true /\ reload s = true.

(** the file: a dump followed by the bytes [tl]; [endok]: what the call that
    runs into [tl] does *)
Section iter.
Variables (tl : list Z) (endok : res (bool * inputs) -> Prop).
Definition Inv (s : inputs) (evs : list event) : Prop :=
  in_file s = mkFile (dump evs ++ tl) false /\ Forall good_event evs /\ (in_region s <= length (ev_regions (in_event s)))%nat /\
  fits (ev_regions (in_event s)) /\ etas_ok (ev_regions (in_event s)).
Definition ready (s : inputs) (evs : list event) (p : event * Region) (rest : list (event * Region)) : Prop :=
  in_event s = fst p /\ rd (ev_regions (in_event s)) (in_region s) = Ok (snd p) /\ Inv (bump s) evs /\ cur (bump s) ++ flat_map outk evs = rest.
Definition result (s : inputs) (evs : list event) : Prop :=
  exists N X, (forall fuel, (N <= fuel)%nat -> next_region (Ok true) fuel s = Some X) /\ match cur s ++ flat_map outk evs with
  | [] => endok X
  | p :: rest => exists s' evs', X = Ok (true, s') /\ ready s' evs' p rest
  end.
Hypothesis Hend : forall s, in_file s = mkFile tl false -> reload s = true -> exists N X, (forall fuel, (N <= fuel)%nat -> next_region (Ok true) fuel s = Some X) /\ endok X.

Lemma next_unfold tail fuel s : next_region tail (S fuel) s =
  match (if reload s then if f_eof (in_file s) then Ok (false, s) else
         do ((ok, ev), f) <- event_read tail (in_event s) (in_file s); if ok : bool then Ok (true, mkIn f ev 0) else Ok (false, mkIn f ev (in_region s)) else Ok (true, s)) with
  | UB k => Some (UB k)
  | Ok (false, s1) => Some (Ok (false, s1))
  | Ok (true, s1) => match rd (ev_regions (in_event s1)) (in_region s1) with
      | UB k => Some (UB k)
      | Ok r => if abs_gt_1p5 (rg_etac r) then next_region tail fuel (bump s1) else Some (Ok (true, s1))
      end
  end.
Proof. reflexivity. Qed.

Lemma done_next tail fuel s : done s -> next_region tail (S fuel) s = Some (Ok (false, s)).
Proof. intros (E & R). rewrite next_unfold, R, E. reflexivity. Qed.

Lemma bump_region s : fits (ev_regions (in_event s)) -> (in_region s < length (ev_regions (in_event s)))%nat -> in_region (bump s) = S (in_region s).
Proof. intros F L. unfold bump, fits in *. cbn [in_region]. rewrite wrapU_id by (unfold inU; lia). lia. Qed.

Lemma skipn_cons {A} i (l : list A) x : nth_error l i = Some x -> skipn i l = x :: skipn (S i) l.
Proof. revert l. induction i as [|i IH]; intros [|y l] H; cbn in *; try discriminate; [congruence|]. apply IH. exact H. Qed.

(** looking at region i of the event in memory *)
Lemma look s r : fits (ev_regions (in_event s)) -> etas_ok (ev_regions (in_event s)) -> nth_error (ev_regions (in_event s)) (in_region s) = Some r ->
  rd (ev_regions (in_event s)) (in_region s) = Ok r /\ abs_gt_1p5 (rg_etac r) = negb (barrel r) /\ in_region (bump s) = S (in_region s) /\ (in_region s < length (ev_regions (in_event s)))%nat.
Proof.
  intros F E H. assert (L : (in_region s < length (ev_regions (in_event s)))%nat) by (apply nth_error_Some; congruence).
  split; [unfold rd; rewrite H; reflexivity|]. split.
  - apply nth_error_In in H. unfold etas_ok in E. rewrite Forall_forall in E. destruct (E r H) as (? & ? & _). apply barrel_bits; assumption.
  - split; [apply bump_region; assumption|exact L].
Qed.

Lemma inv_bump s evs : Inv s evs -> (in_region s < length (ev_regions (in_event s)))%nat -> Inv (bump s) evs.
Proof. intros (I1 & I2 & I3 & I4 & I5) L. split; [exact I1|]. split; [exact I2|]. split; [rewrite bump_region by assumption; cbn [bump in_event]; lia|]. split; assumption. Qed.

(** scanning the event in memory, given the result once it is exhausted *)
Lemma scan evs : forall k s, Inv s evs -> (length (ev_regions (in_event s)) - in_region s = k)%nat -> ev_event (in_event s) <> 0 ->
  (forall s, Inv s evs -> in_region s = length (ev_regions (in_event s)) -> ev_event (in_event s) <> 0 -> result s evs) -> result s evs.
Proof.
  induction k as [|k IH]; intros s HI HK HN HEnd.
  - apply HEnd; auto. destruct HI as (_ & _ & L & _). lia.
  - destruct (nth_error_lt (ev_regions (in_event s)) (in_region s)) as (r & Hr); [lia|].
    pose proof HI as (I1 & I2 & I3 & I4 & I5). destruct (look s r I4 I5 Hr) as (R1 & R2 & R3 & R4).
    assert (RL : reload s = false). { unfold reload. destruct (Z.eqb_spec (ev_event (in_event s)) 0); [lia|]. cbn [orb]. lia. }
    assert (C : cur s = (if barrel r then [(in_event s, r)] else []) ++ cur (bump s)).
    { unfold cur. rewrite R3. cbn [bump in_event]. destruct (Z.eqb_spec (ev_event (in_event s)) 0); [lia|]. rewrite (skipn_cons _ _ _ Hr). cbn [filter]. destruct (barrel r); reflexivity. }
    destruct (barrel r) eqn:B.
    + exists 1%nat, (Ok (true, s)). rewrite C. cbn [app]. split.
      * intros [|fuel] Hf; [lia|]. rewrite next_unfold, RL, R1, R2. reflexivity.
      * exists s, evs. split; [reflexivity|]. split; [reflexivity|]. split; [exact R1|]. split; [apply inv_bump; assumption|reflexivity].
    + assert (HB : result (bump s) evs). { apply IH; [apply inv_bump; assumption|rewrite R3; cbn [bump in_event]; lia|exact HN|exact HEnd]. }
      destruct HB as (N & X & HB & HD). exists (S N), X. rewrite C. cbn [app].
      assert (ST : forall fuel, next_region (Ok true) (S fuel) s = next_region (Ok true) fuel (bump s)). { intros fuel. rewrite next_unfold, RL, R1, R2. reflexivity. }
      split; [|exact HD]. intros [|fuel] Hf; [lia|]. rewrite ST. apply HB. lia.
Qed.

Lemma kept_etas e : good_event e -> etas_ok (ev_regions (event_kept e)) /\ fits (ev_regions (event_kept e)) /\ (0 < length (ev_regions (event_kept e)))%nat.
Proof.
  intros ((_ & _ & _ & _ & W & F) & FI & NE). cbn [event_kept ev_regions]. unfold etas_ok, fits in *. rewrite map_length.
  split; [|split; [exact F|destruct (ev_regions e); [congruence|cbn; lia]]].
  rewrite Forall_map. rewrite Forall_forall in *. intros r Hr. destruct (W r Hr) as (H & (_ & W1) & (_ & W2) & (_ & W3) & (_ & W4)). inversion H; subst. split; [assumption|]. split; [exact (FI r Hr)|].
  unfold vec_ok, fits, region_kept in *. cbn [rg_calo rg_emcalo rg_track rg_muon]. rewrite !map_length. auto.
Qed.

(** loading the next event *)
Lemma load evs : Forall good_event evs -> (forall e evs', evs = e :: evs' -> forall s, Inv s evs' -> result s evs') ->
  forall s, in_file s = mkFile (dump evs ++ tl) false -> reload s = true -> cur s = [] -> result s evs.
Proof.
  intros HG IH s HF HR HC. unfold result. rewrite HC. cbn [app]. destruct evs as [|e evs].
  - cbn [flat_map]. apply Hend; assumption.
  - inversion HG as [|? ? HE HG']; subst. destruct (kept_etas e HE) as (E1 & E2 & E3). pose proof HE as (HW & _).
    set (s1 := mkIn (mkFile (dump evs ++ tl) false) (event_kept e) 0).
    assert (LD : forall fuel, next_region (Ok true) (S fuel) s = match rd (ev_regions (in_event s1)) (in_region s1) with
      | UB k => Some (UB k) | Ok r => if abs_gt_1p5 (rg_etac r) then next_region (Ok true) fuel (bump s1) else Some (Ok (true, s1)) end).
    { intros fuel. rewrite next_unfold, HR, HF. cbn [f_eof dump concat map]. fold (dump evs). rewrite <- app_assoc, event_codec by exact HW. cbn [bind]. reflexivity. }
    assert (I1 : Inv s1 evs). { split; [reflexivity|]. split; [exact HG'|]. split; [cbn; lia|]. split; assumption. }
    destruct (nth_error_lt (ev_regions (event_kept e)) 0 E3) as (r & Hr).
    destruct (look s1 r E2 E1 Hr) as (R1 & R2 & R3 & R4).
    assert (C : outk e ++ flat_map outk evs = (if barrel r then [(event_kept e, r)] else []) ++ cur (bump s1) ++ flat_map outk evs).
    { rewrite app_assoc. f_equal. unfold outk, cur, event_regions. rewrite R3. cbn [bump in_event in_region s1]. pose proof (skipn_cons _ _ _ Hr) as SK. cbn [skipn] in SK.
      destruct (Z.eqb_spec (ev_event (event_kept e)) 0) as [Z|Z].
      - rewrite SK. cbn [firstn filter]. destruct (barrel r); reflexivity.
      - rewrite SK at 1. cbn [filter]. destruct (barrel r); cbn [map app]; rewrite ?SK; reflexivity. }
    cbn [flat_map]. rewrite C. destruct (barrel r) eqn:B.
    + exists 1%nat, (Ok (true, s1)). cbn [app]. split.
      * intros [|fuel] Hf; [lia|]. rewrite LD, R1, R2. reflexivity.
      * exists s1, evs. split; [reflexivity|]. split; [reflexivity|]. split; [exact R1|]. split; [apply inv_bump; assumption|reflexivity].
    + destruct (IH e evs eq_refl (bump s1) (inv_bump _ _ I1 R4)) as (N & X & HB & HD). exists (S N), X. cbn [app].
      assert (ST : forall fuel, next_region (Ok true) (S fuel) s = next_region (Ok true) fuel (bump s1)). { intros fuel. rewrite LD, R1, R2. reflexivity. }
      split; [|exact HD]. intros [|fuel] Hf; [lia|]. rewrite ST. apply HB. lia.
Qed.

Lemma next_step evs : (forall e evs', evs = e :: evs' -> forall s, Inv s evs' -> result s evs') -> forall s, Inv s evs -> result s evs.
Proof.
  intros IH s HI. pose proof HI as (I1 & I2 & I3 & I4 & I5). pose proof (load evs I2 IH) as LD.
  destruct (Z.eqb_spec (ev_event (in_event s)) 0) as [Z|Z].
  - apply LD; [exact I1|unfold reload; rewrite Z; reflexivity|unfold cur; rewrite Z; reflexivity].
  - eapply scan; [exact HI|reflexivity|exact Z|]. intros s1 (J1 & _) HL HN. apply LD; [exact J1|unfold reload; rewrite HL, Z.eqb_refl; apply orb_true_r|].
    unfold cur. rewrite HL, skipn_all. destruct (_ =? 0); reflexivity.
Qed.
Lemma next_result evs : forall s, Inv s evs -> result s evs.
Proof.
  induction evs as [|e evs IH]; apply next_step; [discriminate|]. intros e' evs' E. injection E as <- <-. exact IH.
Qed.

End iter.

(** ** Sequences of calls *)
Section calls.
Variables (c : config) (special : Z -> Z).
Definition show (p : event * Region) : fwregion := fw_arrays c special (fst p) (snd p).

Lemma done_calls tail fuel n out s : done s -> region_calls c special tail (S fuel) n out s = Some (Ok (repeat None n)).
Proof.
  intros D. revert out. induction n as [|n IH]; intros out; [reflexivity|]. cbn [region_calls]. unfold next_region_fw. rewrite done_next by exact D. rewrite IH. reflexivity.
Qed.

Lemma shown_nil {A} n : @shown A [] n = repeat None n.
Proof. unfold shown. rewrite firstn_nil. cbn. now rewrite Nat.sub_0_r. Qed.
Lemma shown_cons {A} (x : A) l n : shown (x :: l) (S n) = Some x :: shown l n.
Proof. reflexivity. Qed.

Lemma fw_ok out s s' fuel tail p : next_region tail fuel s = Some (Ok (true, s')) -> in_event s' = fst p -> rd (ev_regions (in_event s')) (in_region s') = Ok (snd p) ->
  etas_ok (ev_regions (in_event s')) -> arrays_ok c out -> next_region_fw c special tail fuel out s = Some (Ok (true, show p, bump s')).
Proof.
  intros HN HE HR HV (A1 & A2 & A3 & A4). unfold next_region_fw. rewrite HN, HR. cbn [bind].
  assert (V : vec_ok (snd p)).
  { unfold rd in HR. destruct (nth_error _ _) eqn:E; [|discriminate]. injection HR as ->. apply nth_error_In in E. unfold etas_ok in HV. rewrite Forall_forall in HV. apply (HV _ E). }
  destruct V as (V1 & V2 & V3 & V4). rewrite !convert_in_ok by assumption. cbn [bind]. unfold show, fw_arrays, bump. rewrite <- HE. reflexivity.
Qed.
Lemma show_arrays p : arrays_ok c (show p).
Proof. unfold show, fw_arrays, arrays_ok. cbn [fw_calo fw_emcalo fw_track fw_muon]. rewrite !length_filled. auto. Qed.

(** calls before [tl] is reached *)
Lemma calls_some tl endok (Hend : forall s, in_file s = mkFile tl false -> reload s = true -> exists N X, (forall fuel, (N <= fuel)%nat -> next_region (Ok true) fuel s = Some X) /\ endok X) n :
  forall evs s, Inv tl s evs -> exists N s' evs', Inv tl s' evs' /\ cur s' ++ flat_map outk evs' = skipn n (cur s ++ flat_map outk evs) /\
  forall fuel out m, (N <= fuel)%nat -> arrays_ok c out -> (n <= length (cur s ++ flat_map outk evs))%nat -> exists out', arrays_ok c out' /\
  region_calls c special (Ok true) fuel (n + m) out s = match region_calls c special (Ok true) fuel m out' s' with
    | Some (Ok l) => Some (Ok (map (fun p => Some (show p)) (firstn n (cur s ++ flat_map outk evs)) ++ l)) | o => o end.
Proof.
  induction n as [|n IH]; intros evs s HI.
  - exists 0%nat, s, evs. split; [exact HI|]. split; [reflexivity|]. intros fuel out m _ HA _. exists out. split; [exact HA|]. cbn [Nat.add firstn map app]. destruct (region_calls _ _ _ _ _ _ _) as [[|]|]; reflexivity.
  - destruct (next_result tl endok Hend evs s HI) as (N & X & HR & HX). destruct (cur s ++ flat_map outk evs) as [|p rest] eqn:EC.
    + exists 0%nat, s, evs. split; [exact HI|]. split; [rewrite EC; reflexivity|]. intros fuel out m _ _ HL. cbn in HL. lia.
    + destruct HX as (s1 & evs1 & -> & R1 & R2 & R3 & R4). destruct (IH evs1 (bump s1) R3) as (N2 & s' & evs' & I' & C' & H2). exists (Nat.max N N2), s', evs'.
      split; [exact I'|]. split; [rewrite C', R4; reflexivity|]. intros fuel out m Hf HA HL. rewrite R4 in H2. cbn in HL.
      destruct (H2 fuel (show p) m ltac:(lia) (show_arrays p) ltac:(lia)) as (out' & A' & E'). exists out'. split; [exact A'|].
      cbn [Nat.add region_calls]. rewrite (fw_ok out s s1 fuel (Ok true) p); [|apply HR; lia|exact R1|exact R2|apply R3|exact HA]. rewrite E'.
      destruct (region_calls c special (Ok true) fuel m out' s') as [[|]|]; reflexivity.
Qed.

Lemma end_eof s : in_file s = mkFile [] false -> reload s = true -> exists N X, (forall fuel, (N <= fuel)%nat -> next_region (Ok true) fuel s = Some X) /\ exists s', X = Ok (false, s') /\ done s'.
Proof.
  intros HF HR. exists 1%nat. eexists. split.
  - intros [|fuel] Hf; [lia|]. rewrite next_unfold, HR, HF. cbn [f_eof]. unfold event_read, fread. cbn [f_rest length Nat.min firstn skipn bind negb Nat.eqb Nat.ltb Nat.leb f_eof orb]. unfold ret. cbn [bind]. reflexivity.
  - eexists. split; [reflexivity|]. split; [reflexivity|]. unfold reload in *. cbn [in_event ev_event ev_regions in_region]. exact HR.
Qed.
Lemma calls_end tl endok (Hend : forall s, in_file s = mkFile tl false -> reload s = true -> exists N X, (forall fuel, (N <= fuel)%nat -> next_region (Ok true) fuel s = Some X) /\ endok X) evs s :
  Inv tl s evs -> cur s ++ flat_map outk evs = [] -> exists N X, (forall fuel, (N <= fuel)%nat -> next_region (Ok true) fuel s = Some X) /\ endok X.
Proof. intros HI HC. destruct (next_result tl endok Hend evs s HI) as (N & X & HR & HX). rewrite HC in HX. exists N, X. auto. Qed.

Lemma calls_ok n evs s : Inv [] s evs -> exists N, forall fuel out, (N <= fuel)%nat -> arrays_ok c out ->
  region_calls c special (Ok true) fuel n out s = Some (Ok (shown (map show (cur s ++ flat_map outk evs)) n)).
Proof.
  intros HI. set (l := cur s ++ flat_map outk evs). set (k := Nat.min n (length l)).
  destruct (calls_some [] _ end_eof k evs s HI) as (N & s' & evs' & I' & C' & H). fold l in C', H.
  destruct (Nat.le_gt_cases n (length l)) as [G|G].
  - exists N. intros fuel out Hf HA. destruct (H fuel out 0%nat Hf HA ltac:(lia)) as (out' & _ & E). rewrite Nat.add_0_r in E. replace k with n in E by lia. rewrite E. cbn [region_calls].
    rewrite app_nil_r. unfold shown. rewrite map_length. replace (n - length l)%nat with 0%nat by lia. cbn [repeat]. rewrite app_nil_r, firstn_map, map_map. reflexivity.
  - assert (HE : cur s' ++ flat_map outk evs' = []) by (rewrite C'; apply skipn_all2; lia).
    destruct (calls_end [] _ end_eof evs' s' I' HE) as (N2 & X & HX & s2 & -> & HD). exists (S (Nat.max N N2)). intros fuel out Hf HA.
    destruct (H fuel out (n - k)%nat ltac:(lia) HA ltac:(lia)) as (out' & A' & E). replace (k + (n - k))%nat with n in E by lia. rewrite E.
    assert (F : region_calls c special (Ok true) fuel (n - k) out' s' = Some (Ok (repeat None (n - k)))).
    { destruct (n - k)%nat as [|m] eqn:EM; [reflexivity|]. cbn [region_calls]. unfold next_region_fw. rewrite HX by lia. destruct fuel as [|fuel]; [lia|]. rewrite done_calls by exact HD. reflexivity. }
    rewrite F. unfold shown. rewrite map_length. replace (n - length l)%nat with (n - k)%nat by lia. rewrite firstn_map, map_map. rewrite !firstn_all2 by lia. reflexivity.
Qed.
Lemma calls_ub tl k0 (Hend : forall s, in_file s = mkFile tl false -> reload s = true -> exists N X, (forall fuel, (N <= fuel)%nat -> next_region (Ok true) fuel s = Some X) /\ X = UB k0) n evs s :
  Inv tl s evs -> (length (cur s ++ flat_map outk evs) < n)%nat -> exists N, forall fuel out, (N <= fuel)%nat -> arrays_ok c out -> region_calls c special (Ok true) fuel n out s = Some (UB k0).
Proof.
  intros HI G. set (l := cur s ++ flat_map outk evs) in *. destruct (calls_some tl _ Hend (length l) evs s HI) as (N & s' & evs' & I' & C' & H). fold l in C', H.
  assert (HE : cur s' ++ flat_map outk evs' = []) by (rewrite C'; apply skipn_all2; lia).
  destruct (calls_end tl _ Hend evs' s' I' HE) as (N2 & X & HX & ->). exists (Nat.max N N2). intros fuel out Hf HA.
  destruct (H fuel out (n - length l)%nat ltac:(lia) HA ltac:(lia)) as (out' & A' & E). replace (length l + (n - length l))%nat with n in E by lia. rewrite E.
  destruct (n - length l)%nat as [|m] eqn:EM; [lia|]. cbn [region_calls]. unfold next_region_fw. rewrite HX by lia. reflexivity.
Qed.
End calls.

Lemma barrel_kept r : barrel (region_kept r) = barrel r.
Proof. reflexivity. Qed.
Lemma filter_map_kept l : filter barrel (map region_kept l) = map region_kept (filter barrel l).
Proof. induction l as [|r l IH]; [reflexivity|]. cbn [map filter]. rewrite barrel_kept, IH. destruct (barrel r); reflexivity. Qed.
Lemma shown_outk c special evs : map (show c special) (flat_map outk evs) = map (fun p => fw_arrays c special (fst p) (snd p)) (all_regions event_regions evs).
Proof.
  induction evs as [|e evs IH]; [reflexivity|]. unfold all_regions in *. cbn [flat_map]. rewrite !map_app, IH. f_equal. unfold outk, event_regions. rewrite !map_map. cbn [event_kept ev_event ev_regions].
  replace (if ev_event e =? 0 then firstn 1 (map region_kept (ev_regions e)) else map region_kept (ev_regions e)) with (map region_kept (if ev_event e =? 0 then firstn 1 (ev_regions e) else ev_regions e)) by (destruct (_ =? 0); [symmetry; apply firstn_map|reflexivity]).
  rewrite filter_map_kept, map_map. apply map_ext. intros r. unfold show. cbn [fst snd]. apply fw_arrays_kept.
Qed.

Lemma open_inv g evs s : Forall good_event evs -> inputs_open g (Some (dump evs)) = Ok s -> Inv [] s evs /\ cur s = [].
Proof. intros HG E. injection E as <-. split; [|reflexivity]. split; [cbn [in_file]; rewrite app_nil_r; reflexivity|]. split; [exact HG|]. split; [cbn; lia|]. split; [cbn; unfold fits; cbn; lia|constructor]. Qed.

(** the exact behaviour for every dump of events that have regions *)
Lemma c48_exact c special g evs n s : Forall good_event evs -> inputs_open g (Some (dump evs)) = Ok s ->
  exists N, forall fuel out, (N <= fuel)%nat -> arrays_ok c out ->
  region_calls c special (Ok true) fuel n out s = Some (Ok (shown (map (fun p => fw_arrays c special (fst p) (snd p)) (all_regions event_regions evs)) n)).
Proof.
  intros HG HO. destruct (open_inv _ _ _ HG HO) as (HI & HC). destruct (calls_ok c special n evs s HI) as (N & H). exists N. intros fuel out Hf HA.
  rewrite (H fuel out Hf HA), HC. cbn [app]. rewrite shown_outk. reflexivity.
Qed.
Lemma c48_numbered c special g evs n s : Forall good_event evs -> Forall (fun e => ev_event e <> 0) evs -> inputs_open g (Some (dump evs)) = Ok s ->
  exists N, forall fuel out, (N <= fuel)%nat -> arrays_ok c out ->
  region_calls c special (Ok true) fuel n out s = Some (Ok (shown (map (fun p => fw_arrays c special (fst p) (snd p)) (all_regions barrel_regions evs)) n)).
Proof.
  intros HG HZ HO. replace (all_regions barrel_regions evs) with (all_regions event_regions evs); [apply (c48_exact c special g); assumption|].
  unfold all_regions, event_regions, barrel_regions. clear HG HO. induction HZ as [|e evs He HZ IH]; [reflexivity|]. cbn [flat_map]. rewrite IH. destruct (Z.eqb_spec (ev_event e) 0); [contradiction|reflexivity].
Qed.

(** the C++ standard: the first event read is already undefined *)
Lemma c48_standard c special g e evs n s fuel out : good_event e -> inputs_open g (Some (dump (e :: evs))) = Ok s ->
  region_calls c special (UB MissingReturn) (S fuel) (S n) out s = Some (UB MissingReturn).
Proof.
  intros (HW & _) HO. injection HO as <-. cbn [region_calls]. unfold next_region_fw. rewrite next_unfold.
  unfold reload. cbn [in_event event0 ev_event Z.eqb orb in_file f_eof dump map concat]. fold (dump evs). rewrite event_codec by exact HW. reflexivity.
Qed.

(** an event without regions makes the call that loads it read regions[0] *)
Lemma end_noregions e rest s : event_wf e -> ev_regions e = [] -> in_file s = mkFile (event_dump e ++ rest) false -> reload s = true ->
  exists N X, (forall fuel, (N <= fuel)%nat -> next_region (Ok true) fuel s = Some X) /\ X = UB OutOfBounds.
Proof.
  intros HW HN HF HR. exists 1%nat, (UB OutOfBounds). split; [|reflexivity]. intros [|fuel] Hf; [lia|]. rewrite next_unfold, HR, HF. cbn [f_eof].
  rewrite event_codec by exact HW. cbn [bind]. unfold event_kept. rewrite HN. reflexivity.
Qed.
Lemma c48_noregions c special g evs e rest n s : Forall good_event evs -> event_wf e -> ev_regions e = [] -> inputs_open g (Some (dump (evs ++ e :: rest))) = Ok s ->
  (length (all_regions event_regions evs) < n)%nat -> exists N, forall fuel out, (N <= fuel)%nat -> arrays_ok c out -> region_calls c special (Ok true) fuel n out s = Some (UB OutOfBounds).
Proof.
  intros HG HW HN HO HL. injection HO as <-. apply (calls_ub c special (event_dump e ++ dump rest) OutOfBounds (fun s => end_noregions e (dump rest) s HW HN) n evs).
  - split; [cbn [in_file]; unfold dump; rewrite map_app, concat_app; reflexivity|]. split; [exact HG|]. split; [cbn; lia|]. split; [cbn; unfold fits; cbn; lia|constructor].
  - unfold cur. cbn [in_event event0 ev_event Z.eqb app]. pose proof (f_equal (@length _) (shown_outk c special evs)) as E. rewrite !map_length in E. rewrite E. exact HL.
Qed.

(** ** nextEvent *)
Definition at_end (s : inputs) : Prop := f_eof (in_file s) = true.
Lemma event_calls_end tail n s : at_end s -> event_calls tail n s = Ok (repeat None n).
Proof. intros H. induction n as [|n IH]; [reflexivity|]. cbn [event_calls]. unfold next_event. rewrite H. cbn [bind]. rewrite IH. reflexivity. Qed.
Lemma event_calls_ok evs : forall n s, Forall event_wf evs -> in_file s = mkFile (dump evs) false -> event_calls (Ok true) n s = Ok (shown (map event_kept evs) n).
Proof.
  induction evs as [|e evs IH]; intros [|n] s HW HF; try reflexivity.
  - cbn [event_calls]. unfold next_event. rewrite HF. cbn [f_eof dump map concat]. unfold event_read, fread. cbn [f_rest length Nat.min firstn skipn bind negb Nat.eqb Nat.ltb Nat.leb f_eof orb]. unfold ret. cbn [bind].
    rewrite event_calls_end by reflexivity. reflexivity.
  - inversion HW; subst. cbn [event_calls]. unfold next_event. rewrite HF. cbn [f_eof dump map concat]. fold (dump evs). rewrite event_codec by assumption. cbn [bind].
    rewrite (IH n) by (try assumption; reflexivity). reflexivity.
Qed.
