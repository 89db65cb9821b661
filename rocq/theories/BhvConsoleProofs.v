(** The console of the test program of the histogramming vertex finder. *)
From Coq Require Import Ascii String QArith Qpower Qabs.
From Verif Require Import Base BaseFacts MapiFacts Data Discrete Convert DiscreteIO SpecIO IOProofs ZpvFacts SerText SerTextFacts Printf HumanRead SpecHR HRFacts HRProofs EventLoop EventLoopFacts Encoding SpecEnc EncFacts Serializer SpecSer SerProofs
  Regionizer SpecRegion SpecTest SpecRegTest RegTestOk RegTestProofs RegPackProofs RegTestRun RegTestFinal RegFilesProofs Bhv SpecBhv BhvProofs BhvTest SpecBhvTest BhvTestProofs BhvFileProofs Console SpecConsole ConsoleFacts ConsoleProofs ConsoleMain RegConsoleProofs RegConsoleMain BhvConsole SpecBhvConsole.
Local Open Scope string_scope.
Local Open Scope list_scope.
Local Open Scope Z_scope.

(** ** Rounding *)
(** t is |20 z0| rounded to the nearest integer, up to the rounding of the product *)
Lemma zround_int special b : f32_finite b -> 0 <= b -> 20 * f32_m b * 2 ^ (f32_e b + 149) <= 511 * 2 ^ 149 ->
  exists t, zround special b = (if f32_sign b then - t else t) /\ 0 <= t <= 511 /\
    20 * f32_m b * 2 ^ (f32_e b + 149) - 2 ^ 148 - 2 ^ 134 <= t * 2 ^ 149 <= 20 * f32_m b * 2 ^ (f32_e b + 149) + 2 ^ 148 + 2 ^ 134.
Proof.
  intros HF Hb HV. unfold zround. set (M := 20 * f32_m b) in *. set (e := f32_e b) in *. set (k := Z.max 0 (Z.log2 M - 23)). set (M' := rne M k).
  assert (He : -149 <= e) by (unfold e, f32_e; lia).
  assert (HM : 0 <= M). { unfold M, f32_m, f32_frac. destruct (_ =? 0); pose proof (Z.mod_pos_bound b (2 ^ 23)); lia. }
  assert (Hk : 0 <= k) by (unfold k; lia).
  assert (PE : 0 < 2 ^ (e + 149)) by (apply Z.pow_pos_nonneg; lia).
  set (R := M' * 2 ^ (e + k + 149)).
  assert (RE : R = M' * 2 ^ k * 2 ^ (e + 149)). { unfold R. replace (e + k + 149) with (k + (e + 149)) by lia. rewrite Z.pow_add_r by lia. ring. }
  assert (RV : - 2 ^ 134 <= R - M * 2 ^ (e + 149) <= 2 ^ 134).
  { pose proof (rne_near M k Hk) as N. fold M' in N. rewrite RE.
    assert (UL : 2 ^ k * 2 ^ (e + 149) <= 2 * 2 ^ 134 \/ M' * 2 ^ k = M).
    { destruct (Z.le_gt_cases (Z.log2 M) 23) as [L|L].
      - right. unfold M', k. rewrite Z.max_l by lia. unfold rne. change (2 ^ 0) with 1. rewrite Z.mod_1_r, Z.div_1_r. cbn [orb andb Z.eqb Z.mul Z.gtb Z.compare]. lia.
      - left. assert (2 ^ k * 2 ^ 23 <= M). { rewrite <- Z.pow_add_r by lia. replace (k + 23) with (Z.log2 M) by (unfold k; lia). apply Z.log2_spec. destruct (Z.eq_dec M 0) as [Z|Z]; [rewrite Z in L; cbn in L; lia|lia]. }
        assert (2 ^ k * 2 ^ 23 * 2 ^ (e + 149) <= 511 * 2 ^ 149) by nia.
        change (511 * 2 ^ 149) with (511 * 2 ^ 126 * 2 ^ 23) in *.
        assert (2 ^ k * 2 ^ (e + 149) <= 511 * 2 ^ 126) by nia. assert (511 * 2 ^ 126 <= 2 * 2 ^ 134) by (apply Z.leb_le; reflexivity). lia. }
    destruct UL as [UL|UL].
    - replace (M' * 2 ^ k * 2 ^ (e + 149) - M * 2 ^ (e + 149)) with ((M' * 2 ^ k - M) * 2 ^ (e + 149)) by ring. nia.
    - rewrite UL. lia. }
  assert (P148 : 2 ^ 149 = 2 * 2 ^ 148) by reflexivity. assert (P134 : 2 ^ 148 = 16384 * 2 ^ 134) by reflexivity. assert (PP : 0 < 2 ^ 134) by reflexivity.
  assert (HR : R < 512 * 2 ^ 149) by lia.
  assert (HX : (f32_expo b =? 255) = false) by (apply Z.eqb_neq; exact HF). rewrite HX. cbn [orb].
  assert (HO : (R >=? 2 ^ (128 + 149)) = false). { rewrite Z.geb_leb. apply Z.leb_gt. eapply Z.lt_trans; [exact HR|]. apply Z.ltb_lt. reflexivity. }
  fold R. rewrite HO. set (t := if e + k >=? 0 then _ else _).
  assert (HR0 : 0 <= M'). { unfold M', rne. assert (0 <= M / 2 ^ k) by (apply Z.div_pos; [lia|apply Z.pow_pos_nonneg; lia]). destruct (_ || _); lia. }
  assert (TR : R - 2 ^ 148 <= t * 2 ^ 149 <= R + 2 ^ 148 /\ 0 <= t).
  { unfold t. destruct (Z.geb_spec (e + k) 0) as [G|G].
    - replace (M' * 2 ^ (e + k) * 2 ^ 149) with R; [split; [lia|]; apply Z.mul_nonneg_nonneg; [lia|apply Z.pow_nonneg; lia]|]. unfold R. rewrite Z.pow_add_r by lia. ring.
    - set (j := - (e + k)). assert (J : 0 < j <= 149) by lia. assert (PJ : 0 < 2 ^ j) by (apply Z.pow_pos_nonneg; lia).
      assert (S1 : 2 ^ 149 = 2 ^ j * 2 ^ (149 - j)) by (rewrite <- Z.pow_add_r by lia; f_equal; lia).
      assert (S2 : R = M' * 2 ^ (149 - j)) by (unfold R; f_equal; f_equal; lia). assert (PK : 0 < 2 ^ (149 - j)) by (apply Z.pow_pos_nonneg; lia).
      assert (S3 : 2 ^ (j + 1) = 2 * 2 ^ j) by (rewrite Z.pow_add_r by lia; change (2 ^ 1) with 2; lia). rewrite S3.
      pose proof (Z.div_mod (2 * M' + 2 ^ j) (2 * 2 ^ j) ltac:(lia)) as D. pose proof (Z.mod_pos_bound (2 * M' + 2 ^ j) (2 * 2 ^ j) ltac:(lia)) as B. assert (Q0 : 0 <= (2 * M' + 2 ^ j) / (2 * 2 ^ j)) by (apply Z.div_pos; lia).
      set (q := (2 * M' + 2 ^ j) / (2 * 2 ^ j)) in *. set (r := (2 * M' + 2 ^ j) mod (2 * 2 ^ j)) in *. clearbody q r.
      split; [|exact Q0]. assert (Q1 : 2 * (q * 2 ^ j) <= 2 * M' + 2 ^ j) by lia. assert (Q2 : 2 * M' - 2 ^ j <= 2 * (q * 2 ^ j)) by lia.
      apply (Z.mul_le_mono_nonneg_r _ _ (2 ^ (149 - j))) in Q1; [|lia]. apply (Z.mul_le_mono_nonneg_r _ _ (2 ^ (149 - j))) in Q2; [|lia].
      rewrite Z.mul_add_distr_r, <- S1, <- !Z.mul_assoc, <- S1 in Q1. rewrite Z.mul_sub_distr_r, <- S1, <- !Z.mul_assoc, <- S1 in Q2. rewrite S2. lia. }
  exists t. assert (T511 : t <= 511) by (destruct TR as ((_ & T) & _); nia).
  split; [|split; [lia|lia]]. apply wrapS10_id. destruct (f32_sign b); lia.
Qed.
Lemma c81_rounding special b : inU 32 b -> f32_finite b -> ((20 # 1) * f32_abs b <= 511 # 1)%Q ->
  exists t, zround special b = (if 2 ^ 31 <=? b then - t else t) /\ 0 <= t <= 511 /\ (Qabs (inject_Z t - (20 # 1) * f32_abs b) <= (1 # 2) + (1 # 32768))%Q.
Proof.
  intros Hb HF HV. pose proof (abs_scaled b Hb) as AS. set (P := inject_Z (2 ^ 149)) in *.
  assert (PP : (0 < P)%Q) by reflexivity.
  assert (X : ((20 # 1) * f32_abs b * P == inject_Z (20 * f32_m b * 2 ^ (f32_e b + 149)))%Q).
  { rewrite <- Qmult_assoc, AS. rewrite <- Z.mul_assoc. rewrite (inject_Z_mult 20). reflexivity. }
  destruct (zround_int special b HF) as (t & Ht & Hr & HB1 & HB2); [destruct Hb; lia| |].
  { apply (Qmult_le_compat_r _ _ P) in HV; [|apply Qlt_le_weak; exact PP]. rewrite X in HV. rewrite Zle_Qle. eapply Qle_trans; [exact HV|]. unfold P. rewrite (inject_Z_mult 511). apply Qle_refl. }
  exists t. split; [exact Ht|]. split; [exact Hr|].
  set (V := 20 * f32_m b * 2 ^ (f32_e b + 149)) in *.
  assert (TP : (inject_Z t * P == inject_Z (t * 2 ^ 149))%Q) by (unfold P; rewrite inject_Z_mult; reflexivity).
  assert (Y : (((1 # 2) + (1 # 32768)) * P == inject_Z (2 ^ 148 + 2 ^ 134))%Q) by (vm_compute; reflexivity).
  apply Qabs_Qle_condition. split.
  - apply (Qmult_le_r _ _ P PP). unfold Qminus. rewrite Qmult_plus_distr_l, TP. setoid_replace (- ((20 # 1) * f32_abs b) * P)%Q with (- ((20 # 1) * f32_abs b * P))%Q by ring. rewrite X.
    setoid_replace (- ((1 # 2) + (1 # 32768)) * P)%Q with (- (((1 # 2) + (1 # 32768)) * P))%Q by ring. rewrite Y. rewrite <- !inject_Z_opp, <- inject_Z_plus, <- Zle_Qle. lia.
  - apply (Qmult_le_r _ _ P PP). unfold Qminus. rewrite Qmult_plus_distr_l, TP. setoid_replace (- ((20 # 1) * f32_abs b) * P)%Q with (- ((20 # 1) * f32_abs b * P))%Q by ring. rewrite X, Y. rewrite <- !inject_Z_opp, <- inject_Z_plus, <- Zle_Qle. lia.
Qed.

(** ** The line of a test *)
Section lines.
Variables (a b c d e f g h i j k l : Z).
Hypothesis (Ha : small a) (Hb : small b) (Hc : small c) (Hd : small d) (He : small e) (Hf : small f) (Hg : small g) (Hh : small h) (Hi : small i) (Hj : small j) (Hk : small k) (Hl : small l).
Lemma l_pass : says (printf_nl "GEN PV %+4d    CMSSW PV %+4d  bin %3d :  REF %+4d  bin %3d, ptsum %8d, diff %+4d :  HW %+4d  bin %3d, ptsum %8d diff %+4d  :  MATCH %+1d" [a; b; c; d; e; f; g; h; i; j; k; l])
  [(["GEN"; "PV"; "CMSSW"; "PV"; "bin"; ":"; "REF"; "bin"; "ptsum"; "diff"; ":"; "HW"; "bin"; "ptsum"; "diff"; ":"; "MATCH"], [a; b; c; d; e; f; g; h; i; j; k; l])].
Proof. unfold printf_nl. apply says_line; [line_nonl|console_row]. Qed.
Lemma l_good1 : let s := printf "Good matches: CMSSW %4d/%4d =" [a; b] in nonl s /\ read_row (map tidy s) = (["Good"; "matches:"; "CMSSW"; "="], [a; b]).
Proof. cbv zeta. split; [line_nonl|console_row]. Qed.
Lemma l_good2 : let s := printf " REF %4d/%4d =" [a; b] in nonl s /\ read_row (map tidy s) = (["REF"; "="], [a; b]).
Proof. cbv zeta. split; [line_nonl|console_row]. Qed.
Lemma l_good3 : let s := printf " (REF vs CMSSW: %4d/%4d =" [a; b] in nonl s /\ read_row (map tidy s) = (["REF"; "vs"; "CMSSW:"; "="], [a; b]).
Proof. cbv zeta. split; [line_nonl|console_row]. Qed.
Lemma l_good4 : let s := printf ". ERRORS: %d" [a] in nonl s /\ read_row (map tidy s) = (["."; "ERRORS:"], [a]).
Proof. cbv zeta. split; [line_nonl|console_row]. Qed.
End lines.
Lemma fetch_slice z : inS 10 z -> zb_bin (fetch_bin_ref z) = slice_of z.
Proof.
  intros H. unfold inS in H. change (2 ^ (10 - 1)) with 512 in H. unfold fetch_bin_ref, slice_of. change BNV_SHIFT with 3. change BHV_NHALFBINS with 36. change (BHV_NBINS - 1) with 71. rewrite Z.shiftr_div_pow2 by lia. change (2 ^ 3) with 8.
  destruct (Z.ltb_spec (z / 8 + 36) 0); destruct (Z.leb_spec (-288) z); destruct (Z.leb_spec z 287); cbn [andb];
  (destruct (Z.gtb_spec 0 71); try lia); try (destruct (Z.gtb_spec (z / 8 + 36) 71)); cbn [zb_bin]; try lia; unfold wrapU; change (2 ^ 10) with 1024; rewrite ?Z.mod_small by lia; lia.
Qed.
Lemma zround_range special b : (forall b, inS 10 (special b)) -> inS 10 (zround special b).
Proof. intros H. unfold zround. cbv zeta. destruct (_ || _); [apply H|]. unfold z0_t. apply wrapS_range. lia. Qed.

(** the ranges of what a test records *)
Definition result_ok (r : Z * Z * Z) : Prop := 0 <= fst (fst r) < 72 /\ 0 <= snd (fst r) <= 32704 /\ inS 10 (snd r).
Lemma center_range b : inS 10 (bin_center_ref b).
Proof. unfold bin_center_ref. cbv zeta. apply wrapS_range. lia. Qed.
Lemma btest_results e t : twelve e = true -> btest_of e t -> result_ok (bt_hw t) /\ result_ok (bt_ref t).
Proof.
  intros H12 B. destruct (btest_sized e t H12 B) as (_ & _ & _ & _ & R1 & R2). destruct B as (ET & _ & _ & E2 & E3). split.
  - split; [exact R1|]. split; [exact R2|]. unfold hw_vertex in E2. destruct (mapM _ _); [|discriminate]. cbn [bind] in E2. destruct (bhv_find_pv _ _) as [[b s]|]; [|discriminate]. cbn [bind] in E2. injection E2 as <-. apply center_range.
  - pose proof (any_rows _ (track_rows_ok e)) as A. rewrite <- ET in A. pose proof (vertex_len e H12) as LS. rewrite <- ET in LS. destruct (ref_vertex_any _ A ltac:(lia)) as (b & s & E & B & S). rewrite E3 in E. injection E as ->. split; [exact B|]. split; [exact S|apply center_range].
Qed.

(** ** The counters *)
Section run.
Variable special : Z -> Z.
Hypothesis HS : forall b, inS 10 (special b).
Notation pv := (zround special).
Notation gen := (gen_z pv).
Notation cmssw := (cmssw_z pv).
Definition kpos (k : counts) (n : Z) : Prop := Forall (fun x => 0 <= x /\ x + n < 2 ^ 32) [k_good k; k_tot k; k_cmssw k; k_agree k].
Definition kafter (k k' : counts) (l : list pass) : Prop :=
  k_good k' = k_good k + count ref_z gen l /\ k_tot k' = k_tot k + Z.of_nat (length l) /\ k_cmssw k' = k_cmssw k + count gen cmssw l /\ k_agree k' = k_agree k + count ref_z cmssw l /\
  k_resol k' = k_resol k + squares ref_z gen l /\ k_cmssw_resol k' = k_cmssw_resol k + squares gen cmssw l.
Lemma kafter_nil k : kafter k k [].
Proof. unfold kafter, count, squares. cbn. lia. Qed.
Lemma count_cons f g p l : count f g (p :: l) = (if Z.abs (f p - g p) <=? 10 then 1 else 0) + count f g l.
Proof. unfold count, near. cbn [filter]. destruct (_ <=? 10); cbn [length]; lia. Qed.
Lemma squares_cons f g p l : squares f g (p :: l) = (if Z.abs (f p - g p) <=? 10 then (f p - g p) ^ 2 else 0) + squares f g l.
Proof. unfold squares, near. cbn [filter]. destruct (_ <=? 10); cbn [map fold_right]; lia. Qed.
Lemma kafter_cons k k1 k2 p l : kafter k k1 [p] -> kafter k1 k2 l -> kafter k k2 (p :: l).
Proof.
  intros (A1 & A2 & A3 & A4 & A5 & A6) (B1 & B2 & B3 & B4 & B5 & B6). unfold kafter. rewrite !count_cons, !squares_cons in *. change (count _ _ []) with 0 in *. change (squares _ _ []) with 0 in *. cbn [length] in *. lia.
Qed.
Lemma incr_ok x n : 0 <= x -> x + n < 2 ^ 32 -> 1 <= n -> incr x = x + 1.
Proof. intros. unfold incr. apply wrapU_id. unfold inU. lia. Qed.

Lemma report_says e t k n : result_ok (bt_hw t) -> result_ok (bt_ref t) -> kpos k n -> 1 <= n ->
  exists u k1, bhv_report special e t k = (u, k1) /\ says u [pass_row pv (e, t)] /\ kafter k k1 [(e, t)] /\ kpos k1 (n - 1).
Proof.
  intros (H1 & H2 & H3) (R1 & R2 & R3) HK Hn. pose proof (zround_range special (ev_genz0 e) HS) as G. pose proof (zround_range special (ev_z0 e) HS) as C.
  unfold kafter, bhv_report, pass_row. rewrite !count_cons, !squares_cons. change (count _ _ []) with 0. change (squares _ _ []) with 0.
  unfold gen_z, cmssw_z, ref_z, hw_z. cbn [fst snd]. destruct (bt_ref t) as [[rb rs] rz], (bt_hw t) as [[hb hs] hz]. cbn [fst snd] in *. rewrite <- (fetch_slice _ C). rewrite (fetch_slice _ C) in *.
  set (g := zround special (ev_genz0 e)) in *. set (c := zround special (ev_z0 e)) in *. clearbody g c.
  assert (SL : 0 <= slice_of c < 72) by (unfold slice_of; destruct (Z.leb_spec (-288) c); destruct (Z.leb_spec c 287); cbn [andb]; lia).
  unfold inS in *. change (2 ^ (10 - 1)) with 512 in *. unfold kpos in HK. rewrite !Forall_cons_iff in HK. destruct HK as (K1 & K2 & K3 & K4 & _).
  eexists. eexists. split; [reflexivity|]. split; [apply l_pass; unfold small; lia|].
  replace (Z.abs (c - g)) with (Z.abs (g - c)) by lia. assert (SQ : (g - rz) ^ 2 = (rz - g) ^ 2) by ring. rewrite SQ.
  split.
  - destruct (Z.abs (rz - g) <=? 10), (Z.abs (g - c) <=? 10), (Z.abs (rz - c) <=? 10); cbn [k_good k_tot k_cmssw k_agree k_resol k_cmssw_resol length]; rewrite ?(incr_ok _ n) by lia; lia.
  - unfold kpos. destruct (Z.abs (rz - g) <=? 10), (Z.abs (g - c) <=? 10), (Z.abs (rz - c) <=? 10); cbn [k_good k_tot k_cmssw k_agree k_resol k_cmssw_resol length]; rewrite ?(incr_ok _ n) by lia; repeat constructor; lia.
Qed.

(** ** The events *)
Definition complaint (evs : list event) : list row :=
  match find (fun e => negb (twelve e)) evs with Some e => [(["ERROR:"; "Mismatching"; "number"; "of"; "input"; "regions:"], [Z.of_nat (length (ev_regions e))])] | None => [] end.
Lemma walk_says evs : Forall event_wf evs -> forall test st k text, bready st -> kpos k (Z.of_nat (length evs)) ->
  exists st' tests k' t, event_walk (bhv_body_say special) test (st, k, text) (map event_kept evs) = Ok (st', k', text ++ t, if forallb twelve evs then None else Some 2) /\
    event_walk bhv_body test st (map event_kept evs) = Ok (st', if forallb twelve evs then None else Some 2) /\ bs_tests st' = bs_tests st ++ tests /\ length tests = length (leading evs) /\
    says t (map (pass_row pv) (combine (leading evs) tests) ++ complaint evs) /\ kafter k k' (combine (leading evs) tests).
Proof.
  induction evs as [|e evs IH]; intros HE test st k text [D L] HK.
  { exists st, [], k, []. rewrite !app_nil_r. split; [reflexivity|]. split; [reflexivity|]. split; [reflexivity|]. split; [reflexivity|]. split; [exact says_nil|apply kafter_nil]. }
  inversion HE as [|? ? He Hes]; subst. unfold complaint. cbn [forallb leading map event_walk find]. destruct (twelve e) eqn:E12; cbn [andb negb].
  2:{ exists st, [], k, (printf_nl "ERROR: Mismatching number of input regions: %lu" [Z.of_nat (length (ev_regions (event_kept e)))]).
      assert (EB : bhv_body test st (event_kept e) = Ok (st, Some 2)) by (unfold bhv_body; rewrite <- kept_twelve in E12; unfold twelve in E12; change N_IN_SECTORS with 12%nat; rewrite E12; reflexivity).
      unfold bhv_body_say. rewrite EB. cbn [bind]. split; [reflexivity|]. split; [reflexivity|]. split; [rewrite app_nil_r; reflexivity|]. split; [reflexivity|]. split; [|apply kafter_nil]. cbn [combine map app].
      replace (length (ev_regions (event_kept e))) with (length (ev_regions e)) by (cbn [event_kept ev_regions]; rewrite map_length; reflexivity).
      apply l_mismatch. destruct He as (_ & _ & _ & _ & _ & Hf). unfold fits in Hf. unfold small. lia. }
  assert (HF : Forall (fun r => fits (rg_track r)) (ev_regions (event_kept e))) by (eapply Forall_impl; [|exact (kept_fits e He)]; intros r Hr; unfold region_fits in Hr; tauto).
  destruct (body_event test st (event_kept e) ltac:(rewrite kept_twelve; exact E12) HF D L) as (st1 & t & EB & D1 & L1 & T1 & B1 & _).
  destruct (btest_results (event_kept e) t ltac:(rewrite kept_twelve; exact E12) B1) as [RH RR].
  destruct (report_says e t k (Z.of_nat (length (e :: evs))) RH RR HK ltac:(cbn [length]; lia)) as (u & k1 & ER & SU & KA & KP).
  unfold bhv_body_say at 1. rewrite EB. cbn [bind]. rewrite T1. unfold rd. rewrite nth_error_app2, Nat.sub_diag by lia. cbn [nth_error bind]. change (bhv_report special (event_kept e) t k) with (bhv_report special e t k). rewrite ER. cbn [bind].
  replace (Z.of_nat (length (e :: evs)) - 1) with (Z.of_nat (length evs)) in KP by (cbn [length]; lia).
  destruct (IH Hes (S test) st1 k1 (text ++ u) (conj D1 L1) KP) as (st2 & tests & k2 & v & E1 & E2 & E3 & E4 & E5 & E6).
  exists st2, (t :: tests), k2, (u ++ v). rewrite E1, E2, app_assoc. split; [reflexivity|]. split; [reflexivity|]. rewrite E3, T1, <- app_assoc. split; [reflexivity|]. cbn [length combine map]. split; [f_equal; exact E4|].
  split; [|exact (kafter_cons _ _ _ (e, t) _ KA E6)]. cbn [app]. apply says_cons; [exact SU|exact E5].
Qed.

(** ** The summary *)
Variables ratio resolution : Z -> Z -> list ascii.
Hypothesis HR : forall a b, one_label (ratio a b).
Hypothesis HV : forall a b, one_label (resolution a b).
Lemma label_row text : one_label text -> nonl text /\ read_row (map tidy text) = ([label text], []).
Proof. intros (N & w & E). split; [apply Forall_forall; intros c Hc ->; exact (N Hc)|]. unfold label. rewrite E. reflexivity. Qed.
Lemma blank_row s : read_row (map tidy (" "%char :: s)) = read_row (map tidy s).
Proof. reflexivity. Qed.
Lemma good1_blank a b : printf "Good matches: CMSSW %4d/%4d = " [a; b] = printf "Good matches: CMSSW %4d/%4d =" [a; b] ++ [" "%char].
Proof. repeat expand_printf. cbn [app]. repeat first [rewrite <- app_assoc; cbn [app] | f_equal]. Qed.
Lemma good2_blank a b : printf "  REF %4d/%4d = " [a; b] = " "%char :: printf " REF %4d/%4d =" [a; b] ++ [" "%char].
Proof. repeat expand_printf. cbn [app]. repeat first [rewrite <- app_assoc; cbn [app] | f_equal]. Qed.
Lemma good3_blank a b : printf "  (REF vs CMSSW: %4d/%4d = " [a; b] = " "%char :: printf " (REF vs CMSSW: %4d/%4d =" [a; b] ++ [" "%char].
Proof. repeat expand_printf. cbn [app]. repeat first [rewrite <- app_assoc; cbn [app] | f_equal]. Qed.
Lemma good4_blank a : printf "). ERRORS: %d" [a] = ")"%char :: printf ". ERRORS: %d" [a].
Proof. repeat expand_printf. cbn [app]. repeat first [rewrite <- app_assoc; cbn [app] | f_equal]. Qed.
(** two pieces with a blank (or a bracket) between them *)
Lemma piece s t l v l' v' c : tidy c = " "%char -> c <> newline -> nonl s /\ read_row (map tidy s) = (l, v) -> nonl t /\ read_row (map tidy t) = (l', v') -> nonl (s ++ c :: t) /\ read_row (map tidy (s ++ c :: t)) = (l ++ l', v ++ v').
Proof.
  intros HC HN [S1 S2] [T1 T2]. split; [apply nonl_app; [exact S1|constructor; [exact HN|exact T1]]|]. rewrite map_app. cbn [map]. rewrite HC, (row_mid _ _ _ _ T2), S2. reflexivity.
Qed.
Definition good_line (p1 q1 p2 q2 p3 q3 p4 : list ascii) : list ascii := p1 ++ " "%char :: q1 ++ " "%char :: p2 ++ " "%char :: q2 ++ " "%char :: p3 ++ " "%char :: q3 ++ ")"%char :: p4.
Definition resolution_line (q4 q5 : list ascii) : list ascii := chars "Resolution: CMSSW:" ++ " "%char :: q4 ++ " "%char :: chars "mm   REF" ++ " "%char :: q5 ++ " "%char :: chars "mm".
Lemma good_line_says p1 q1 p2 q2 p3 q3 p4 l1 l2 l3 l4 v1 v2 v3 v4 : nonl p1 /\ read_row (map tidy p1) = (l1, v1) -> nonl p2 /\ read_row (map tidy p2) = (l2, v2) -> nonl p3 /\ read_row (map tidy p3) = (l3, v3) -> nonl p4 /\ read_row (map tidy p4) = (l4, v4) ->
  one_label q1 -> one_label q2 -> one_label q3 -> says (good_line p1 q1 p2 q2 p3 q3 p4 ++ [newline]) [(l1 ++ [label q1] ++ l2 ++ [label q2] ++ l3 ++ [label q3] ++ l4, v1 ++ v2 ++ v3 ++ v4)].
Proof.
  intros P1 P2 P3 P4 H1 H2 H3. pose proof (label_row _ H1) as Q1. pose proof (label_row _ H2) as Q2. pose proof (label_row _ H3) as Q3.
  pose proof (piece _ _ _ _ _ _ ")"%char eq_refl ltac:(discriminate) Q3 P4) as X. pose proof (piece _ _ _ _ _ _ " "%char eq_refl ltac:(discriminate) P3 X) as X1. pose proof (piece _ _ _ _ _ _ " "%char eq_refl ltac:(discriminate) Q2 X1) as X2.
  pose proof (piece _ _ _ _ _ _ " "%char eq_refl ltac:(discriminate) P2 X2) as X3. pose proof (piece _ _ _ _ _ _ " "%char eq_refl ltac:(discriminate) Q1 X3) as X4. pose proof (piece _ _ _ _ _ _ " "%char eq_refl ltac:(discriminate) P1 X4) as [N1 R1].
  apply says_line; [exact N1|exact R1].
Qed.
Lemma resolution_says q4 q5 : one_label q4 -> one_label q5 -> says (resolution_line q4 q5 ++ [newline]) [(["Resolution:"; "CMSSW:"; label q4; "mm"; "REF"; label q5; "mm"], [])].
Proof.
  intros H4 H5. pose proof (label_row _ H4) as Q4. pose proof (label_row _ H5) as Q5.
  assert (M1 : nonl (chars "Resolution: CMSSW:") /\ read_row (map tidy (chars "Resolution: CMSSW:")) = (["Resolution:"; "CMSSW:"], [])) by (split; [repeat constructor; discriminate|reflexivity]).
  assert (M2 : nonl (chars "mm   REF") /\ read_row (map tidy (chars "mm   REF")) = (["mm"; "REF"], [])) by (split; [repeat constructor; discriminate|reflexivity]).
  assert (M3 : nonl (chars "mm") /\ read_row (map tidy (chars "mm")) = (["mm"], [])) by (split; [repeat constructor; discriminate|reflexivity]).
  pose proof (piece _ _ _ _ _ _ " "%char eq_refl ltac:(discriminate) Q5 M3) as X. pose proof (piece _ _ _ _ _ _ " "%char eq_refl ltac:(discriminate) M2 X) as X1. pose proof (piece _ _ _ _ _ _ " "%char eq_refl ltac:(discriminate) Q4 X1) as X2.
  pose proof (piece _ _ _ _ _ _ " "%char eq_refl ltac:(discriminate) M1 X2) as [N2 R2]. apply says_line; [exact N2|exact R2].
Qed.
Lemma pieces_text a b c d p1 q1 p2 q2 p3 q3 p4 q4 q5 : a = p1 ++ [" "%char] -> b = " "%char :: p2 ++ [" "%char] -> c = " "%char :: p3 ++ [" "%char] -> d = ")"%char :: p4 ->
  a ++ q1 ++ b ++ q2 ++ c ++ q3 ++ (d ++ [newline]) ++ chars "Resolution: CMSSW: " ++ q4 ++ chars " mm   REF " ++ q5 ++ chars " mm" ++ [newline] = (good_line p1 q1 p2 q2 p3 q3 p4 ++ [newline]) ++ resolution_line q4 q5 ++ [newline].
Proof.
  intros -> -> -> ->. unfold good_line, resolution_line. repeat (rewrite <- ?app_assoc; cbn [app]). cbn [chars list_ascii_of_string app]. repeat (rewrite <- ?app_assoc; cbn [app]). reflexivity.
Qed.
Lemma summary_says k nerr : kpos k 0 -> 0 <= nerr < 2 ^ 32 ->
  says (bhv_summary ratio resolution k nerr)
    [(["Good"; "matches:"; "CMSSW"; "="; label (ratio (k_cmssw k) (k_tot k)); "REF"; "="; label (ratio (k_good k) (k_tot k)); "REF"; "vs"; "CMSSW:"; "="; label (ratio (k_agree k) (k_tot k)); "."; "ERRORS:"],
      [k_cmssw k; k_tot k; k_good k; k_tot k; k_agree k; k_tot k; nerr]);
     (["Resolution:"; "CMSSW:"; label (resolution (k_cmssw_resol k) (k_cmssw k)); "mm"; "REF"; label (resolution (k_resol k) (k_good k)); "mm"], [])].
Proof.
  intros HK HN. unfold kpos in HK. rewrite !Forall_cons_iff in HK. destruct HK as (K1 & K2 & K3 & K4 & _).
  unfold bhv_summary, printf_nl. rewrite (pieces_text _ _ _ _ _ _ _ _ _ _ _ _ _ (good1_blank _ _) (good2_blank _ _) (good3_blank _ _) (good4_blank _)).
  apply says_cons; [|apply resolution_says; apply HV].
  refine (good_line_says _ _ _ _ _ _ _ _ _ _ _ _ _ _ _ (l_good1 (k_cmssw k) (k_tot k) _ _) (l_good2 (k_good k) (k_tot k) _ _) (l_good3 (k_agree k) (k_tot k) _ _) (l_good4 nerr _) (HR _ _) (HR _ _) (HR _ _)); unfold small; lia.
Qed.

(** ** The files *)
Lemma bhv_saved_says tests old : Forall bt_sized tests -> Z.of_nat (length tests) <= 250 -> dims2 18 24 old ->
  exists t, bhv_saved tests old = Ok t /\ says t (map (fun f => saved_row ["MP7"] f (36 * length tests)) ["mp7_output_debug.txt."; "mp7_output.txt."; "mp7_input_debug.txt."; "mp7_input.txt."]).
Proof.
  intros HB HL HO. unfold bhv_saved. rewrite (c62_words tests old HB HO). cbn [bind].
  assert (M2 : (MP7_NCHANN mod 2 = 0)%nat) by reflexivity. assert (M1 : (MP7_NCHANN mod 1 = 0)%nat) by reflexivity.
  rewrite (mp7_counts 2 1) by (exact M2 || (apply in_stream_ok; assumption) || (rewrite in_stream_len; lia) || lia || assumption). cbn [bind].
  rewrite (mp7_counts 1 0 (bhv_in_debug_stream tests)) by (exact M1 || (apply in_debug_stream_ok; assumption) || (rewrite in_debug_stream_len; lia) || lia). cbn [bind].
  rewrite mp7_counts_links.
  2:{ split; [lia|]. split; [exact M1|]. split; [apply Nat.leb_le; reflexivity|lia]. }
  2:{ reflexivity. }
  2:{ apply Forall_map. eapply Forall_impl; [|exact (out_stream_ok3 tests HB)]. intros w [W1 W2]. apply padded_ok; [lia|exact W2]. }
  2:{ rewrite map_length, out_stream_len. lia. }
  cbn [bind]. rewrite (mp7_counts 1 0 (bhv_out_debug_stream tests)) by (exact M1 || (apply out_debug_stream_ok; assumption) || (rewrite out_debug_stream_len; lia) || lia). cbn [bind].
  rewrite map_length, in_stream_len, in_debug_stream_len, out_stream_len, out_debug_stream_len. replace (2 * (18 * length tests))%nat with (36 * length tests)%nat by lia. rewrite !Nat.mul_1_l.
  assert (Hm : Z.of_nat (36 * length tests) <= 9000) by lia. set (m := (36 * length tests)%nat) in *. clearbody m.
  eexists. split; [reflexivity|]. cbn [map]. repeat (apply says_cons; [apply saved_says; [unfold small; lia|no_newline|no_newline|reflexivity]|]). apply saved_says; [unfold small; lia|no_newline|no_newline|reflexivity].
Qed.

(** ** main *)
Lemma filter_le {A} (f : A -> bool) l : (length (filter f l) <= length l)%nat.
Proof. induction l as [|x l IH]; [apply Nat.le_refl|]. cbn [filter]. destruct (f x); cbn [List.length]; lia. Qed.
Lemma find_twelve evs : forallb twelve evs = match find (fun e => negb (twelve e)) evs with Some _ => false | None => true end.
Proof. induction evs as [|e evs IH]; [reflexivity|]. cbn [forallb find]. destruct (twelve e); cbn [negb andb]; [exact IH|reflexivity]. Qed.
Lemma c81_console g arr tmp old evs : dims2 24 18 arr -> length tmp = 36%nat -> dims2 18 24 old -> Forall event_wf evs -> exists tests text,
  bhv_main (Ok true) g arr tmp (Some (dump evs)) = Ok (if forallb twelve (firstn 250 evs) then 0 else 2, disagreements tests, tests) /\
  bhv_main_say special ratio resolution (Ok true) g arr tmp old (Some (dump evs)) = Ok (if forallb twelve (firstn 250 evs) then 0 else 2, disagreements tests, tests, text) /\
  read_console text = bhv_console_rows pv ratio resolution (firstn 250 evs) tests.
Proof.
  intros D L O HE. destruct (c61_run g arr tmp evs D L HE) as (tests & EM & F). destruct (c62_sized _ _ _ _ _ _ _ D L HE EM) as [BS BL]. exists tests.
  pose proof EM as EM'. unfold bhv_main in EM. unfold bhv_main_say. rewrite open_file in *. cbn [bind] in *. rewrite (event_loop_walk _ evs) in EM by (exact HE || reflexivity). rewrite (event_loop_walk _ evs) by (exact HE || reflexivity). change BHV_NTEST with 250%nat in *.
  pose proof (firstn_le_length 250 evs) as L250.
  destruct (walk_says (firstn 250 evs) (firstn_wf 250 evs HE) 1 (mkBs arr tmp 0 []) (mkCounts 0 0 0 0 0 0) [] (conj D L)) as (st & tests' & k & t & E1 & E2 & E3 & E4 & E5 & KA); [unfold kpos; cbn [k_good k_tot k_cmssw k_agree]; repeat constructor; lia|].
  rewrite E2 in EM. cbn [bind] in EM. rewrite E1. cbn [bind]. cbn [bs_tests app] in E3. assert (bs_tests st = tests) as E6 by congruence. assert (tests' = tests) as E7 by congruence. rewrite E7 in E4, E5, KA. rewrite E6.
  assert (EN : bs_nerr st = disagreements tests) by congruence. rewrite EN. clear EM E1 E2.
  destruct (bhv_saved_says tests old BS BL O) as (u & EU & SU). rewrite EU. cbn [bind].
  assert (ML : map snd (combine (leading (firstn 250 evs)) tests) = tests).
  { clear -E4. revert E4. generalize (leading (firstn 250 evs)). induction tests as [|x l IH]; intros [|y l'] H; cbn in H; try lia; [reflexivity|]. cbn [combine map snd]. rewrite IH by lia. reflexivity. }
  assert (CL : length (combine (leading (firstn 250 evs)) tests) = length tests) by (rewrite combine_length; lia).
  assert (DG : 0 <= disagreements tests <= 250). { unfold disagreements. pose proof (filter_le (fun t => negb (agrees t)) tests). lia. }
  unfold bhv_console_rows. rewrite find_twelve in *. unfold complaint in E5. destruct (find _ (firstn 250 evs)) as [e|].
  - eexists. split; [exact EM'|]. split; [reflexivity|]. apply says_read. rewrite app_assoc. apply says_app; [exact E5|exact SU].
  - rewrite app_nil_r in E5. eexists. split; [exact EM'|]. split; [reflexivity|]. apply says_read. apply says_app; [exact E5|]. apply says_app; [|exact SU].
    unfold summary_rows. rewrite ML. destruct KA as (A1 & A2 & A3 & A4 & A5 & A6). cbn [k_good k_tot k_cmssw k_agree k_resol k_cmssw_resol] in *. rewrite Z.add_0_l in *. cbv zeta. rewrite <- A1, <- A2, <- A3, <- A4, <- A5, <- A6. apply summary_says; [|lia].
    assert (CB : forall f h (q : list pass), length q = length tests -> 0 <= count f h q <= 250) by (intros f h q Hq; unfold count, near; pose proof (filter_le (fun p => Z.abs (f p - h p) <=? 10) q); lia).
    assert (CT : forall q : list pass, length q = length tests -> 0 <= Z.of_nat (length q) <= 250) by (intros q Hq; lia).
    unfold kpos. rewrite A1, A2, A3, A4. repeat (apply Forall_cons; [match goal with |- 0 <= ?x /\ _ => assert (0 <= x <= 250) by (apply CB || apply CT; exact CL) end; lia|]). apply Forall_nil.
Qed.
End run.
