(** The primary-vertex position handed to the firmware. *)
From Coq Require Import QArith Qpower Qabs.
From Verif Require Import Base BaseFacts Data Discrete Convert DiscreteIO SpecIO IOProofs.
Open Scope Z_scope.

Lemma rne_near m k : 0 <= k -> - 2 ^ k <= 2 * (rne m k * 2 ^ k - m) <= 2 ^ k.
Proof.
  intros Hk. unfold rne. assert (P : 0 < 2 ^ k) by (apply Z.pow_pos_nonneg; lia). pose proof (Z.div_mod m (2 ^ k) ltac:(lia)) as D. pose proof (Z.mod_pos_bound m (2 ^ k) P) as B.
  generalize dependent (m mod 2 ^ k). generalize dependent (m / 2 ^ k). generalize dependent (2 ^ k). intros P HP q r D B.
  destruct ((2 * r >? P) || ((2 * r =? P) && Z.odd q)) eqn:E.
  - apply orb_true_iff in E. rewrite andb_true_iff in E. assert (P <= 2 * r) by lia. nia.
  - apply orb_false_iff in E. assert (2 * r <= P) by lia. nia.
Qed.

(** t is |20 z0| with the fraction dropped, up to the rounding of the product *)
Lemma zpv_int special b : f32_finite b -> 0 <= b -> 20 * f32_m b * 2 ^ (f32_e b + 149) <= 511 * 2 ^ 149 ->
  exists t, zpv special b = (if f32_sign b then - t else t) /\ 0 <= t <= 511 /\
    20 * f32_m b * 2 ^ (f32_e b + 149) - 2 ^ 149 - 2 ^ 134 < t * 2 ^ 149 <= 20 * f32_m b * 2 ^ (f32_e b + 149) + 2 ^ 134.
Proof.
  intros HF Hb HV. unfold zpv. set (M := 20 * f32_m b) in *. set (e := f32_e b) in *. set (k := Z.max 0 (Z.log2 M - 23)). set (M' := rne M k).
  assert (He : -149 <= e) by (unfold e, f32_e; lia).
  assert (HM : 0 <= M). { unfold M, f32_m, f32_frac. destruct (_ =? 0); pose proof (Z.mod_pos_bound b (2 ^ 23)); lia. }
  assert (Hk : 0 <= k) by (unfold k; lia).
  assert (PE : 0 < 2 ^ (e + 149)) by (apply Z.pow_pos_nonneg; lia).
  set (R := M' * 2 ^ (e + k + 149)).
  assert (RE : R = M' * 2 ^ k * 2 ^ (e + 149)). { unfold R. replace (e + k + 149) with (k + (e + 149)) by lia. rewrite Z.pow_add_r by lia. ring. }
  assert (RV : - 2 ^ 134 <= R - M * 2 ^ (e + 149) <= 2 ^ 134).
  { pose proof (rne_near M k Hk) as N. fold M' in N. rewrite RE.
    assert (UL : 2 ^ k * 2 ^ (e + 149) <= 2 * 2 ^ 134 \/ M' * 2 ^ k = M).
    { destruct (Z.le_gt_cases (Z.log2 M) 23) as [L|L].
      - right. unfold M', k. rewrite Z.max_l by lia. unfold rne. change (2 ^ 0) with 1. rewrite Z.mod_1_r, Z.div_1_r. cbn [orb andb Z.eqb Z.mul Z.gtb Z.compare]. lia.
      - left. assert (2 ^ k * 2 ^ 23 <= M). { rewrite <- Z.pow_add_r by lia. replace (k + 23) with (Z.log2 M) by (unfold k; lia). apply Z.log2_spec. destruct (Z.eq_dec M 0) as [Z|Z]; [rewrite Z in L; cbn in L; lia|lia]. }
        assert (2 ^ k * 2 ^ 23 * 2 ^ (e + 149) <= 511 * 2 ^ 149) by nia.
        change (511 * 2 ^ 149) with (511 * 2 ^ 126 * 2 ^ 23) in *.
        assert (2 ^ k * 2 ^ (e + 149) <= 511 * 2 ^ 126) by nia. assert (511 * 2 ^ 126 <= 2 * 2 ^ 134) by (apply Z.leb_le; reflexivity). lia. }
    destruct UL as [UL|UL].
    - replace (M' * 2 ^ k * 2 ^ (e + 149) - M * 2 ^ (e + 149)) with ((M' * 2 ^ k - M) * 2 ^ (e + 149)) by ring. nia.
    - rewrite UL. lia. }
  assert (HR : R < 512 * 2 ^ 149). { assert (2 ^ 134 < 2 ^ 149) by (apply Z.pow_lt_mono_r; lia). lia. }
  assert (HX : (f32_expo b =? 255) = false) by (apply Z.eqb_neq; exact HF). rewrite HX. cbn [orb].
  assert (HO : (R >=? 2 ^ (128 + 149)) = false). { rewrite Z.geb_leb. apply Z.leb_gt. eapply Z.lt_trans; [exact HR|]. apply Z.ltb_lt. reflexivity. }
  fold R. rewrite HO. set (t := if e + k >=? 0 then M' * 2 ^ (e + k) else M' / 2 ^ (- (e + k))).
  assert (HR0 : 0 <= M'). { unfold M', rne. assert (0 <= M / 2 ^ k) by (apply Z.div_pos; [lia|apply Z.pow_pos_nonneg; lia]). destruct (_ || _); lia. }
  assert (TR : R - 2 ^ 149 < t * 2 ^ 149 <= R /\ 0 <= t).
  { unfold t. destruct (Z.geb_spec (e + k) 0) as [G|G].
    - replace (M' * 2 ^ (e + k) * 2 ^ 149) with R; [split; [lia|]; apply Z.mul_nonneg_nonneg; [lia|apply Z.pow_nonneg; lia]|]. unfold R. rewrite Z.pow_add_r by lia. ring.
    - set (j := - (e + k)). assert (J : 0 < j <= 149) by lia. assert (PJ : 0 < 2 ^ j) by (apply Z.pow_pos_nonneg; lia).
      assert (S1 : 2 ^ 149 = 2 ^ j * 2 ^ (149 - j)) by (rewrite <- Z.pow_add_r by lia; f_equal; lia).
      assert (S2 : R = M' * 2 ^ (149 - j)) by (unfold R; f_equal; f_equal; lia). assert (PK : 0 < 2 ^ (149 - j)) by (apply Z.pow_pos_nonneg; lia).
      pose proof (Z.div_mod M' (2 ^ j) ltac:(lia)) as D. pose proof (Z.mod_pos_bound M' (2 ^ j) PJ) as B. assert (0 <= M' / 2 ^ j) by (apply Z.div_pos; lia).
      set (q := M' / 2 ^ j) in *. assert (Q1 : q * 2 ^ j <= M') by lia. assert (Q2 : M' - 2 ^ j < q * 2 ^ j) by lia.
      apply (Z.mul_le_mono_nonneg_r _ _ (2 ^ (149 - j))) in Q1; [|lia]. apply (Z.mul_lt_mono_pos_r (2 ^ (149 - j))) in Q2; [|lia].
      rewrite S1, S2. rewrite Z.mul_assoc. rewrite Z.mul_sub_distr_r in Q2. split; [split|]; assumption. }
  exists t. assert (T511 : t <= 511). { destruct TR as ((_ & T) & _). assert (2 ^ 134 < 2 ^ 149) by (apply Z.pow_lt_mono_r; lia). nia. }
  split; [|split; [lia|lia]]. apply wrapS10_id. destruct (f32_sign b); lia.
Qed.

Lemma abs_scaled b : inU 32 b -> (f32_abs b * inject_Z (2 ^ 149) == inject_Z (f32_m b * 2 ^ (f32_e b + 149)))%Q.
Proof.
  intros Hb. assert (E : (f32_abs b == inject_Z (f32_m b) * (2 # 1) ^ (f32_e b))%Q).
  { unfold f32_abs, f32_m, f32_e, f32_expo, f32_frac. set (x := (b / 2 ^ 23) mod 2 ^ 8). assert (0 <= x < 2 ^ 8) by (apply Z.mod_pos_bound; lia).
    destruct (Z.eqb_spec x 0) as [->|N]; [reflexivity|]. replace (Z.max x 1) with x by lia. reflexivity. }
  rewrite E. rewrite inject_Z_mult. rewrite <- Qmult_assoc. apply Qmult_comp; [reflexivity|].
  assert (-149 <= f32_e b) by (unfold f32_e; lia). rewrite <- (Qpow2_nonneg 149), <- (Qpow2_nonneg (f32_e b + 149)) by lia. rewrite Qpower_plus by (intros X; discriminate X). reflexivity.
Qed.
Lemma c54_zpv special b : inU 32 b -> f32_finite b -> ((20 # 1) * f32_abs b <= 511 # 1)%Q ->
  exists t, zpv special b = (if 2 ^ 31 <=? b then - t else t) /\ 0 <= t <= 511 /\ ((20 # 1) * f32_abs b - (32769 # 32768) < inject_Z t <= (20 # 1) * f32_abs b + (1 # 32768))%Q.
Proof.
  intros Hb HF HV. pose proof (abs_scaled b Hb) as AS. set (P := inject_Z (2 ^ 149)) in *.
  assert (PP : (0 < P)%Q) by reflexivity.
  assert (X : (20 # 1) * f32_abs b * P == inject_Z (20 * f32_m b * 2 ^ (f32_e b + 149))).
  { rewrite <- Qmult_assoc, AS. rewrite <- Z.mul_assoc. rewrite (inject_Z_mult 20). reflexivity. }
  destruct (zpv_int special b HF) as (t & Ht & Hr & HB1 & HB2); [destruct Hb; lia| |].
  { apply (Qmult_le_compat_r _ _ P) in HV; [|apply Qlt_le_weak; exact PP]. rewrite X in HV. rewrite Zle_Qle. eapply Qle_trans; [exact HV|]. unfold P. rewrite (inject_Z_mult 511). apply Qle_refl. }
  exists t. split; [exact Ht|]. split; [exact Hr|].
  set (V := 20 * f32_m b * 2 ^ (f32_e b + 149)) in *.
  assert (TP : (inject_Z t * P == inject_Z (t * 2 ^ 149))%Q) by (unfold P; rewrite inject_Z_mult; reflexivity).
  split.
  - apply (Qmult_lt_r _ _ P PP). rewrite TP. unfold Qminus. rewrite Qmult_plus_distr_l, X.
    assert (Y : - (32769 # 32768) * P == inject_Z (- 2 ^ 149 - 2 ^ 134)) by (vm_compute; reflexivity). rewrite Y. rewrite <- inject_Z_plus. rewrite <- Zlt_Qlt. lia.
  - apply (Qmult_le_r _ _ P PP). rewrite TP. rewrite Qmult_plus_distr_l, X.
    assert (Y : (1 # 32768) * P == inject_Z (2 ^ 134)) by (vm_compute; reflexivity). rewrite Y. rewrite <- inject_Z_plus. rewrite <- Zle_Qle. lia.
Qed.
