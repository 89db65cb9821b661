(** The table of puppi weights. *)
From Coq Require Import QArith Qround Qabs Lqa Permutation.
From Verif Require Import Base BaseFacts Data Fill FloatFacts Puppi SpecPF SpecPuppi PuppiProofs PuppiTable SpecTable.
Local Open Scope Z_scope.

Lemma r32_mono x y : (x <= y)%Q -> (r32 x <= r32 y)%Q. Proof. intros H. exact (rnd_mono 24 (-149) ltac:(lia) x y H). Qed.
Lemma r64_mono x y : (x <= y)%Q -> (r64 x <= r64 y)%Q. Proof. intros H. exact (rnd_mono 53 (-1074) ltac:(lia) x y H). Qed.
Lemma r32_pos x : (0 <= x)%Q -> (0 <= r32 x)%Q. Proof. intros H. exact (r32_mono 0 x H). Qed.
Lemma r64_pos x : (0 <= x)%Q -> (0 <= r64 x)%Q. Proof. intros H. exact (r64_mono 0 x H). Qed.
Lemma mul_mono a b c d : (0 <= a)%Q -> (a <= b)%Q -> (0 <= c)%Q -> (c <= d)%Q -> (a * c <= b * d)%Q. Proof. intros. nra. Qed.
Lemma mul_pos a b : (0 <= a)%Q -> (0 <= b)%Q -> (0 <= a * b)%Q. Proof. intros. nra. Qed.
Lemma add_mono a b c d : (a <= b)%Q -> (c <= d)%Q -> (a + c <= b + d)%Q. Proof. intros. lra. Qed.
Lemma erf_a_pos : (0 <= erf_a)%Q. Proof. vm_compute. discriminate. Qed.
Lemma erf_b_pos : (0 <= erf_b)%Q. Proof. vm_compute. discriminate. Qed.
Lemma erf_c_pos : (0 <= erf_c)%Q. Proof. vm_compute. discriminate. Qed.
Lemma erf_d_pos : (0 <= erf_d)%Q. Proof. vm_compute. discriminate. Qed.
Lemma term_mono c x y : (0 <= c)%Q -> (0 <= x)%Q -> (x <= y)%Q -> (0 <= r64 (c * x))%Q /\ (r64 (c * x) <= r64 (c * y))%Q.
Proof. intros C X L. split; [apply r64_pos, mul_pos; assumption|apply r64_mono, mul_mono; [exact C|apply Qle_refl|exact X|exact L]]. Qed.
Lemma times_mono a b x y : (0 <= a)%Q -> (a <= b)%Q -> (0 <= x)%Q -> (x <= y)%Q -> (0 <= r64 (a * x))%Q /\ (r64 (a * x) <= r64 (b * y))%Q.
Proof. intros A B X L. split; [apply r64_pos, mul_pos; assumption|apply r64_mono, mul_mono; assumption]. Qed.
Lemma denom_mono x y : (0 <= x)%Q -> (x <= y)%Q -> (erf_denom x <= erf_denom y)%Q.
Proof.
  intros X L. destruct (term_mono erf_a x y erf_a_pos X L) as (A0 & A1).
  destruct (term_mono erf_b x y erf_b_pos X L) as (B0 & B1). destruct (times_mono _ _ _ _ B0 B1 X L) as (B2 & B3).
  destruct (term_mono erf_c x y erf_c_pos X L) as (C0 & C1). destruct (times_mono _ _ _ _ C0 C1 X L) as (C2 & C3). destruct (times_mono _ _ _ _ C2 C3 X L) as (C4 & C5).
  destruct (term_mono erf_d x y erf_d_pos X L) as (D0 & D1). destruct (times_mono _ _ _ _ D0 D1 X L) as (D2 & D3). destruct (times_mono _ _ _ _ D2 D3 X L) as (D4 & D5). destruct (times_mono _ _ _ _ D4 D5 X L) as (D6 & D7).
  unfold erf_denom. cbv zeta. apply r32_mono, r64_mono, add_mono; [|exact D7]. apply r64_mono, add_mono; [|exact C5]. apply r64_mono, add_mono; [|exact B3]. apply r64_mono, add_mono; [apply Qle_refl|exact A1].
Qed.
Lemma denom_range x : (0 <= x)%Q -> (x <= 3 # 2)%Q -> (1 <= erf_denom x)%Q /\ (erf_denom x <= 3 # 1)%Q.
Proof.
  intros X L. split.
  - eapply Qle_trans; [|apply (denom_mono 0 x); [apply Qle_refl|exact X]]. vm_compute. discriminate.
  - eapply Qle_trans; [apply (denom_mono x (3 # 2) X L)|]. vm_compute. discriminate.
Qed.
Lemma inv_antitone p q : (0 < p)%Q -> (p <= q)%Q -> (1 / q <= 1 / p)%Q.
Proof. intros P L. apply Qle_shift_div_l; [exact P|]. apply Qle_trans with (1 / q * q)%Q; [|field_simplify; [lra|lra]]. assert (0 <= 1 / q)%Q by (apply Qle_shift_div_l; lra). nra. Qed.
Definition of_pow (p : Q) : Q := r32 (r64 (1 - r64 (1 / p))).
Lemma of_pow_mono p q : (1 <= p)%Q -> (p <= q)%Q -> (of_pow p <= of_pow q)%Q.
Proof. intros P L. unfold of_pow. apply r32_mono, r64_mono. assert (r64 (1 / q) <= r64 (1 / p))%Q by (apply r64_mono, inv_antitone; lra). lra. Qed.
Section Libm.
Context (m : libm) (HM : libm_ok m).
Lemma erf_mono x y : (0 <= x)%Q -> (x <= y)%Q -> (y <= 3 # 2)%Q -> (0 <= erf_approx m x)%Q /\ (erf_approx m x <= erf_approx m y)%Q /\ (erf_approx m y <= 988 # 1000)%Q.
Proof.
  intros X L B. destruct HM as (_ & _ & PI & P1 & P3). destruct (denom_range x X ltac:(lra)) as (X1 & X2). destruct (denom_range y ltac:(lra) B) as (Y1 & Y2). pose proof (denom_mono x y X L) as D.
  pose proof (PI 1%Q _ (Qle_refl 1) X1) as Q1. pose proof (PI _ _ X1 D) as Q2. pose proof (PI _ _ Y1 Y2) as Q3.
  change (erf_approx m x) with (of_pow (lm_pow4 m (erf_denom x))). change (erf_approx m y) with (of_pow (lm_pow4 m (erf_denom y))). split; [|split].
  - eapply Qle_trans; [|apply (of_pow_mono 1); lra]. vm_compute. discriminate.
  - apply of_pow_mono; lra.
  - eapply Qle_trans; [apply (of_pow_mono _ (82 # 1)); lra|]. vm_compute. discriminate.
Qed.
(** from alpha *)
Definition of_alpha (alpha : Q) : Q :=
  let d := r32 (alpha - 10) in
  let sigmas := r32 (r32 (d * d) / 4) in
  let weight := erf_approx m (r32 (lm_sqrt m (r64 (sigmas / 2)))) in
  let weight := if Qle_bool 10 alpha then weight else 0%Q in
  r32 (r64 (weight * 256)).
Definition arg_of (alpha : Q) : Q := r32 (lm_sqrt m (r64 (r32 (r32 (r32 (alpha - 10) * r32 (alpha - 10)) / 4) / 2))).
Lemma arg_mono a b : (10 <= a)%Q -> (a <= b)%Q -> (b <= 14)%Q -> (0 <= arg_of a)%Q /\ (arg_of a <= arg_of b)%Q /\ (arg_of b <= 3 # 2)%Q.
Proof.
  intros A L B. destruct HM as (_ & (SI & S0 & S2) & _). unfold arg_of.
  assert (D0 : (0 <= r32 (a - 10))%Q) by (apply r32_pos; lra). assert (D1 : (r32 (a - 10) <= r32 (b - 10))%Q) by (apply r32_mono; lra).
  assert (D2 : (r32 (b - 10) <= 4)%Q). { eapply Qle_trans; [apply (r32_mono _ 4); lra|vm_compute; discriminate]. }
  set (da := r32 (a - 10)) in *. set (db := r32 (b - 10)) in *.
  assert (E0 : (0 <= r32 (da * da))%Q) by (apply r32_pos, mul_pos; assumption). assert (E1 : (r32 (da * da) <= r32 (db * db))%Q) by (apply r32_mono, mul_mono; assumption).
  assert (E2 : (r32 (db * db) <= 16)%Q). { eapply Qle_trans; [apply (r32_mono _ 16)|vm_compute; discriminate]. pose proof (mul_mono db 4 db 4 ltac:(lra) D2 ltac:(lra) D2). lra. }
  set (ea := r32 (da * da)) in *. set (eb := r32 (db * db)) in *.
  assert (Q4 : forall x, (x / 4 == x * (1 # 4))%Q) by (intros; field). assert (Q2 : forall x, (x / 2 == x * (1 # 2))%Q) by (intros; field).
  assert (F0 : (0 <= r32 (ea / 4))%Q) by (apply r32_pos; rewrite Q4; lra). assert (F1 : (r32 (ea / 4) <= r32 (eb / 4))%Q) by (apply r32_mono; rewrite !Q4; lra).
  assert (F2 : (r32 (eb / 4) <= 4)%Q). { eapply Qle_trans; [apply (r32_mono _ 4); rewrite Q4; lra|vm_compute; discriminate]. }
  set (fa := r32 (ea / 4)) in *. set (fb := r32 (eb / 4)) in *.
  assert (G0 : (0 <= r64 (fa / 2))%Q) by (apply r64_pos; rewrite Q2; lra). assert (G1 : (r64 (fa / 2) <= r64 (fb / 2))%Q) by (apply r64_mono; rewrite !Q2; lra).
  assert (G2 : (r64 (fb / 2) <= 2 # 1)%Q). { eapply Qle_trans; [apply (r64_mono _ 2); rewrite Q2; lra|vm_compute; discriminate]. }
  set (ga := r64 (fa / 2)) in *. set (gb := r64 (fb / 2)) in *.
  pose proof (SI 0%Q ga (Qle_refl 0) G0). pose proof (SI ga gb G0 G1). pose proof (SI gb (2 # 1)%Q ltac:(lra) G2). split; [|split].
  - apply r32_pos. lra.
  - apply r32_mono. assumption.
  - eapply Qle_trans; [apply (r32_mono _ (3 # 2)); lra|vm_compute; discriminate].
Qed.
Lemma of_alpha_low a : (a < 10)%Q -> (of_alpha a == 0)%Q.
Proof.
  intros H. unfold of_alpha. cbv zeta. destruct (Qle_bool 10 a) eqn:E; [apply Qle_bool_iff in E; lra|]. vm_compute. reflexivity.
Qed.
Lemma of_alpha_high a : (10 <= a)%Q -> of_alpha a = r32 (r64 (erf_approx m (arg_of a) * 256)).
Proof. intros H. unfold of_alpha, arg_of. cbv zeta. apply Qle_bool_iff in H. rewrite H. reflexivity. Qed.
Lemma of_alpha_range a : (a <= 14)%Q -> (0 <= of_alpha a)%Q /\ (of_alpha a <= 253 # 1)%Q.
Proof.
  intros B. destruct (Qlt_le_dec a 10) as [L|L]; [rewrite (of_alpha_low a L); split; discriminate|]. rewrite (of_alpha_high a L). destruct (arg_mono a a L (Qle_refl a) B) as (A0 & _ & A2). destruct (erf_mono _ _ A0 (Qle_refl _) A2) as (E0 & _ & E2). split.
  - apply r32_pos, r64_pos. lra.
  - eapply Qle_trans; [apply (r32_mono _ (253 # 1))|vm_compute; discriminate]. eapply Qle_trans; [apply (r64_mono _ (253 # 1)); lra|vm_compute; discriminate].
Qed.
Lemma of_alpha_mono a b : (a <= b)%Q -> (b <= 14)%Q -> (of_alpha a <= of_alpha b)%Q.
Proof.
  intros L B. destruct (Qlt_le_dec a 10) as [A|A]; [rewrite (of_alpha_low a A); apply (of_alpha_range b B)|]. rewrite (of_alpha_high a A), (of_alpha_high b) by lra.
  destruct (arg_mono a b A L B) as (A0 & A1 & A2). destruct (erf_mono _ _ A0 A1 A2) as (E0 & E1 & E2). apply r32_mono, r64_mono. lra.
Qed.
(** from the index *)
Definition alpha_of (i : Z) : Q := r32 (lm_log m (r32 (r32 (inject_Z (i * 1024)) + 1))).
Lemma index_exact i : 0 <= i -> i < 1174 -> (r32 (r32 (inject_Z (i * 1024)) + 1) == inject_Z (i * 1024 + 1))%Q.
Proof.
  intros A B. assert (E : (r32 (inject_Z (i * 1024)) == inject_Z (i * 1024))%Q) by (apply (rnd_exact 24 (-149) ltac:(lia) _ (i * 1024) 0); [change (p2 0) with 1%Q; ring|lia|lia]).
  assert (E' : (r32 (inject_Z (i * 1024)) + 1 == inject_Z (i * 1024 + 1))%Q) by (rewrite E, inject_Z_plus; reflexivity).
  unfold r32 at 1. rewrite (rnd_comp 24 (-149) ltac:(lia) _ _ E'). apply (rnd_exact 24 (-149) ltac:(lia) _ (i * 1024 + 1) 0); [change (p2 0) with 1%Q; ring|lia|lia].
Qed.
Lemma log_le x y : (x <= y)%Q -> (1 <= x)%Q -> (lm_log m x <= lm_log m y)%Q.
Proof. intros L X. destruct HM as ((I & _) & _). apply I; assumption. Qed.
Lemma alpha_mono i j : 0 <= i -> i <= j -> j < 1174 -> (alpha_of i <= alpha_of j)%Q.
Proof.
  intros A L B. unfold alpha_of. apply r32_mono, log_le; [rewrite !index_exact by lia; apply injZ_le; lia|]. rewrite index_exact by lia. apply (injZ_le 1). lia.
Qed.
Lemma alpha_top j : 0 <= j -> j < 1174 -> (alpha_of j <= 14)%Q.
Proof.
  intros A B. unfold alpha_of. eapply Qle_trans; [apply (r32_mono _ 14)|vm_compute; discriminate]. destruct HM as ((_ & _ & _ & T) & _). eapply Qle_trans; [apply (log_le _ (1201153 # 1))|exact T]; rewrite index_exact by lia; [apply (injZ_le _ 1201153); lia|apply (injZ_le 1); lia].
Qed.
Lemma alpha_low i : 0 <= i -> i < 22 -> (alpha_of i < 10)%Q.
Proof.
  intros A B. unfold alpha_of. apply Qle_lt_trans with (r32 (999 # 100)); [|vm_compute; reflexivity]. apply r32_mono. destruct HM as ((_ & T & _) & _). eapply Qle_trans; [apply (log_le _ (21505 # 1))|exact T]; rewrite index_exact by lia; [apply (injZ_le _ 21505); lia|apply (injZ_le 1); lia].
Qed.
Lemma entry_eq i : puppi_entry m i = to_u8 (of_alpha (alpha_of i)). Proof. reflexivity. Qed.
Lemma to_u8_floor x : (0 <= x)%Q -> (x <= 253 # 1)%Q -> to_u8 x = Qfloor x /\ 0 <= Qfloor x <= 253.
Proof.
  intros A B. assert (R : 0 <= Qfloor x <= 253). { split; [apply (Qfloor_resp_le 0 x A)|]. pose proof (Qfloor_resp_le _ _ B) as F. change (Qfloor (253 # 1)) with 253 in F. exact F. }
  split; [|exact R]. unfold to_u8. apply Qle_bool_iff in A. rewrite A. unfold wrapU. apply Z.mod_small. lia.
Qed.
Lemma entry_range i : 0 <= i < 1174 -> 0 <= puppi_entry m i <= 253.
Proof. intros H. rewrite entry_eq. destruct (of_alpha_range (alpha_of i) (alpha_top i ltac:(lia) ltac:(lia))) as (A & B). destruct (to_u8_floor _ A B) as (-> & R). exact R. Qed.
Lemma entry_mono i j : 0 <= i -> i <= j -> j < 1174 -> puppi_entry m i <= puppi_entry m j.
Proof.
  intros A L B. rewrite !entry_eq. pose proof (alpha_top j ltac:(lia) B) as T. pose proof (alpha_mono i j A L B) as M. destruct (of_alpha_range (alpha_of i) ltac:(lra)) as (I1 & I2). destruct (of_alpha_range (alpha_of j) T) as (J1 & J2).
  destruct (to_u8_floor _ I1 I2) as (-> & _). destruct (to_u8_floor _ J1 J2) as (-> & _). apply Qfloor_resp_le, of_alpha_mono; assumption.
Qed.
Lemma entry_low i : 0 <= i < 22 -> puppi_entry m i = 0.
Proof.
  intros H. rewrite entry_eq. pose proof (of_alpha_low _ (alpha_low i ltac:(lia) ltac:(lia))) as Z0. destruct (to_u8_floor (of_alpha (alpha_of i))) as (-> & _); [rewrite Z0; discriminate|rewrite Z0; discriminate|]. rewrite (Qfloor_comp _ _ Z0). reflexivity.
Qed.
Lemma table_length : length (puppi_table m) = Z.to_nat 1174. Proof. unfold puppi_table. rewrite map_length, seq_length. reflexivity. Qed.
Lemma table_nth k : Z.of_nat k < 1174 -> nth k (puppi_table m) 0 = puppi_entry m (Z.of_nat k).
Proof.
  intros H. unfold puppi_table. rewrite (nth_indep _ 0 (puppi_entry m (Z.of_nat 0))) by (rewrite map_length, seq_length; unfold PUPPI_TABLE_SIZE; lia).
  rewrite (map_nth (fun i => puppi_entry m (Z.of_nat i)) _ 0%nat k). rewrite seq_nth by (unfold PUPPI_TABLE_SIZE; lia). reflexivity.
Qed.
Lemma table_is_ok : table_ok (puppi_table m) /\ table_monotone (puppi_table m).
Proof.
  split; [split|].
  - rewrite table_length. lia.
  - unfold puppi_table. apply Forall_map, Forall_forall. intros k K. apply in_seq in K. unfold PUPPI_TABLE_SIZE in K. pose proof (entry_range (Z.of_nat k) ltac:(lia)). lia.
  - intros i j L J. rewrite table_length in J. rewrite !table_nth by lia. apply entry_mono; lia.
Qed.
Lemma table_low k : (k < 22)%nat -> nth k (puppi_table m) 0 = 0.
Proof. intros H. rewrite table_nth by lia. apply entry_low. lia. Qed.
End Libm.

(** ** In the firmware *)
Lemma dropped m pfch pfne z r i n : libm_ok m -> Forall (fun n => inS 16 (n_pt n)) pfne -> simple_puppi_hw (puppi_table m) pfch pfne z = Ok r -> nth_error pfne i = Some n ->
  alpha_sum z pfch n < 22 * 1024 -> nth_error r i = Some (set_puppi n 0).
Proof.
  intros HM HP H Hn HS. destruct (table_is_ok m HM) as (HT & _). rewrite (hw_value _ _ _ _ _ _ _ HT HP H Hn) by lia. unfold puppi_pt. cbv zeta.
  destruct (Z.leb_spec (alpha_sum z pfch n / 1024) 0); [reflexivity|]. destruct (Z.ltb_spec (alpha_sum z pfch n / 1024) 1174); [|lia]. rewrite table_low by (exact HM || lia). rewrite Z.mul_0_r. reflexivity.
Qed.
Lemma partly m pfch pfne z r i n : libm_ok m -> Forall (fun n => inS 16 (n_pt n)) pfne -> simple_puppi_hw (puppi_table m) pfch pfne z = Ok r -> nth_error pfne i = Some n -> 0 <= n_pt n ->
  alpha_sum z pfch n < 1174 * 1024 -> exists p, nth_error r i = Some (set_puppi n p) /\ 0 <= p <= n_pt n * 253 / 256.
Proof.
  intros HM HP H Hn P HS. destruct (table_is_ok m HM) as (HT & _). rewrite (hw_value _ _ _ _ _ _ _ HT HP H Hn) by lia. unfold puppi_pt. cbv zeta.
  destruct (Z.leb_spec (alpha_sum z pfch n / 1024) 0); [eexists; split; [reflexivity|]; lia|]. destruct (Z.ltb_spec (alpha_sum z pfch n / 1024) 1174); [|lia]. eexists; split; [reflexivity|]. rewrite table_nth by lia. 
  pose proof (entry_range m HM (Z.of_nat (Z.to_nat (alpha_sum z pfch n / 1024))) ltac:(lia)) as R. set (w := puppi_entry m _) in *. split; [apply Z.div_pos; nia|apply Z.div_le_mono; nia].
Qed.
Lemma more_is_more m pfch extra pfch' pfne z : libm_ok m -> Forall (fun n => inS 16 (n_pt n) /\ 0 <= n_pt n) pfne -> Permutation pfch' (pfch ++ extra) ->
  (forall n, In n pfne -> alpha_sum z pfch' n < 2147483648) ->
  exists r r', simple_puppi_hw (puppi_table m) pfch pfne z = Ok r /\ simple_puppi_hw (puppi_table m) pfch' pfne z = Ok r' /\ Forall2 (fun a b => n_puppi a <= n_puppi b) r r'.
Proof. intros HM. destruct (table_is_ok m HM) as (HT & HI). apply c23; assumption. Qed.
Lemma table_facts m : libm_ok m -> table_ok (puppi_table m) /\ table_monotone (puppi_table m) /\ (forall k, (k < 22)%nat -> nth k (puppi_table m) 0 = 0) /\ Forall (fun w => 0 <= w <= 253) (puppi_table m).
Proof.
  intros HM. destruct (table_is_ok m HM) as (A & B). repeat split; try assumption; try apply A.
  - intros k H. exact (table_low m HM k H).
  - unfold puppi_table. apply Forall_map, Forall_forall. intros k K. apply in_seq in K. unfold PUPPI_TABLE_SIZE in K. apply entry_range; [exact HM|lia].
Qed.
