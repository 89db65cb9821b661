(** How accurate the table of puppi weights is. *)
From Coq Require Import QArith Qround Qabs Lqa.
From Verif Require Import Base BaseFacts Data Fill FloatFacts Puppi SpecPF SpecPuppi PuppiTable SpecTable TableProofs.
Local Open Scope Z_scope.

Lemma e64 x M : (1 <= M)%Q -> (- M <= x)%Q -> (x <= M)%Q -> (x - M * (1 # 1000000000000) <= r64 x)%Q /\ (r64 x <= x + M * (1 # 1000000000000))%Q.
Proof.
  intros HM A B. pose proof (rnd_error 53 (-1074) x) as E. assert (X : (Qabs x <= M)%Q) by (apply Qabs_Qle_condition; lra).
  assert (P : (p2 (- (53)) <= 1 # 9000000000000000)%Q) by (vm_compute; discriminate). assert (P' : (p2 (-1074 - 1) <= 1 # 9000000000000000)%Q) by (vm_compute; discriminate).
  pose proof (p2_pos (- (53))). pose proof (p2_pos (-1074 - 1)). pose proof (Qabs_nonneg x). change (rnd 53 (-1074) x) with (r64 x) in E.
  assert (T : (Qabs x * p2 (- (53)) <= M * (1 # 9000000000000000))%Q) by (apply Qle_trans with (M * p2 (- (53)))%Q; [apply Qmult_le_compat_r; lra|]; nra).
  apply Qabs_Qle_condition in E. lra.
Qed.
Lemma e32 x M : (1 <= M)%Q -> (- M <= x)%Q -> (x <= M)%Q -> (x - M * (1 # 10000000) <= r32 x)%Q /\ (r32 x <= x + M * (1 # 10000000))%Q.
Proof.
  intros HM A B. pose proof (rnd_error 24 (-149) x) as E. assert (X : (Qabs x <= M)%Q) by (apply Qabs_Qle_condition; lra).
  assert (P : (p2 (- (24)) <= 1 # 16777216)%Q) by (vm_compute; discriminate). assert (P' : (p2 (-149 - 1) <= 1 # 9000000000000000)%Q) by (vm_compute; discriminate).
  pose proof (p2_pos (- (24))). pose proof (p2_pos (-149 - 1)). pose proof (Qabs_nonneg x). change (rnd 24 (-149) x) with (r32 x) in E.
  assert (T : (Qabs x * p2 (- (24)) <= M * (1 # 16777216))%Q) by (apply Qle_trans with (M * p2 (- (24)))%Q; [apply Qmult_le_compat_r; lra|]; nra).
  apply Qabs_Qle_condition in E. lra.
Qed.
(** one multiplication by x in double *)
Lemma times_err a a' x e : (0 <= x)%Q -> (x <= 3 # 2)%Q -> (0 <= a)%Q -> (a <= 1)%Q -> (0 <= e)%Q -> (e <= 1 # 10)%Q -> (a - e <= a')%Q -> (a' <= a + e)%Q ->
  (a * x - ((3 # 2) * e + (2 # 1000000000000)) <= r64 (a' * x))%Q /\ (r64 (a' * x) <= a * x + ((3 # 2) * e + (2 # 1000000000000)))%Q.
Proof.
  intros X X2 A A1 E0 E1 L U. assert (B1 : (a * x - (3 # 2) * e <= a' * x)%Q) by nra. assert (B2 : (a' * x <= a * x + (3 # 2) * e)%Q) by nra. assert (B3 : (0 <= a * x)%Q) by nra. assert (B4 : (a * x <= 3 # 2)%Q) by nra.
  destruct (e64 (a' * x) 2) as (P & Q); [lra|lra|lra|]. lra.
Qed.
Ltac coeff c := let H := fresh in assert (H : (c - (1 # 1000000000000) <= r64 c)%Q /\ (r64 c <= c + (1 # 1000000000000))%Q) by (vm_compute; split; discriminate); destruct H.
Lemma denom_err x : (0 <= x)%Q -> (x <= 3 # 2)%Q -> (erf_poly x - (4 # 10000000) <= erf_denom x)%Q /\ (erf_denom x <= erf_poly x + (4 # 10000000))%Q.
Proof.
  intros X X2. unfold erf_denom, erf_a, erf_b, erf_c, erf_d, erf_poly. cbv zeta.
  coeff (278393 # 1000000)%Q. coeff (230389 # 1000000)%Q. coeff (972 # 1000000)%Q. coeff (78108 # 1000000)%Q.
  destruct (times_err (278393 # 1000000) (r64 (278393 # 1000000)) x (1 # 1000000000000)) as (A1 & A2); try lra. set (ta := r64 (r64 (278393 # 1000000) * x)) in *.
  destruct (times_err (230389 # 1000000) (r64 (230389 # 1000000)) x (1 # 1000000000000)) as (B1 & B2); try lra. set (tb := r64 (r64 (230389 # 1000000) * x)) in *.
  assert (BB : (0 <= (230389 # 1000000) * x <= 1)%Q) by lra.
  destruct (times_err ((230389 # 1000000) * x) tb x (4 # 1000000000000)) as (B3 & B4); try lra. set (tb2 := r64 (tb * x)) in *.
  destruct (times_err (972 # 1000000) (r64 (972 # 1000000)) x (1 # 1000000000000)) as (C1 & C2); try lra. set (tc := r64 (r64 (972 # 1000000) * x)) in *.
  destruct (times_err ((972 # 1000000) * x) tc x (4 # 1000000000000)) as (C3 & C4); try lra. set (tc2 := r64 (tc * x)) in *.
  assert (CC : (0 <= (972 # 1000000) * x * x <= 1)%Q) by nra.
  destruct (times_err ((972 # 1000000) * x * x) tc2 x (8 # 1000000000000)) as (C5 & C6); try lra. set (tc3 := r64 (tc2 * x)) in *.
  destruct (times_err (78108 # 1000000) (r64 (78108 # 1000000)) x (1 # 1000000000000)) as (D1 & D2); try lra. set (td := r64 (r64 (78108 # 1000000) * x)) in *.
  destruct (times_err ((78108 # 1000000) * x) td x (4 # 1000000000000)) as (D3 & D4); try lra. set (td2 := r64 (td * x)) in *.
  assert (DD : (0 <= (78108 # 1000000) * x * x <= 18 # 100)%Q) by nra.
  destruct (times_err ((78108 # 1000000) * x * x) td2 x (8 # 1000000000000)) as (D5 & D6); try lra. set (td3 := r64 (td2 * x)) in *.
  assert (DE : (0 <= (78108 # 1000000) * x * x * x <= 27 # 100)%Q) by nra.
  destruct (times_err ((78108 # 1000000) * x * x * x) td3 x (14 # 1000000000000)) as (D7 & D8); try lra. set (td4 := r64 (td3 * x)) in *.
  assert (BB2 : (0 <= (230389 # 1000000) * x * x <= 52 # 100)%Q) by nra. assert (CC2 : (0 <= (972 # 1000000) * x * x * x <= 1 # 100)%Q) by nra. assert (DF : (0 <= (78108 # 1000000) * x * x * x * x <= 41 # 100)%Q) by nra.
  set (pa := ((278393 # 1000000) * x)%Q) in *. assert (PA : (0 <= pa <= 42 # 100)%Q) by (unfold pa; lra).
  set (pb := ((230389 # 1000000) * x * x)%Q) in *. set (pc := ((972 # 1000000) * x * x * x)%Q) in *. set (pd := ((78108 # 1000000) * x * x * x * x)%Q) in *. clearbody pb pc pd ta tb tb2 tc tc2 tc3 td td2 td3 td4. clearbody pa.
  destruct (e64 (1 + ta) 4) as (E1 & E2); try lra. set (s1 := r64 (1 + ta)) in *. clearbody s1.
  destruct (e64 (s1 + tb2) 4) as (E3 & E4); try lra. set (s2 := r64 (s1 + tb2)) in *. clearbody s2.
  destruct (e64 (s2 + tc3) 4) as (E5 & E6); try lra. set (s3 := r64 (s2 + tc3)) in *. clearbody s3.
  destruct (e64 (s3 + td4) 4) as (E7 & E8); try lra. set (s4 := r64 (s3 + td4)) in *. clearbody s4.
  destruct (e32 s4 3) as (E9 & E10); try lra.
Qed.
Lemma poly_range x : (0 <= x)%Q -> (x <= 3 # 2)%Q -> (1 <= erf_poly x)%Q /\ (erf_poly x <= 24 # 10)%Q.
Proof. intros X X2. unfold erf_poly. split; [|assert ((230389 # 1000000) * x * x <= 52 # 100)%Q by nra; assert ((972 # 1000000) * x * x * x <= 1 # 100)%Q by nra; assert ((78108 # 1000000) * x * x * x * x <= 41 # 100)%Q by nra; lra].
  assert (0 <= (230389 # 1000000) * x * x)%Q by nra. assert (0 <= (972 # 1000000) * x * x * x)%Q by nra. assert (0 <= (78108 # 1000000) * x * x * x * x)%Q by nra. lra.
Qed.
(** relative errors of squares *)
Lemma square_rel p d e : (0 < p)%Q -> (0 <= e)%Q -> (e <= 1 # 1000)%Q -> (p * (1 - e) <= d)%Q -> (d <= p * (1 + e))%Q -> (p * p * (1 - (21 # 10) * e) <= d * d)%Q /\ (d * d <= p * p * (1 + (21 # 10) * e))%Q.
Proof.
  intros P E0 E1 A B. assert (PP : (0 <= p * p)%Q) by nra. assert (D0 : (0 <= d)%Q) by nra. assert (D0' : (0 <= p * (1 - e))%Q) by nra.
  pose proof (mul_mono _ _ _ _ D0' A D0' A) as L. pose proof (mul_mono _ _ _ _ D0 B D0 B) as U. split.
  - eapply Qle_trans; [|exact L]. setoid_replace (p * (1 - e) * (p * (1 - e)))%Q with (p * p * ((1 - e) * (1 - e)))%Q by ring. rewrite (Qmult_comm (p * p)), (Qmult_comm (p * p)). apply Qmult_le_compat_r; nra.
  - eapply Qle_trans; [exact U|]. setoid_replace (p * (1 + e) * (p * (1 + e)))%Q with (p * p * ((1 + e) * (1 + e)))%Q by ring. rewrite (Qmult_comm (p * p)), (Qmult_comm (p * p)). apply Qmult_le_compat_r; nra.
Qed.
Lemma inverse_err p q e : (1 <= p)%Q -> (1 <= q)%Q -> (p * (1 - e) <= q)%Q -> (q <= p * (1 + e))%Q -> (0 <= e)%Q -> (1 / p - e <= 1 / q)%Q /\ (1 / q <= 1 / p + e)%Q.
Proof.
  intros P Q A B E. split.
  - apply Qle_shift_div_l; [lra|]. apply (Qmult_le_l _ _ p); [lra|]. setoid_replace (p * ((1 / p - e) * q))%Q with (q - e * (p * q))%Q by (field; lra). nra.
  - apply Qle_shift_div_r; [lra|]. apply (Qmult_le_l _ _ p); [lra|]. setoid_replace (p * ((1 / p + e) * q))%Q with (q + e * (p * q))%Q by (field; lra). nra.
Qed.
Section Libm.
Context (m : libm) (HM : libm_ok m) (HA : libm_accurate m).
Lemma erf_err s : (0 <= s)%Q -> (s <= 3 # 2)%Q -> (erf_7_1_27 s - (32 # 10000000) <= erf_approx m s)%Q /\ (erf_approx m s <= erf_7_1_27 s + (32 # 10000000))%Q /\ (0 <= erf_7_1_27 s)%Q /\ (erf_7_1_27 s <= 1)%Q.
Proof.
  intros X X2. destruct (denom_err s X X2) as (D1 & D2). destruct (denom_range s X X2) as (R1 & R2). destruct (poly_range s X X2) as (P1 & P2).
  unfold erf_7_1_27. destruct HM as (_ & _ & PI & PO & _). pose proof (PI 1%Q _ (Qle_refl 1) R1) as Q1. destruct HA as (_ & PA). destruct (PA _ R1 R2) as (W1 & W2).
  change (erf_approx m s) with (of_pow (lm_pow4 m (erf_denom s))). set (d := erf_denom s) in *. set (p := erf_poly s) in *. set (w := lm_pow4 m d) in *. clearbody d p w. clear PI PA HA HM.
  destruct (square_rel p d (4 # 10000000)) as (S1 & S2); [lra|lra|lra|nra|nra|]. set (pp := (p * p)%Q) in *. assert (PP : (1 <= pp)%Q) by (unfold pp; nra). set (dd := (d * d)%Q) in *. clearbody pp dd.
  destruct (square_rel pp dd (84 # 100000000)) as (T1 & T2); [lra|lra|lra|lra|lra|]. set (p4 := (pp * pp)%Q) in *. assert (P4 : (1 <= p4)%Q) by (unfold p4; nra). set (d4 := (dd * dd)%Q) in *. clearbody p4 d4.
  destruct (inverse_err p4 w (28 # 10000000)) as (I1 & I2); [exact P4|lra|nra|nra|lra|].
  assert (V : (0 <= 1 / p4)%Q) by (apply Qle_shift_div_l; lra). assert (V' : (1 / p4 <= 1)%Q) by (apply Qle_shift_div_r; lra). unfold of_pow. set (v := (1 / p4)%Q) in *. set (u := (1 / w)%Q) in *. clearbody u v.
  destruct (e64 u 2) as (E1 & E2); [lra|lra|lra|]. set (u' := r64 u) in *. clearbody u'. destruct (e64 (1 - u') 2) as (E3 & E4); [lra|lra|lra|]. set (x := r64 (1 - u')) in *. clearbody x.
  destruct (e32 x 2) as (E5 & E6); lra.
Qed.
Lemma arg_err l : (10 <= r32 l)%Q -> (0 <= l)%Q -> (r32 l <= 14)%Q -> (Qabs (arg_of m (r32 l) * arg_of m (r32 l) - (l - 10) * (l - 10) / (8 # 1)) <= 1 # 100000)%Q.
Proof.
  intros A L0 B. assert (L1 : (l <= 15)%Q). { destruct (Qlt_le_dec 15 l) as [H|H]; [|exact H]. assert (r32 15 <= r32 l)%Q by (apply r32_mono; lra). assert (15 <= r32 15)%Q by (vm_compute; discriminate). lra. }
  destruct (arg_mono m HM _ _ A (Qle_refl _) B) as (R0 & _ & R2). unfold arg_of in *. destruct (e32 l 15) as (E1 & E2); [lra|lra|lra|].
  assert (L2 : (999 # 100 <= l)%Q) by lra. set (a := r32 l) in *. clearbody a.
  destruct (e32 (a - 10) 4) as (E3 & E4); [lra|lra|lra|]. assert (D0 : (0 <= r32 (a - 10))%Q) by (apply r32_pos; lra). assert (D5 : (r32 (a - 10) <= 4)%Q) by (eapply Qle_trans; [apply (r32_mono _ 4); lra|vm_compute; discriminate]). set (d := r32 (a - 10)) in *. clearbody d.
  assert (DL : (l - 10 - (2 # 1000000) <= d)%Q) by lra. assert (DU : (d <= l - 10 + (2 # 1000000))%Q) by lra. assert (D4 : (d <= 4 + (1 # 1000000))%Q) by lra.
  assert (Q1 : ((l - 10) * (l - 10) - (17 # 1000000) <= d * d)%Q) by nra. assert (Q2 : (d * d <= (l - 10) * (l - 10) + (17 # 1000000))%Q) by nra.
  assert (Q0 : (0 <= d * d)%Q) by nra. assert (Q3 : (d * d <= 16)%Q) by nra. set (t := ((l - 10) * (l - 10))%Q) in *. set (q := (d * d)%Q) in *. clearbody t q.
  assert (F4 : forall x, (x / 4 == x * (1 # 4))%Q) by (intros; field). assert (F2 : forall x, (x / 2 == x * (1 # 2))%Q) by (intros; field). assert (F8 : (t / (8 # 1) == t * (1 # 8))%Q) by field. 
  destruct (e32 q 17) as (E5 & E6); [lra|lra|lra|]. assert (G0 : (0 <= r32 q)%Q) by (apply r32_pos; lra). assert (G0' : (r32 q <= 16)%Q) by (eapply Qle_trans; [apply (r32_mono _ 16); lra|vm_compute; discriminate]). set (e := r32 q) in *. clearbody e.
  destruct (e32 (e / 4) 5) as (E7 & E8); [lra|rewrite F4; lra|rewrite F4; lra|]. assert (G1 : (0 <= r32 (e / 4))%Q) by (apply r32_pos; rewrite F4; lra). assert (G1' : (r32 (e / 4) <= 4)%Q) by (eapply Qle_trans; [apply (r32_mono _ 4); rewrite F4; lra|vm_compute; discriminate]). set (f := r32 (e / 4)) in *. rewrite F4 in E7, E8. clearbody f.
  destruct (e64 (f / 2) 3) as (E9 & E10); [lra|rewrite F2; lra|rewrite F2; lra|]. assert (G2 : (0 <= r64 (f / 2))%Q) by (apply r64_pos; rewrite F2; lra). assert (G3 : (r64 (f / 2) <= 2 # 1)%Q) by (eapply Qle_trans; [apply (r64_mono _ 2); rewrite F2; lra|vm_compute; discriminate]). set (g := r64 (f / 2)) in *. rewrite F2 in E9, E10.
  clearbody g. destruct HA as (SA & _). destruct (SA g G2 G3) as (S0 & S1 & S2). set (s := lm_sqrt m g) in *. clearbody s.
  assert (S3 : (s <= 3 # 2)%Q) by nra. destruct (e32 s 2) as (H1 & H2); [lra|lra|lra|]. set (r := r32 s) in *. clearbody r.
  assert (K1 : (s * s - (7 # 10000000) <= r * r)%Q) by nra. assert (K2 : (r * r <= s * s + (7 # 10000000))%Q) by nra.
  rewrite F8. apply Qabs_Qle_condition. lra.
Qed.
Lemma log_comp_range k : 22 <= k < 1174 -> (10 <= alpha_of m k)%Q /\ (alpha_of m k <= 14)%Q.
Proof.
  intros H. split; [|apply alpha_top; [exact HM|lia|lia]]. eapply Qle_trans; [|apply (alpha_mono m HM 22 k); lia].
  unfold alpha_of. apply Qle_trans with (r32 10); [vm_compute; discriminate|]. apply r32_mono. destruct HM as (T & _). destruct T as (I & _ & T & _). eapply Qle_trans; [exact T|]. apply I; [discriminate|]. rewrite index_exact by lia. discriminate.
Qed.
Lemma entry_accurate k : 22 <= k < 1174 -> weight_at (lm_log m (r32 (r32 (inject_Z (k * 1024)) + 1))) (puppi_entry m k).
Proof.
  intros H. destruct (log_comp_range k H) as (A & B). unfold alpha_of in A, B. set (l := lm_log m (r32 (r32 (inject_Z (k * 1024)) + 1))) in *.
  assert (L0 : (0 <= l)%Q). { destruct (Qlt_le_dec l 0) as [N|N]; [|exact N]. assert (r32 l <= r32 0)%Q by (apply r32_mono; lra). assert (r32 0 == 0)%Q by (vm_compute; reflexivity). lra. }
  destruct (arg_mono m HM _ _ A (Qle_refl _) B) as (R0 & _ & R2). exists (arg_of m (r32 l)). split; [split; [exact R0|apply arg_err; assumption]|].
  destruct (erf_err _ R0 R2) as (E1 & E2 & E3 & E4). rewrite (entry_eq m k). unfold alpha_of. fold l.
  destruct (of_alpha_range m HM (r32 l) B) as (V1 & V2). destruct (to_u8_floor _ V1 V2) as (-> & _). rewrite (of_alpha_high m _ A) in *. set (w := erf_approx m (arg_of m (r32 l))) in *. set (e := erf_7_1_27 (arg_of m (r32 l))) in *. clearbody w e.
  destruct (e64 (w * 256) 300) as (G1 & G2); [lra|lra|lra|]. set (x := r64 (w * 256)) in *. clearbody x. destruct (e32 x 300) as (G3 & G4); [lra|lra|lra|]. destruct (floor_bounds (r32 x)) as (F1 & F2). split; lra.
Qed.
End Libm.
Lemma table_accurate m : libm_ok m -> libm_accurate m -> forall k, 22 <= k < 1174 ->
  exists x, (x == inject_Z (1024 * k + 1))%Q /\ weight_at (lm_log m x) (nth (Z.to_nat k) (puppi_table m) 0).
Proof.
  intros HM HA k H. exists (r32 (r32 (inject_Z (k * 1024)) + 1)). split; [rewrite index_exact by lia; rewrite (Z.mul_comm k); reflexivity|].
  rewrite table_nth by lia. rewrite Z2Nat.id by lia. apply entry_accurate; assumption.
Qed.
