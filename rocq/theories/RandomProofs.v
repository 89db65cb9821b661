From Coq Require Import QArith Qround Qabs Lqa.
From Verif Require Import Base BaseFacts Data Fill FloatFacts PuppiTable TableProofs BhvProofs EncProofs VtxTest SpecVtxTest VtxTestProofs RandomInputs SpecRandom.
Local Open Scope Z_scope.

(** ** Bounds through monotone roundings *)
Lemma r32_up x b y : (x <= b)%Q -> (r32 b <= y)%Q -> (r32 x <= y)%Q. Proof. intros H K. eapply Qle_trans; [apply r32_mono; exact H|exact K]. Qed.
Lemma r32_dn x b y : (b <= x)%Q -> (y <= r32 b)%Q -> (y <= r32 x)%Q. Proof. intros H K. eapply Qle_trans; [exact K|apply r32_mono; exact H]. Qed.
Lemma r64_up x b y : (x <= b)%Q -> (r64 b <= y)%Q -> (r64 x <= y)%Q. Proof. intros H K. eapply Qle_trans; [apply r64_mono; exact H|exact K]. Qed.
Lemma r64_dn x b y : (b <= x)%Q -> (y <= r64 b)%Q -> (y <= r64 x)%Q. Proof. intros H K. eapply Qle_trans; [exact K|apply r64_mono; exact H]. Qed.
Ltac up32 b := apply r32_up with b; [lra|vm_compute; discriminate].
Ltac dn32 b := apply r32_dn with b; [lra|vm_compute; discriminate].
Ltac up64 b := apply r64_up with b; [lra|vm_compute; discriminate].
Ltac dn64 b := apply r64_dn with b; [lra|vm_compute; discriminate].
(** [x] stands for a rounded term between lo and hi *)
Ltac bound t x lo hi tlo thi := let A := fresh "L" x in let B := fresh "U" x in
  assert (A : (lo <= t)%Q) by (tlo lo); assert (B : (t <= hi)%Q) by (thi hi); set (x := t) in *; clearbody x.

Section rand.
Variable rnds : nat -> Z.
Hypothesis HR : rand_ok rnds.

Lemma angle_range i : (-1 <= rnd_angle (rnds i))%Q /\ (rnd_angle (rnds i) <= 1)%Q.
Proof.
  unfold rnd_angle. destruct (frac_range (rnds i) (HR i)) as (A & B). set (f := frac (rnds i)) in *. clearbody f.
  bound (r64 (f * 2)) x 0%Q 2%Q dn64 up64. bound (r64 (x - 1)) y (-1)%Q 1%Q dn64 up64. split; [dn32 (-1)%Q|up32 1%Q].
Qed.
Lemma scale_range : (229 <= ANGLE_SCALE)%Q /\ (ANGLE_SCALE <= 2292 # 10)%Q.
Proof. split; vm_compute; discriminate. Qed.
Lemma hw_angle_range k b a : (0 <= k)%Q -> 0 <= b < 512 -> (r32 (k * (2292 # 10)) < inject_Z b + 1)%Q -> (- (inject_Z b + 1) < r32 (- (k * (2292 # 10))))%Q ->
  (- k <= a)%Q -> (a <= k)%Q -> within b (hw_angle a).
Proof.
  intros K HB H1 H2 A1 A2. destruct scale_range as (S1 & S2). unfold hw_angle, within. set (s := ANGLE_SCALE) in *. clearbody s.
  assert (U : (a * s <= k * (2292 # 10))%Q) by nra. assert (L : (- (k * (2292 # 10)) <= a * s)%Q) by nra. apply r32_mono in U, L.
  apply to_ap_range; [lia|change (2 ^ (10 - 1)) with 512; lia|change (2 ^ (10 - 1)) with 512; lia|lia|lia| |].
  - rewrite inject_Z_opp. lra.
  - lra.
Qed.
Lemma angle1 i : within 229 (hw_angle (rnd_angle (rnds i))).
Proof. destruct (angle_range i) as (A & B). apply (hw_angle_range 1); try lia; try exact A; try exact B; vm_compute; congruence. Qed.

Lemma pt50_range i : (2 <= rnd_pt 50 2 (rnds i))%Q /\ (rnd_pt 50 2 (rnds i) <= 52)%Q.
Proof.
  unfold rnd_pt. destruct (frac_range (rnds i) (HR i)) as (A & B). set (f := frac (rnds i)) in *. clearbody f.
  bound (r32 (f * 50)) x 0%Q 50%Q dn32 up32. split; [dn32 2%Q|up32 52%Q].
Qed.
Lemma pt80_range i : (1 <= rnd_pt 80 1 (rnds i))%Q /\ (rnd_pt 80 1 (rnds i) <= 81)%Q.
Proof.
  unfold rnd_pt. destruct (frac_range (rnds i) (HR i)) as (A & B). set (f := frac (rnds i)) in *. clearbody f.
  bound (r32 (f * 80)) x 0%Q 80%Q dn32 up32. split; [dn32 1%Q|up32 81%Q].
Qed.
Lemma hw_pt_range lo hi x : 0 <= lo <= hi -> hi < 2 ^ 15 -> (inject_Z lo <= r32 (inject_Z lo))%Q -> (r32 (inject_Z hi) <= inject_Z hi)%Q -> (inject_Z lo <= x * 4)%Q -> (x * 4 <= inject_Z hi)%Q -> lo <= to_ap 16 (r32 (x * 4)) <= hi.
Proof.
  intros H1 H2 E1 E2 A B. apply to_ap_pos; [lia|exact H2|exact H1| |].
  - eapply Qle_trans; [exact E1|]. apply r32_mono. exact A.
  - apply Qle_lt_trans with (inject_Z hi); [|rewrite <- inject_Z_plus with (y := 1); apply (proj2 (injZ_lt _ _)); lia]. eapply Qle_trans; [apply r32_mono; exact B|exact E2].
Qed.
Lemma err_range x : (2 <= x)%Q -> (x <= 52)%Q -> (44 # 10 <= pt_err x)%Q /\ (pt_err x <= 144001 # 10000)%Q.
Proof.
  intros A B. unfold pt_err. assert (S1 : (1 # 5 <= r64 (1 # 5))%Q) by (vm_compute; discriminate). assert (S2 : (r64 (1 # 5) <= 2000001 # 10000000)%Q) by (vm_compute; discriminate).
  set (s := r64 (1 # 5)) in *. clearbody s. assert (P1 : (2 # 5 <= s * x)%Q) by nra. assert (P2 : (s * x <= 10400052 # 1000000)%Q) by nra.
  bound (r64 (s * x)) y (r64 (2 # 5)) (r64 (10400052 # 1000000)) ltac:(fun b => apply r64_mono; exact P1) ltac:(fun b => apply r64_mono; exact P2).
  assert (Q1 : (2 # 5 <= r64 (2 # 5))%Q) by (vm_compute; discriminate). assert (Q2 : (r64 (10400052 # 1000000) <= 1040006 # 100000)%Q) by (vm_compute; discriminate).
  split; [apply r64_dn with (44 # 10); [lra|vm_compute; discriminate]|apply r64_up with (1440006 # 100000); [lra|vm_compute; discriminate]].
Qed.
Lemma hw_err_range x : (2 <= x)%Q -> (x <= 52)%Q -> 17 <= to_ap 16 (r64 (pt_err x * 4)) <= 57.
Proof.
  intros A B. destruct (err_range x A B) as (C & D). set (y := pt_err x) in *. clearbody y. apply to_ap_pos; [lia|reflexivity|lia| |].
  - apply r64_dn with 17%Q; [lra|vm_compute; discriminate].
  - apply Qle_lt_trans with (577 # 10); [apply r64_up with (576004 # 10000); [lra|vm_compute; discriminate]|reflexivity].
Qed.
Lemma hw_pt50 i : 8 <= to_ap 16 (r32 (rnd_pt 50 2 (rnds i) * 4)) <= 208.
Proof. destruct (pt50_range i) as (A & B). apply hw_pt_range; [lia|lia|vm_compute; discriminate|vm_compute; discriminate|change (inject_Z 8) with 8%Q; lra|change (inject_Z 208) with (208 # 1)%Q; lra]. Qed.
Lemma hw_pt80 i : 4 <= to_ap 16 (r32 (rnd_pt 80 1 (rnds i) * 4)) <= 324.
Proof. destruct (pt80_range i) as (A & B). apply hw_pt_range; [lia|lia|vm_compute; discriminate|vm_compute; discriminate|change (inject_Z 4) with 4%Q; lra|change (inject_Z 324) with (324 # 1)%Q; lra]. Qed.

Definition zpv_of (i : nat) : Q := r32 (r32 (frac (rnds i) * 20) - 10).
Lemma zpv_range i : (-10 <= zpv_of i)%Q /\ (zpv_of i <= 10)%Q.
Proof.
  unfold zpv_of. destruct (frac_range (rnds i) (HR i)) as (A & B). set (f := frac (rnds i)) in *. clearbody f.
  bound (r32 (f * 20)) x 0%Q 20%Q dn32 up32. split; [dn32 (-10)%Q|up32 10%Q].
Qed.
Lemma hw_z0_range k b z : (0 <= k)%Q -> 0 <= b < 512 -> (r32 (k * 20) < inject_Z b + 1)%Q -> (- (inject_Z b + 1) < r32 (- (k * 20)))%Q -> (- k <= z)%Q -> (z <= k)%Q -> within b (to_ap 10 (r32 (z * 20))).
Proof.
  intros K HB H1 H2 A1 A2. unfold within. assert (U : (z * 20 <= k * 20)%Q) by lra. assert (L : (- (k * 20) <= z * 20)%Q) by lra. apply r32_mono in U, L.
  apply to_ap_range; [lia|change (2 ^ (10 - 1)) with 512; lia|change (2 ^ (10 - 1)) with 512; lia|lia|lia| |].
  - rewrite inject_Z_opp. lra.
  - lra.
Qed.
Definition z_of (zPV : Q) (i j : nat) : Q := let fz := frac (rnds j) in if (i mod 2 =? 0)%nat then r32 (r64 (r64 (zPV + r64 (fz * r64 (7 # 10))) - r64 (35 # 100))) else r32 (r32 (fz * 30) - 15).
Lemma z_range zPV i j : (-10 <= zPV)%Q -> (zPV <= 10)%Q -> within 300 (to_ap 10 (r32 (z_of zPV i j * 20))).
Proof.
  intros A B. unfold z_of. cbv zeta. destruct (frac_range (rnds j) (HR j)) as (C & D). set (f := frac (rnds j)) in *. clearbody f.
  assert (S1 : (0 <= r64 (7 # 10))%Q) by (vm_compute; discriminate). assert (S2 : (r64 (7 # 10) <= 1)%Q) by (vm_compute; discriminate). set (s := r64 (7 # 10)) in *. clearbody s.
  assert (T1 : (0 <= r64 (35 # 100))%Q) by (vm_compute; discriminate). assert (T2 : (r64 (35 # 100) <= 1)%Q) by (vm_compute; discriminate). set (t := r64 (35 # 100)) in *. clearbody t.
  destruct (i mod 2 =? 0)%nat.
  - assert (P1 : (0 <= f * s)%Q) by nra. assert (P2 : (f * s <= 1)%Q) by nra.
    bound (r64 (f * s)) x 0%Q 1%Q dn64 up64. bound (r64 (zPV + x)) y (-10)%Q 11%Q dn64 up64. bound (r64 (y - t)) w (-11)%Q 11%Q dn64 up64. bound (r32 w) v (-11)%Q 11%Q dn32 up32.
    apply (hw_z0_range 15); try lia; try lra; vm_compute; congruence.
  - bound (r32 (f * 30)) x 0%Q 30%Q dn32 up32. bound (r32 (x - 15)) y (-15)%Q 15%Q dn32 up32. apply (hw_z0_range 15); try lia; try lra; vm_compute; congruence.
Qed.

(** rounding moves a number a little *)
Lemma near32 x : (-400 <= x)%Q -> (x <= 400)%Q -> (- (1 # 10000) <= r32 x - x)%Q /\ (r32 x - x <= 1 # 10000)%Q.
Proof.
  intros A B. pose proof (rnd_error 24 (-149) x) as E. fold (r32 x) in E. assert (X : (Qabs x <= 400)%Q) by (apply Qabs_Qle_condition; split; lra).
  change (p2 (- (24))) with (1 # 16777216)%Q in E. assert (T : (p2 (-149 - 1) <= 1 # 1000000)%Q) by (vm_compute; discriminate). set (d := p2 (-149 - 1)) in *. clearbody d.
  apply Qabs_Qle_condition. eapply Qle_trans; [exact E|]. lra.
Qed.
Lemma near64 x : (-400 <= x)%Q -> (x <= 400)%Q -> (- (1 # 10000) <= r64 x - x)%Q /\ (r64 x - x <= 1 # 10000)%Q.
Proof.
  intros A B. pose proof (rnd_error 53 (-1074) x) as E. fold (r64 x) in E. assert (X : (Qabs x <= 400)%Q) by (apply Qabs_Qle_condition; split; lra).
  change (p2 (- (53))) with (1 # 9007199254740992)%Q in E. assert (T : (p2 (-1074 - 1) <= 1 # 1000000)%Q) by (vm_compute; discriminate). set (d := p2 (-1074 - 1)) in *. clearbody d.
  apply Qabs_Qle_condition. eapply Qle_trans; [exact E|]. lra.
Qed.
Lemma to_ap_close x y : (-511 < x)%Q -> (x < 511)%Q -> (-511 < y)%Q -> (y < 511)%Q -> (-8 < x - y)%Q -> (x - y < 8)%Q -> within 8 (to_ap 10 x - to_ap 10 y).
Proof.
  intros X1 X2 Y1 Y2 D1 D2.
  assert (T : forall u, (-511 < u)%Q -> (u < 511)%Q -> exists t, to_ap 10 u = t /\ ((0 <= u)%Q /\ (inject_Z t <= u)%Q /\ (u < inject_Z t + 1)%Q \/ (u < 0)%Q /\ (u <= inject_Z t)%Q /\ (inject_Z t - 1 < u)%Q)).
  { intros u U1 U2. unfold to_ap. destruct (Qle_bool 0 u) eqn:E.
    - apply Qle_bool_iff in E. destruct (floor_bounds u) as (F1 & F2). exists (Qfloor u). split; [|left; repeat split; assumption]. apply wrapS_id; [lia|]. unfold inS. change (2 ^ (10 - 1)) with 512.
      assert (Qfloor u < 512) by (apply Zlt_of; change (inject_Z 512) with (512 # 1)%Q; lra). assert (-1 < Qfloor u) by (apply Zlt_of; change (inject_Z (-1)) with (-1 # 1)%Q; lra). lia.
    - assert (N : (u < 0)%Q). { destruct (Qlt_le_dec u 0) as [L|L]; [exact L|]. apply Qle_bool_iff in L. congruence. }
      destruct (floor_bounds (- u)) as (F1 & F2). exists (- Qfloor (- u)). split; [|right; rewrite inject_Z_opp; repeat split; [exact N|lra|lra]]. apply wrapS_id; [lia|]. unfold inS. change (2 ^ (10 - 1)) with 512.
      assert (Qfloor (- u) < 512) by (apply Zlt_of; change (inject_Z 512) with (512 # 1)%Q; lra). assert (-1 < Qfloor (- u)) by (apply Zlt_of; change (inject_Z (-1)) with (-1 # 1)%Q; lra). lia. }
  destruct (T x X1 X2) as (a & -> & HA). destruct (T y Y1 Y2) as (b & -> & HB). unfold within.
  assert (a < b + 9) by (apply Zlt_of; rewrite inject_Z_plus; change (inject_Z 9) with (9 # 1)%Q; destruct HA as [HA|HA], HB as [HB|HB]; lra).
  assert (b < a + 9) by (apply Zlt_of; rewrite inject_Z_plus; change (inject_Z 9) with (9 # 1)%Q; destruct HA as [HA|HA], HB as [HB|HB]; lra). lia.
Qed.
(** the tracks with even index come from the vertex *)
Lemma z_close zPV i j : (-10 <= zPV)%Q -> (zPV <= 10)%Q -> (i mod 2 = 0)%nat -> within 8 (to_ap 10 (r32 (z_of zPV i j * 20)) - to_ap 10 (r32 (zPV * 20))).
Proof.
  intros A B E. unfold z_of. cbv zeta. rewrite E. cbn [Nat.eqb]. destruct (frac_range (rnds j) (HR j)) as (C & D). set (f := frac (rnds j)) in *. clearbody f.
  assert (S1 : (0 <= r64 (7 # 10))%Q) by (vm_compute; discriminate). assert (S2 : (r64 (7 # 10) <= 701 # 1000)%Q) by (vm_compute; discriminate). set (s := r64 (7 # 10)) in *. clearbody s.
  assert (T1 : (349 # 1000 <= r64 (35 # 100))%Q) by (vm_compute; discriminate). assert (T2 : (r64 (35 # 100) <= 351 # 1000)%Q) by (vm_compute; discriminate). set (t := r64 (35 # 100)) in *. clearbody t.
  assert (P1 : (0 <= f * s)%Q) by nra. assert (P2 : (f * s <= 701 # 1000)%Q) by nra. set (p := (f * s)%Q) in *. clearbody p.
  destruct (near64 p) as (N1 & N2); [lra|lra|]. set (x := r64 p) in *. clearbody x. destruct (near64 (zPV + x)) as (N3 & N4); [lra|lra|]. set (y := r64 (zPV + x)) in *. clearbody y.
  destruct (near64 (y - t)) as (N5 & N6); [lra|lra|]. set (w := r64 (y - t)) in *. clearbody w. destruct (near32 w) as (N7 & N8); [lra|lra|]. set (v := r32 w) in *. clearbody v.
  destruct (near32 (v * 20)) as (M1 & M2); [lra|lra|]. destruct (near32 (zPV * 20)) as (M3 & M4); [lra|lra|]. apply to_ap_close; lra.
Qed.

(** the energy added to a cluster *)
Lemma dpt_range pt i : (2 <= pt)%Q -> (pt <= 52)%Q -> let dpt := r32 (r64 (r64 (r32 (frac (rnds i) * 3) - (3 # 2)) * pt_err pt)) in
  (r32 (pt + dpt) <= 7361 # 100)%Q.
Proof.
  intros A B. cbv zeta. destruct (frac_range (rnds i) (HR i)) as (C & D). set (f := frac (rnds i)) in *. clearbody f. destruct (err_range pt A B) as (E & F). set (e := pt_err pt) in *. clearbody e.
  bound (r32 (f * 3)) x 0%Q 3%Q dn32 up32. bound (r64 (x - (3 # 2))) y (-3 # 2)%Q (3 # 2)%Q dn64 up64. assert (P : (y * e <= 2160015 # 100000)%Q) by nra.
  assert (P2 : (r64 (y * e) <= 216002 # 10000)%Q) by (apply r64_up with (2160015 # 100000); [exact P|vm_compute; discriminate]). set (u := r64 (y * e)) in *. clearbody u.
  assert (P3 : (r32 u <= 216003 # 10000)%Q) by (apply r32_up with (216002 # 10000); [exact P2|vm_compute; discriminate]). set (v := r32 u) in *. clearbody v.
  apply r32_up with (736003 # 10000); [lra|vm_compute; discriminate].
Qed.
Lemma added_range x : (0 < x)%Q -> (x <= 7361 # 100)%Q -> (0 <= r32 (x * 4))%Q /\ 0 <= Qfloor (r32 (x * 4)) <= 294.
Proof.
  intros A B. assert (P : (0 <= r32 (x * 4))%Q) by (apply r32_pos; lra). split; [exact P|]. assert (Q : (r32 (x * 4) <= 29445 # 100)%Q) by (apply r32_up with (29444 # 100); [lra|vm_compute; discriminate]).
  set (y := r32 (x * 4)) in *. clearbody y. split; [change 0 with (Qfloor 0); apply Qfloor_resp_le; exact P|]. change 294 with (Qfloor (29445 # 100)). apply Qfloor_resp_le. exact Q.
Qed.
Lemma shift_range a i : (-1 <= a)%Q -> (a <= 1)%Q -> within 263 (hw_angle (r32 (a + r32 (r64 (r64 (frac (rnds i) * r64 (3 # 10)) - r64 (15 # 100)))))).
Proof.
  intros A B. destruct (frac_range (rnds i) (HR i)) as (C & D). set (f := frac (rnds i)) in *. clearbody f.
  assert (S1 : (0 <= r64 (3 # 10))%Q) by (vm_compute; discriminate). assert (S2 : (r64 (3 # 10) <= 300001 # 1000000)%Q) by (vm_compute; discriminate). set (s := r64 (3 # 10)) in *. clearbody s.
  assert (T1 : (149999 # 1000000 <= r64 (15 # 100))%Q) by (vm_compute; discriminate). assert (T2 : (r64 (15 # 100) <= 150001 # 1000000)%Q) by (vm_compute; discriminate). set (t := r64 (15 # 100)) in *. clearbody t.
  assert (P1 : (0 <= f * s)%Q) by nra. assert (P2 : (f * s <= 300001 # 1000000)%Q) by nra.
  assert (L1 : (0 <= r64 (f * s))%Q) by (apply r64_pos; exact P1). assert (U1 : (r64 (f * s) <= 300002 # 1000000)%Q) by (apply r64_up with (300001 # 1000000); [exact P2|vm_compute; discriminate]). set (x := r64 (f * s)) in *. clearbody x.
  assert (L2 : (-150002 # 1000000 <= r64 (x - t))%Q) by (apply r64_dn with (-150001 # 1000000); [lra|vm_compute; discriminate]).
  assert (U2 : (r64 (x - t) <= 150004 # 1000000)%Q) by (apply r64_up with (150003 # 1000000); [lra|vm_compute; discriminate]). set (y := r64 (x - t)) in *. clearbody y.
  assert (L3 : (-150003 # 1000000 <= r32 y)%Q) by (apply r32_dn with (-150002 # 1000000); [lra|vm_compute; discriminate]).
  assert (U3 : (r32 y <= 150005 # 1000000)%Q) by (apply r32_up with (150004 # 1000000); [lra|vm_compute; discriminate]). set (z := r32 y) in *. clearbody z.
  assert (L4 : (-1150006 # 1000000 <= r32 (a + z))%Q) by (apply r32_dn with (-1150005 # 1000000); [lra|vm_compute; discriminate]).
  assert (U4 : (r32 (a + z) <= 1150006 # 1000000)%Q) by (apply r32_up with (1150005 # 1000000); [lra|vm_compute; discriminate]). set (w := r32 (a + z)) in *. clearbody w.
  apply (hw_angle_range (1150006 # 1000000)); try lia; try lra; vm_compute; congruence.
Qed.
(** ** The loops *)
Definition keeps (B : Z) (l l' : list rcalo) : Prop := length l' = length l /\ Forall (random_calo B) l'.
Lemma calo_more B B' c : B <= B' -> random_calo B c -> random_calo B' c.
Proof. intros H (A & C). split; [lia|exact C]. Qed.
Lemma within_more b b' x : b <= b' -> within b x -> within b' x. Proof. unfold within. lia. Qed.
Definition neutral_at (nn : Z) (calo calo' : list rcalo) : Prop :=
  forall k c, nth_error calo' k = Some c -> nth_error calo k = Some c \/ (k mod 2 = 1)%nat /\ Z.of_nat k < nn /\ 4 <= rc_pt c <= 324.
Lemma neutrals_ok NCALO nn B : 324 <= B -> forall fuel i o calo, length calo = NCALO -> Forall (random_calo B) calo -> (i mod 2 = 1)%nat ->
  exists calo' o', neutrals rnds NCALO nn fuel i o calo = Ok (calo', o') /\ length calo' = NCALO /\ Forall (random_calo B) calo' /\ neutral_at nn calo calo'.
Proof.
  intros HB. induction fuel as [|fuel IH]; intros i o calo HL HC Hi; cbn [neutrals]; [exists calo, o; repeat split; auto; intros k c; auto|].
  destruct (_ && _) eqn:E; [|exists calo, o; repeat split; auto; intros k c; auto]. apply andb_prop in E as (E0 & E). apply Nat.ltb_lt in E. apply Z.ltb_lt in E0. rewrite wr_Ok by lia. cbn [bind].
  set (nc := mkRc _ _ _). assert (NC : 4 <= rc_pt nc <= 324) by apply hw_pt80.
  destruct (IH (i + 2)%nat (o + 3)%nat (upd calo i nc)) as (calo' & o' & E1 & E2 & E3 & E4).
  - rewrite length_upd; exact HL.
  - apply Forall_upd; [exact HC|]. split; [lia|]. split; cbn [rc_eta rc_phi]; apply (within_more 229); try lia; apply angle1.
  - rewrite <- Nat.add_mod_idemp_r by lia. change (2 mod 2)%nat with 0%nat. rewrite Nat.add_0_r. exact Hi.
  - exists calo', o'. split; [exact E1|]. split; [exact E2|]. split; [exact E3|]. intros k c Hc. destruct (E4 k c Hc) as [H|H]; [|right; exact H]. destruct (Nat.eq_dec k i) as [->|Nk].
    + rewrite nth_error_upd_eq in H by lia. injection H as <-. right. split; [exact Hi|]. split; [exact E0|exact NC].
    + rewrite nth_error_upd_ne in H by lia. left. exact H.
Qed.
(** the number of rounds is enough *)
Lemma neutrals_fuel NCALO nn : forall fuel i o calo, (NCALO <= i + 2 * fuel)%nat -> neutrals rnds NCALO nn (S fuel) i o calo = neutrals rnds NCALO nn fuel i o calo.
Proof.
  induction fuel as [|fuel IH]; intros i o calo H; cbn [neutrals].
  - destruct (Nat.ltb_spec i NCALO); [lia|]. rewrite andb_false_r. reflexivity.
  - destruct (_ && _); [|reflexivity]. destruct (wr calo i _) as [c'|k]; [|reflexivity]. cbn [bind]. apply (IH (i + 2)%nat). lia.
Qed.

Definition from_vertex (zPV : Q) (i : nat) (t : Tk) : Prop := (i mod 2 = 0)%nat -> within 8 (t_z0 t - to_ap 10 (r32 (zPV * 20))).
Definition charged_inv (NTRACK NCALO : nat) (B : Z) (calo0 : list rcalo) (track : list Tk) (zPV : Q) (n : nat) (st : list rcalo * list Tk * nat) : Prop :=
  let '(calo, track', o) := st in length calo = NCALO /\ length track' = NTRACK /\ Forall (random_calo (B + 294 * Z.of_nat n)) calo /\
  (forall i t, (i < n)%nat -> nth_error track' i = Some t -> (random_track t /\ from_vertex zPV i t) /\ exists t0, nth_error track i = Some t0 /\ t_tight t = t_tight t0) /\
  (forall i, (n <= i)%nat -> nth_error track' i = nth_error track i) /\
  (forall i c, nth_error calo i = Some c -> exists c0, nth_error calo0 i = Some c0 /\ rc_pt c0 <= rc_pt c <= rc_pt c0 + 294 * Z.of_nat n).
Lemma charged_step addf NTRACK NCALO B calo0 track zPV n st : adds addf -> (0 < NCALO)%nat -> 0 <= B -> B + 294 * Z.of_nat NTRACK < 2 ^ 15 -> (-10 <= zPV)%Q -> (zPV <= 10)%Q -> (n < NTRACK)%nat ->
  charged_inv NTRACK NCALO B calo0 track zPV n st -> exists st', charged addf rnds NCALO zPV st n = Ok st' /\ charged_inv NTRACK NCALO B calo0 track zPV (S n) st'.
Proof.
  intros HA HN HB0 HB Z1 Z2 Hn. destruct st as ((calo, track'), o). intros (LC & LT & HC & HT & HE & HG). unfold charged.
  destruct (nth_error_lt track' n) as (t & Ht); [lia|]. unfold rd at 1. rewrite Ht. cbn [bind]. rewrite wr_Ok by lia. cbn [bind].
  destruct (Nat.eqb_spec NCALO 0); [lia|]. cbn [bind]. fold (z_of zPV n (o + 3)).
  set (nt := mkTk _ _ _ _ _ _). destruct (pt50_range o) as (P1 & P2).
  assert (FV : from_vertex zPV n nt) by (intros E; apply z_close; assumption).
  assert (RT : random_track nt).
  { unfold nt. split; [apply hw_pt50|]. split; [apply hw_err_range; assumption|]. split; [apply angle1|]. split; [apply angle1|]. apply z_range; assumption. }
  assert (TI : (forall i t1, (i < S n)%nat -> nth_error (upd track' n nt) i = Some t1 -> (random_track t1 /\ from_vertex zPV i t1) /\ exists t0, nth_error track i = Some t0 /\ t_tight t1 = t_tight t0) /\
    (forall i, (S n <= i)%nat -> nth_error (upd track' n nt) i = nth_error track i)).
  { split.
    - intros i t1 Hi H1. destruct (Nat.eq_dec i n) as [->|Ni].
      + rewrite nth_error_upd_eq in H1 by lia. injection H1 as <-. split; [exact (conj RT FV)|]. exists t. split; [rewrite <- HE by lia; exact Ht|reflexivity].
      + rewrite nth_error_upd_ne in H1 by lia. apply HT; [lia|exact H1].
    - intros i Hi. rewrite nth_error_upd_ne by lia. apply HE. lia. }
  clearbody nt. assert (CM : Forall (random_calo (B + 294 * Z.of_nat (S n))) calo) by (eapply Forall_impl; [|exact HC]; intros c; apply calo_more; lia).
  assert (GM : forall i c, nth_error calo i = Some c -> exists c0, nth_error calo0 i = Some c0 /\ rc_pt c0 <= rc_pt c <= rc_pt c0 + 294 * Z.of_nat (S n)) by (intros i c Hc; destruct (HG i c Hc) as (c0 & G1 & G2); exists c0; split; [exact G1|lia]).
  assert (KEEP : forall o1, charged_inv NTRACK NCALO B calo0 track zPV (S n) (calo, upd track' n nt, o1)) by (intros o1; split; [exact LC|]; split; [rewrite length_upd; exact LT|]; split; [exact CM|]; split; [apply TI|]; split; [apply TI|exact GM]).
  set (ic := Z.to_nat (Z.rem (rnds (o + 4)%nat) (Z.of_nat NCALO))).
  destruct ((n mod 3 =? 1)%nat || (NCALO <=? ic)%nat) eqn:EI; [eexists; split; [reflexivity|apply KEEP]|]. apply orb_false_elim in EI as (_ & EI). apply Nat.leb_gt in EI.
  set (dpt := r32 (r64 (_ * pt_err _))). pose proof (dpt_range (rnd_pt 50 2 (rnds o)) (o + 5) P1 P2) as DP. cbv zeta in DP. fold dpt in DP.
  destruct (Qle_bool (r32 (rnd_pt 50 2 (rnds o) + dpt)) 0) eqn:EP; [eexists; split; [reflexivity|apply KEEP]|].
  assert (PP : (0 < r32 (rnd_pt 50 2 (rnds o) + dpt))%Q). { destruct (Qlt_le_dec 0 (r32 (rnd_pt 50 2 (rnds o) + dpt))) as [L|L]; [exact L|]. apply Qle_bool_iff in L. congruence. }
  destruct (added_range _ PP DP) as (AD1 & AD2). destruct (nth_error_lt calo ic) as (c & Hc); [lia|]. unfold rd. rewrite Hc. cbn [bind]. rewrite wr_Ok by lia. cbn [bind].
  assert (RC : random_calo (B + 294 * Z.of_nat n) c) by (rewrite Forall_forall in HC; apply HC; apply nth_error_In in Hc; exact Hc). destruct RC as (C1 & _).
  assert (AE : addf (rc_pt c) (r32 (r32 (rnd_pt 50 2 (rnds o) + dpt) * 4)) = rc_pt c + Qfloor (r32 (r32 (rnd_pt 50 2 (rnds o) + dpt) * 4))) by (rewrite HA by (try exact AD1; lia); apply wrapS_id; [lia|]; unfold inS; change (2 ^ (16 - 1)) with (2 ^ 15); lia).
  rewrite AE. set (gain := Qfloor _) in *. clearbody gain.
  eexists. split; [reflexivity|]. split; [rewrite length_upd; exact LC|]. split; [rewrite length_upd; exact LT|]. split; [|split; [apply TI|split; [apply TI|]]].
  2:{ intros i c1 H1. destruct (Nat.eq_dec i ic) as [->|Ni].
      - rewrite nth_error_upd_eq in H1 by lia. injection H1 as <-. cbn [rc_pt]. destruct (HG ic c Hc) as (c0 & G1 & G2). exists c0. split; [exact G1|lia].
      - rewrite nth_error_upd_ne in H1 by lia. exact (GM i c1 H1). }
  apply Forall_upd; [exact CM|]. split; cbn [rc_pt rc_eta rc_phi].
  - lia.
  - destruct (angle_range (o + 1)) as (A1 & A2). destruct (angle_range (o + 2)) as (A3 & A4). split; apply shift_range; assumption.
Qed.
Lemma muons_ok NMU mu o : length mu = NMU -> exists mu' o', foldM (muon_at rnds) (seq 0 NMU) (mu, o) = Ok (mu', o') /\ length mu' = NMU /\ Forall random_muon mu'.
Proof.
  intros HL. pose (P := fun n (st : list Mu * nat) => length (fst st) = NMU /\ forall i m, (i < n)%nat -> nth_error (fst st) i = Some m -> random_muon m).
  destruct (foldM_seq_inv (muon_at rnds) P NMU (mu, o)) as ((mu', o') & E & PL & PF).
  - split; [exact HL|]. intros. lia.
  - intros n (mu1, o1) Hn (L1 & F1). cbn [fst] in *. unfold muon_at. rewrite wr_Ok by lia. cbn [bind]. eexists. split; [reflexivity|]. split; cbn [fst]; [rewrite length_upd; exact L1|].
    intros i m Hi Hm. destruct (Nat.eq_dec i n) as [->|Ni].
    + rewrite nth_error_upd_eq in Hm by lia. injection Hm as <-. destruct (pt50_range o1) as (P1 & P2). split; [apply hw_pt50|]. split; [apply hw_err_range; assumption|]. split; apply angle1.
    + rewrite nth_error_upd_ne in Hm by lia. apply (F1 i m); [lia|exact Hm].
  - cbn [fst] in *. exists mu', o'. split; [exact E|]. split; [exact PL|]. rewrite Forall_forall. intros m Hm. apply In_nth_error in Hm as (i & Hi). apply (PF i m); [|exact Hi]. rewrite <- PL. apply nth_error_Some. congruence.
Qed.

Lemma region_ok addf NTRACK NCALO NMU B o a : adds addf -> (0 < NTRACK)%nat -> (1 < NCALO)%nat -> sized NTRACK NCALO NMU a -> 324 <= B -> B + 294 * Z.of_nat NTRACK < 2 ^ 15 ->
  Forall (random_calo B) (rr_calo a) ->
  exists n a' o', random_region addf rnds NTRACK NCALO NMU o a = Ok (a', o') /\ sized NTRACK NCALO NMU a' /\ (NTRACK / 2 <= n < NTRACK)%nat /\
    random_ok (B + 294 * Z.of_nat n) n a' /\
    (forall i t, (i < n)%nat -> nth_error (rr_track a') i = Some t -> exists t0, nth_error (rr_track a) i = Some t0 /\ t_tight t = t_tight t0) /\
    (forall i, (n <= i)%nat -> nth_error (rr_track a') i = nth_error (rr_track a) i) /\
    (forall i t, (i < n)%nat -> (i mod 2 = 0)%nat -> nth_error (rr_track a') i = Some t -> within 8 (t_z0 t - rr_zpv a')) /\
    (forall i c, nth_error (rr_calo a') i = Some c -> exists c0, nth_error (rr_calo a) i = Some c0 /\
      (rc_pt c0 <= rc_pt c <= rc_pt c0 + 294 * Z.of_nat n \/ (i mod 2 = 1)%nat /\ Z.of_nat i < 3 * Z.of_nat NCALO / 4 /\ 4 <= rc_pt c <= 324 + 294 * Z.of_nat n)).
Proof.
  intros HA HT HN (L1 & L2 & L3) HB0 HB HC. unfold random_region, ncharged, nneutral.
  destruct (Nat.eqb_spec NTRACK 0) as [Q1|_]; [lia|]. cbn [bind]. destruct (Z.eqb_spec (3 * Z.of_nat NCALO / 4) 0) as [Q2|_]; [lia|]. cbn [bind].
  set (n := Z.to_nat (Z.rem (rnds o) (Z.of_nat NTRACK) / 2 + Z.of_nat NTRACK / 2)). pose proof (HR o) as Ro.
  assert (Hn : (NTRACK / 2 <= n < NTRACK)%nat).
  { assert (0 <= Z.rem (rnds o) (Z.of_nat NTRACK) < Z.of_nat NTRACK) by (apply Z.rem_bound_pos; lia). unfold n. set (r := Z.rem _ _) in *. clearbody r. pose proof (Nat2Z.inj_div NTRACK 2) as D. change (Z.of_nat 2) with 2 in D. lia. }
  clearbody n. destruct (neutrals_ok NCALO (Z.rem (rnds (o + 1)%nat) (3 * Z.of_nat NCALO / 4)) B HB0 NCALO 1 (o + 2) (rr_calo a) L2 HC eq_refl) as (calo & o1 & E1 & LC & FC & NA). rewrite E1. cbn [bind].
  fold (zpv_of o1). destruct (zpv_range o1) as (Z1 & Z2). rewrite Nat.min_l by lia.
  destruct (foldM_seq_inv (charged addf rnds NCALO (zpv_of o1)) (charged_inv NTRACK NCALO B calo (rr_track a) (zpv_of o1)) n (calo, rr_track a, (o1 + 1)%nat)) as (((calo', track'), o2) & E2 & I1 & I2 & I3 & I4 & I5 & I6).
  - split; [exact LC|]. split; [exact L1|]. split; [eapply Forall_impl; [|exact FC]; intros c; apply calo_more; lia|]. split; [intros; lia|]. split; [reflexivity|]. intros i c Hc. exists c. split; [exact Hc|lia].
  - intros k st Hk HI. apply charged_step; auto; lia.
  - rewrite E2. cbn [bind]. destruct (muons_ok NMU (rr_mu a) o2 L3) as (mu' & o3 & E3 & M1 & M2). rewrite E3. cbn [bind]. do 3 eexists. split; [reflexivity|]. split; [split; [exact I2|split; assumption]|]. split; [exact Hn|].
    split; [|split; [|split; [|split]]].
    + split; [intros i t Hi Ht; apply (I4 i t Hi Ht)|]. split; [exact I3|]. split; [exact M2|]. cbn [rr_zpv]. apply (hw_z0_range 10); try lia; try lra; vm_compute; congruence.
    + intros i t Hi Ht. apply (I4 i t Hi Ht).
    + exact I5.
    + intros i t Hi Hp Ht. exact (proj2 (proj1 (I4 i t Hi Ht)) Hp).
    + intros i c Hc. destruct (I6 i c Hc) as (c1 & G1 & G2). destruct (NA i c1 G1) as [G3|(G3 & G4 & G5)]; [exists c1; split; [exact G3|left; exact G2]|].
      destruct (nth_error_lt (rr_calo a) i) as (c0 & H0); [rewrite L2, <- LC; apply nth_error_Some; congruence|]. exists c0. split; [exact H0|]. right. split; [exact G3|]. split; [|lia].
      eapply Z.lt_le_trans; [exact G4|]. assert (M : 0 < 3 * Z.of_nat NCALO / 4) by lia. pose proof (HR (o + 1)%nat) as R1. pose proof (Z.rem_bound_pos (rnds (o + 1)%nat) (3 * Z.of_nat NCALO / 4) ltac:(lia) M). lia.
Qed.

Lemma regions_ok addf NTRACK NCALO NMU : adds addf -> (0 < NTRACK)%nat -> (1 < NCALO)%nat -> forall n B o a, sized NTRACK NCALO NMU a -> 324 <= B ->
  B + 294 * Z.of_nat NTRACK * Z.of_nat n < 2 ^ 15 -> Forall (random_calo B) (rr_calo a) ->
  exists l, random_regions addf rnds NTRACK NCALO NMU n o a = Ok l /\ length l = n /\
    Forall (fun a' => sized NTRACK NCALO NMU a' /\ random_ok (B + 294 * Z.of_nat NTRACK * Z.of_nat n) (NTRACK / 2) a' /\ nth_error (rr_track a') (NTRACK - 1) = nth_error (rr_track a) (NTRACK - 1)) l.
Proof.
  intros HA HT HN. induction n as [|n IH]; intros B o a HS HB0 HB HC; [exists []; repeat split; constructor|]. cbn [random_regions].
  destruct (region_ok addf NTRACK NCALO NMU B o a HA HT HN HS HB0) as (k & a' & o' & E & S' & K & (R1 & R2 & R3 & R4) & _ & R6 & _); [nia|exact HC|]. rewrite E. cbn [bind].
  destruct (IH (B + 294 * Z.of_nat NTRACK) o' a' S') as (l & EL & LL & FL); [lia|nia|eapply Forall_impl; [|exact R2]; intros c; apply calo_more; lia|]. rewrite EL. cbn [bind].
  exists (a' :: l). split; [reflexivity|]. split; [cbn; lia|]. constructor.
  - split; [exact S'|]. split; [|apply R6; lia]. split; [intros i t Hi; apply R1; lia|]. split; [|split; assumption]. eapply Forall_impl; [|exact R2]. intros c. apply calo_more. nia.
  - eapply Forall_impl; [|exact FL]. intros a2 (S2 & O2 & T2). split; [exact S2|]. split; [|rewrite T2; apply R6; lia].
    replace (B + 294 * Z.of_nat NTRACK * Z.of_nat (S n)) with (B + 294 * Z.of_nat NTRACK + 294 * Z.of_nat NTRACK * Z.of_nat n) by lia. exact O2.
Qed.
End rand.

Lemma first_adds : adds truncate_first.
Proof. intros x q Hx Hq. unfold truncate_first. apply Qle_bool_iff in Hq. rewrite Hq. reflexivity. Qed.
Lemma sum_adds : adds truncate_sum.
Proof.
  intros x q Hx Hq. unfold truncate_sum. cbv zeta. assert (P : (0 <= inject_Z x + q)%Q). { assert (0 <= inject_Z x)%Q by (apply (proj2 (injZ_le 0 x)); exact Hx). lra. }
  pose proof P as P'. apply Qle_bool_iff in P'. rewrite P'. f_equal. destruct (floor_bounds q) as (F1 & F2). destruct (floor_bounds (inject_Z x + q)) as (G1 & G2).
  set (f := Qfloor q) in *. set (g := Qfloor (inject_Z x + q)) in *. assert (g < x + f + 1) by (apply Zlt_of; rewrite !inject_Z_plus; change (inject_Z 1) with 1%Q; lra).
  assert (x + f < g + 1) by (apply Zlt_of; rewrite !inject_Z_plus; change (inject_Z 1) with 1%Q; lra). lia.
Qed.
Lemma cleared_calo B NTRACK NCALO NMU : 0 <= B -> Forall (random_calo B) (rr_calo (cleared NTRACK NCALO NMU)).
Proof. intros H. cbn [cleared rr_calo]. apply Forall_forall. intros c Hc. apply repeat_spec in Hc. subst c. unfold random_calo, within. cbn [rc_pt rc_eta rc_phi]. lia. Qed.
Lemma cleared_sized NTRACK NCALO NMU : sized NTRACK NCALO NMU (cleared NTRACK NCALO NMU).
Proof. unfold sized, cleared. cbn [rr_track rr_calo rr_mu]. rewrite !repeat_length. auto. Qed.

Lemma c71_region addf rnds NTRACK NCALO NMU B o a : adds addf -> rand_ok rnds -> (0 < NTRACK)%nat -> (1 < NCALO)%nat -> sized NTRACK NCALO NMU a -> 324 <= B -> B + 294 * Z.of_nat NTRACK < 2 ^ 15 ->
  Forall (random_calo B) (rr_calo a) ->
  exists n a' o', random_region addf rnds NTRACK NCALO NMU o a = Ok (a', o') /\ sized NTRACK NCALO NMU a' /\ (NTRACK / 2 <= n < NTRACK)%nat /\
    random_ok (B + 294 * Z.of_nat n) n a' /\
    (forall i t, (i < n)%nat -> nth_error (rr_track a') i = Some t -> exists t0, nth_error (rr_track a) i = Some t0 /\ t_tight t = t_tight t0) /\
    (forall i, (n <= i)%nat -> nth_error (rr_track a') i = nth_error (rr_track a) i) /\
    (forall i t, (i < n)%nat -> (i mod 2 = 0)%nat -> nth_error (rr_track a') i = Some t -> within 8 (t_z0 t - rr_zpv a')) /\
    (forall i c, nth_error (rr_calo a') i = Some c -> exists c0, nth_error (rr_calo a) i = Some c0 /\
      (rc_pt c0 <= rc_pt c <= rc_pt c0 + 294 * Z.of_nat n \/ (i mod 2 = 1)%nat /\ Z.of_nat i < 3 * Z.of_nat NCALO / 4 /\ 4 <= rc_pt c <= 324 + 294 * Z.of_nat n)).
Proof. intros HA HR. apply region_ok; assumption. Qed.
Lemma c71_calls addf rnds NTRACK NCALO NMU n : adds addf -> rand_ok rnds -> (0 < NTRACK)%nat -> (1 < NCALO)%nat -> 324 + 294 * Z.of_nat NTRACK * Z.of_nat n < 2 ^ 15 ->
  exists l, random_regions addf rnds NTRACK NCALO NMU n 0 (cleared NTRACK NCALO NMU) = Ok l /\ length l = n /\
    Forall (fun a => sized NTRACK NCALO NMU a /\ random_ok (324 + 294 * Z.of_nat NTRACK * Z.of_nat n) (NTRACK / 2) a /\ nth_error (rr_track a) (NTRACK - 1) = Some tk0) l.
Proof.
  intros HA HR HT HN HB. destruct (regions_ok rnds HR addf NTRACK NCALO NMU HA HT HN n 324 0 (cleared NTRACK NCALO NMU) (cleared_sized _ _ _) ltac:(lia) HB (cleared_calo 324 _ _ _ ltac:(lia))) as (l & E & L & F).
  exists l. split; [exact E|]. split; [exact L|]. eapply Forall_impl; [|exact F]. intros a (S & O & T). split; [exact S|]. split; [exact O|]. rewrite T. cbn [cleared rr_track]. apply nth_error_repeat. lia.
Qed.
Lemma c71_small addf rnds NTRACK NCALO NMU o a : (0 < NTRACK)%nat -> (NCALO <= 1)%nat -> random_region addf rnds NTRACK NCALO NMU o a = UB DivByZero.
Proof.
  intros HT HN. unfold random_region, ncharged, nneutral. destruct (Nat.eqb_spec NTRACK 0); [lia|]. cbn [bind]. destruct (Z.eqb_spec (3 * Z.of_nat NCALO / 4) 0); [reflexivity|lia].
Qed.

(** the clusters of the regions of a run *)
Definition pts (x : res (list rregion)) (k : nat) : option (list Z) := match x with Ok l => match nth_error l k with Some a => Some (map rc_pt (rr_calo a)) | None => None end | UB _ => None end.
Definition below_zero (x : option (list Z)) : bool := match x with Some (p :: _) => p <? 0 | _ => false end.
Lemma wraps addf : addf = truncate_first \/ addf = truncate_sum -> below_zero (pts (random_regions addf (fun _ => 2147483640) 15 15 4 23 0 (cleared 15 15 4)) 22) = true.
Proof. intros [-> | ->]; vm_compute; reflexivity. Qed.
Lemma below x k : below_zero (pts x k) = true -> exists l a c, x = Ok l /\ nth_error l k = Some a /\ nth_error (rr_calo a) 0 = Some c /\ rc_pt c < 0.
Proof.
  unfold pts. destruct x as [l|u]; [|discriminate]. destruct (nth_error l k) as [a|] eqn:E; [|discriminate].
  destruct (rr_calo a) as [|c r] eqn:EC; [discriminate|]. intros W. exists l, a, c. rewrite EC. split; [reflexivity|]. split; [exact E|]. split; [reflexivity|]. apply Z.ltb_lt. exact W.
Qed.
Lemma c71_reused : exists rnds, rand_ok rnds /\ forall addf, addf = truncate_first \/ addf = truncate_sum ->
  exists l a c, random_regions addf rnds 15 15 4 23 0 (cleared 15 15 4) = Ok l /\ nth_error l 22 = Some a /\ nth_error (rr_calo a) 0 = Some c /\ rc_pt c < 0.
Proof.
  exists (fun _ => 2147483640). split; [intros i; cbv beta; lia|]. intros addf HA. exact (below _ 22 (wraps addf HA)).
Qed.
