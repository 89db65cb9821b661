From Coq Require Import QArith Qround Qabs Lqa.
From Verif Require Import Base BaseFacts Fill FloatFacts PuppiTable TableProofs Bhv SpecBhv Vtx SpecVtx VtxProofs PFTestProofs EncProofs VtxTest SpecVtxTest.
Local Open Scope Z_scope.

Lemma frac_range r : 0 <= r <= 2147483647 -> (0 <= frac r)%Q /\ (frac r <= 1)%Q.
Proof.
  intros H. unfold frac. assert (R : (r32 (inject_Z RAND_MAX) == 2147483648 # 1)%Q) by (vm_compute; reflexivity).
  assert (A : (0 <= r32 (inject_Z r))%Q) by (apply r32_pos; apply (proj2 (injZ_le 0 r)); lia).
  assert (B : (r32 (inject_Z r) <= 2147483648 # 1)%Q).
  { eapply Qle_trans; [apply r32_mono, (proj2 (injZ_le r RAND_MAX)); unfold RAND_MAX; lia|]. rewrite R. apply Qle_refl. }
  set (d := r32 (inject_Z RAND_MAX)) in *. split.
  - apply r32_pos. apply Qle_shift_div_l; lra.
  - apply Qle_trans with (r32 1); [|vm_compute; discriminate]. apply r32_mono. apply Qle_shift_div_r; lra.
Qed.
Lemma gaus_range r1 r2 : 0 <= r1 <= 2147483647 -> 0 <= r2 <= 2147483647 -> (0 <= gaus_z r1 r2)%Q /\ (gaus_z r1 r2 <= 8)%Q.
Proof.
  intros H1 H2. destruct (frac_range r1 H1) as (A1 & B1). destruct (frac_range r2 H2) as (A2 & B2). unfold gaus_z.
  assert (A : (0 <= r32 (frac r1 + frac r2))%Q) by (apply r32_pos; lra).
  assert (B : (r32 (frac r1 + frac r2) <= 2)%Q) by (apply Qle_trans with (r32 2); [apply r32_mono; lra|vm_compute; discriminate]).
  set (g := r32 (frac r1 + frac r2)) in *. split; [apply r32_pos; lra|]. apply Qle_trans with (r32 8); [apply r32_mono; lra|vm_compute; discriminate].
Qed.
(** truncation of a number between two integers *)
Lemma to_ap_range n lo hi x : 0 < n -> - 2 ^ (n - 1) <= lo -> hi < 2 ^ (n - 1) -> lo <= 0 -> 0 <= hi -> (inject_Z lo - 1 < x)%Q -> (x < inject_Z hi + 1)%Q -> lo <= to_ap n x <= hi.
Proof.
  intros N L1 L2 L0 H0 HL HH. unfold to_ap. set (t := if Qle_bool 0 x then Qfloor x else - Qfloor (- x)).
  assert (lo <= t <= hi).
  { unfold t. destruct (Qle_bool 0 x) eqn:E.
    - apply Qle_bool_iff in E. destruct (floor_bounds x) as (F1 & F2). split.
      + assert (0 <= Qfloor x); [|lia]. change 0 with (Qfloor 0). apply Qfloor_resp_le. exact E.
      + assert (Qfloor x < hi + 1); [|lia]. apply Zlt_of. rewrite inject_Z_plus. change (inject_Z 1) with 1%Q. lra.
    - assert (E' : (x < 0)%Q). { destruct (Qlt_le_dec x 0) as [l|l]; [exact l|]. apply Qle_bool_iff in l. congruence. }
      destruct (floor_bounds (- x)) as (F1 & F2). split.
      + assert (Qfloor (- x) < - lo + 1); [|lia]. apply Zlt_of. rewrite inject_Z_plus, inject_Z_opp. change (inject_Z 1) with 1%Q. lra.
      + assert (0 <= Qfloor (- x)); [|lia]. change 0 with (Qfloor 0). apply Qfloor_resp_le. lra. }
  rewrite wrapS_id; [assumption|exact N|]. unfold inS. lia.
Qed.
Lemma to_ap_pos n lo hi x : 0 < n -> hi < 2 ^ (n - 1) -> 0 <= lo <= hi -> (inject_Z lo <= x)%Q -> (x < inject_Z hi + 1)%Q -> lo <= to_ap n x <= hi.
Proof.
  intros N L2 LH HL HH. unfold to_ap. assert (E : Qle_bool 0 x = true). { apply Qle_bool_iff. apply Qle_trans with (inject_Z lo); [apply (proj2 (injZ_le 0 lo)); lia|exact HL]. }
  rewrite E. destruct (floor_bounds x) as (F1 & F2).
  assert (lo <= Qfloor x). { assert (lo < Qfloor x + 1); [|lia]. apply Zlt_of. rewrite inject_Z_plus. change (inject_Z 1) with 1%Q. lra. }
  assert (Qfloor x <= hi). { assert (Qfloor x < hi + 1); [|lia]. apply Zlt_of. rewrite inject_Z_plus. change (inject_Z 1) with 1%Q. lra. }
  rewrite wrapS_id; [lia|exact N|]. unfold inS. lia.
Qed.
Lemma pt_range k r : 0 <= r <= 2147483647 -> k = 20%Q \/ k = 100%Q -> let x := r64 (r32 (r32 (k * frac r) + 2) * 4) in (inject_Z 8 <= x)%Q /\ (x < inject_Z 408 + 1)%Q.
Proof.
  intros H K. destruct (frac_range r H) as (A & B). cbv zeta.
  assert (P : (0 <= r32 (k * frac r))%Q) by (apply r32_pos; destruct K as [-> | ->]; lra).
  assert (Q : (r32 (k * frac r) <= 100)%Q) by (apply Qle_trans with (r32 100); [apply r32_mono; destruct K as [-> | ->]; lra|vm_compute; discriminate]).
  set (a := r32 (k * frac r)) in *.
  assert (P1 : (2 <= r32 (a + 2))%Q) by (apply Qle_trans with (r32 2); [vm_compute; discriminate|apply r32_mono; lra]).
  assert (Q1 : (r32 (a + 2) <= 102)%Q) by (apply Qle_trans with (r32 102); [apply r32_mono; lra|vm_compute; discriminate]).
  set (b := r32 (a + 2)) in *. split.
  - apply Qle_trans with (r64 8); [vm_compute; discriminate|apply r64_mono; lra].
  - apply Qle_lt_trans with (r64 408); [apply r64_mono; lra|vm_compute; reflexivity].
Qed.
Definition tk_rg (t : vtrack) : Prop := 8 <= v_pt t <= 408 /\ -7 <= v_z0 t <= 167.
Lemma pu_range rnds o : rand_ok rnds -> tk_rg (pu_track rnds o).
Proof.
  intros H. unfold pu_track. cbv zeta. split; cbn [v_pt v_z0].
  - destruct (pt_range 20 (rnds o) (H o) (or_introl eq_refl)) as (A & B). apply to_ap_pos; [lia|reflexivity|lia|exact A|exact B].
  - destruct (gaus_range (rnds (o + 3)%nat) (rnds (o + 4)%nat) (H _) (H _)) as (A & B). set (g := gaus_z _ _) in *.
    assert (A1 : (0 <= r64 (g * 20))%Q) by (apply r64_pos; lra).
    assert (B1 : (r64 (g * 20) <= 160)%Q) by (apply Qle_trans with (r64 160); [apply r64_mono; lra|vm_compute; discriminate]).
    apply to_ap_range; try lia; cbn; [change (inject_Z (-7)) with (-7 # 1)%Q|change (inject_Z 167) with (167 # 1)%Q]; lra.
Qed.
Lemma ratio r : 0 <= r <= 2147483647 -> 0 <= r / RAND_MAX <= 1.
Proof. unfold RAND_MAX. intros H. lia. Qed.
Lemma pv_range rnds z o : rand_ok rnds -> (0 <= z)%Q -> (z <= 8)%Q -> tk_rg (pv_track rnds z o).
Proof.
  intros H Z0 Z8. unfold pv_track. cbv zeta. split; cbn [v_pt v_z0].
  - destruct (pt_range 100 (rnds o) (H o) (or_intror eq_refl)) as (A & B). apply to_ap_pos; [lia|reflexivity|lia|exact A|exact B].
  - pose proof (ratio _ (H (o + 3)%nat)) as R1. pose proof (ratio _ (H (o + 4)%nat)) as R2. set (k := (rnds (o + 3)%nat / RAND_MAX + rnds (o + 4)%nat / RAND_MAX)%Z) in *.
    assert (K0 : (0 <= inject_Z k)%Q) by (apply (proj2 (injZ_le 0 k)); lia). assert (K2 : (inject_Z k <= 2)%Q) by (apply (proj2 (injZ_le k 2)); lia).
    assert (P0 : (0 <= r32 (r64 ((1 # 2) * inject_Z k)))%Q) by (apply r32_pos, r64_pos; lra).
    assert (P1 : (r32 (r64 ((1 # 2) * inject_Z k)) <= 1)%Q) by (apply Qle_trans with (r32 (r64 1)); [apply r32_mono, r64_mono; lra|vm_compute; discriminate]).
    set (p := r32 (r64 ((1 # 2) * inject_Z k))) in *.
    assert (D0 : (-(1#2) <= r64 (p - (1 # 2)))%Q) by (apply Qle_trans with (r64 (-(1#2))); [vm_compute; discriminate|apply r64_mono; lra]).
    assert (D1 : (r64 (p - (1 # 2)) <= 1 # 2)%Q) by (apply Qle_trans with (r64 (1 # 2)); [apply r64_mono; lra|vm_compute; discriminate]).
    set (d := r64 (p - (1 # 2))) in *.
    assert (S0 : (0 <= zPVSig)%Q) by (vm_compute; discriminate). assert (S1 : (zPVSig <= 71 # 100)%Q) by (vm_compute; discriminate). set (s := zPVSig) in *. clearbody s.
    assert (E0 : (-(36#100) <= r64 (d * s))%Q) by (apply Qle_trans with (r64 (-(71#200))); [vm_compute; discriminate|apply r64_mono; nra]).
    assert (E1 : (r64 (d * s) <= 36 # 100)%Q) by (apply Qle_trans with (r64 (71#200)); [apply r64_mono; nra|vm_compute; discriminate]).
    set (e := r64 (d * s)) in *.
    assert (F0 : (-(37#100) <= r32 (r64 (e + z)))%Q) by (apply Qle_trans with (r32 (r64 (-(36#100)))); [vm_compute; discriminate|apply r32_mono, r64_mono; lra]).
    assert (F1 : (r32 (r64 (e + z)) <= 837 # 100)%Q) by (apply Qle_trans with (r32 (r64 (836#100))); [apply r32_mono, r64_mono; lra|vm_compute; discriminate]).
    set (f := r32 (r64 (e + z))) in *.
    assert (G0 : (-(75#10) <= r64 (f * 20))%Q) by (apply Qle_trans with (r64 (-(74#10))); [vm_compute; discriminate|apply r64_mono; lra]).
    assert (G1 : (r64 (f * 20) <= 1675 # 10)%Q) by (apply Qle_trans with (r64 (1674#10)); [apply r64_mono; lra|vm_compute; discriminate]).
    apply to_ap_range; try lia; cbn; [change (inject_Z (-7)) with (-7 # 1)%Q|change (inject_Z 167) with (167 # 1)%Q]; lra.
Qed.
(** ** Where the tracks are *)
Lemma err_gen p emin x M : 24 <= p -> emin <= -149 -> (1 <= M)%Q -> (- M <= x)%Q -> (x <= M)%Q -> (x - M * (1 # 10000000) <= rnd p emin x)%Q /\ (rnd p emin x <= x + M * (1 # 10000000))%Q.
Proof.
  intros P E HM L U. pose proof (rnd_error p emin x) as R.
  assert (A : (Qabs x <= M)%Q) by (apply Qabs_Qle_condition; lra).
  assert (B : (p2 (- p) <= p2 (-24))%Q) by (apply p2_le; lia). assert (C : (p2 (emin - 1) <= p2 (-150))%Q) by (apply p2_le; lia).
  assert (B' : (p2 (-24) <= 6 # 100000000)%Q) by (vm_compute; discriminate). assert (C' : (p2 (-150) <= 1 # 100000000)%Q) by (vm_compute; discriminate).
  pose proof (p2_pos (- p)) as PP. pose proof (Qabs_nonneg x) as N.
  assert (R' : (Qabs (rnd p emin x - x) <= M * (1 # 10000000))%Q).
  { eapply Qle_trans; [exact R|]. assert ((Qabs x * p2 (- p) <= M * (6 # 100000000))%Q) by nra. lra. }
  apply Qabs_Qle_condition in R'. lra.
Qed.
Lemma err32 x M : (1 <= M)%Q -> (- M <= x)%Q -> (x <= M)%Q -> (x - M * (1 # 10000000) <= r32 x)%Q /\ (r32 x <= x + M * (1 # 10000000))%Q.
Proof. apply err_gen; lia. Qed.
Lemma err64 x M : (1 <= M)%Q -> (- M <= x)%Q -> (x <= M)%Q -> (x - M * (1 # 10000000) <= r64 x)%Q /\ (r64 x <= x + M * (1 # 10000000))%Q.
Proof. apply err_gen; lia. Qed.
Lemma to_ap_trunc n e x y : 0 < n -> (x - e <= y)%Q -> (y <= x + e)%Q -> (- inject_Z (2 ^ (n - 1)) <= y)%Q -> (y < inject_Z (2 ^ (n - 1)))%Q -> truncated e x (to_ap n y).
Proof.
  intros N A B L U. exists y. split; [exact A|]. split; [exact B|]. unfold to_ap.
  set (t := if Qle_bool 0 y then Qfloor y else - Qfloor (- y)).
  assert (T : ((0 <= y)%Q -> (inject_Z t <= y)%Q /\ (y < inject_Z t + 1)%Q) /\ ((y < 0)%Q -> (inject_Z t - 1 < y)%Q /\ (y <= inject_Z t)%Q)).
  { unfold t. destruct (Qle_bool 0 y) eqn:E.
    - apply Qle_bool_iff in E. destruct (floor_bounds y). split; [auto|intros; lra].
    - assert (E' : (y < 0)%Q). { destruct (Qlt_le_dec y 0) as [l|l]; [exact l|]. apply Qle_bool_iff in l. congruence. }
      destruct (floor_bounds (- y)). split; [intros; lra|]. intros _. rewrite inject_Z_opp. lra. }
  rewrite wrapS_id; [exact T|exact N|]. unfold inS. destruct T as (T1 & T2). split.
  - destruct (Qlt_le_dec y 0) as [l|l].
    + destruct (T2 l) as (_ & T4). apply Zle_of. rewrite inject_Z_opp. lra.
    + destruct (T1 l) as (T3 & T4). assert (0 < t + 1) by (apply Zlt_of; rewrite inject_Z_plus; change (inject_Z 1) with 1%Q; change (inject_Z 0) with 0%Q; lra). pose proof (Z.pow_nonneg 2 (n - 1)). lia.
  - destruct (Qlt_le_dec y 0) as [l|l].
    + destruct (T2 l) as (T3 & _). assert (t - 1 < 0) by (apply Zlt_of; unfold Z.sub; rewrite inject_Z_plus; change (inject_Z (-(1))) with (-(1))%Q; change (inject_Z 0) with 0%Q; lra). pose proof (Z.pow_pos_nonneg 2 (n - 1)). lia.
    + destruct (T1 l) as (T3 & _). assert (t < 2 ^ (n - 1)); [|lia]. apply Zlt_of. lra.
Qed.
Lemma unif_range r : 0 <= r <= 2147483647 -> (0 <= unif r)%Q /\ (unif r <= 1)%Q.
Proof.
  intros H. assert ((0 <= inject_Z r)%Q) by (apply (proj2 (injZ_le 0 r)); lia). assert ((inject_Z r <= 2147483647)%Q) by (apply (proj2 (injZ_le r 2147483647)); lia).
  unfold unif. split; [apply Qle_shift_div_l; lra|apply Qle_shift_div_r; lra].
Qed.
Lemma frac_near r : 0 <= r <= 2147483647 -> (unif r - (1 # 1000000) <= frac r)%Q /\ (frac r <= unif r + (1 # 1000000))%Q.
Proof.
  intros H. destruct (unif_range r H) as (U0 & U1). unfold frac. assert (R : (r32 (inject_Z RAND_MAX) == 2147483648 # 1)%Q) by (vm_compute; reflexivity).
  assert (E : (inject_Z r == 2147483647 * unif r)%Q) by (unfold unif; field). set (u := unif r) in *. clearbody u.
  destruct (err32 (inject_Z r) 2147483647) as (A & B); [lra|lra|lra|]. set (n := r32 (inject_Z r)) in *. clearbody n.
  assert (Q0 : (n / r32 (inject_Z RAND_MAX) == n / (2147483648 # 1))%Q) by (rewrite R; reflexivity).
  set (q := (n / r32 (inject_Z RAND_MAX))%Q) in *. clearbody q.
  assert (Q1 : (q * (2147483648 # 1) == n)%Q) by (rewrite Q0; field).
  destruct (err32 q 2) as (C & D); lra.
Qed.
Lemma gaus_near r1 r2 : 0 <= r1 <= 2147483647 -> 0 <= r2 <= 2147483647 -> (4 * (unif r1 + unif r2) - (1 # 50000) <= gaus_z r1 r2)%Q /\ (gaus_z r1 r2 <= 4 * (unif r1 + unif r2) + (1 # 50000))%Q.
Proof.
  intros H1 H2. destruct (frac_near r1 H1) as (A1 & B1). destruct (frac_near r2 H2) as (A2 & B2). destruct (unif_range r1 H1). destruct (unif_range r2 H2). unfold gaus_z.
  destruct (err32 (frac r1 + frac r2) 3) as (C & D); [lra|lra|lra|]. set (g := r32 (frac r1 + frac r2)) in *. destruct (err32 (g * 4) 12) as (E & F); lra.
Qed.
Lemma pt_near k K r : 0 <= r <= 2147483647 -> (k == K)%Q -> (0 <= K)%Q -> (K <= 100)%Q -> truncated (1 # 1000) (8 + 4 * K * unif r) (to_ap 16 (r64 (r32 (r32 (k * frac r) + 2) * 4))).
Proof.
  intros H EK K0 K1. destruct (frac_near r H) as (A & B). destruct (unif_range r H) as (U0 & U1). set (f := frac r) in *. set (u := unif r) in *. clearbody f u.
  assert (X1 : (K * u - (1 # 10000) <= k * f)%Q) by (rewrite EK; nra). assert (X2 : (k * f <= K * u + (1 # 10000))%Q) by (rewrite EK; nra).
  assert (Y0 : (0 <= K * u)%Q) by nra. assert (Y1 : (K * u <= 100)%Q) by nra. set (x := (k * f)%Q) in *. assert (EY : (4 * K * u == 4 * (K * u))%Q) by ring. set (y := (K * u)%Q) in *. clearbody x y.
  destruct (err32 x 101) as (C & D); [lra|lra|lra|]. set (a := r32 x) in *. destruct (err32 (a + 2) 104) as (E & F); [lra|lra|lra|]. set (b := r32 (a + 2)) in *.
  destruct (err64 (b * 4) 420) as (G & I); [lra|lra|lra|]. apply to_ap_trunc; [lia| | | |]; try (change (inject_Z (2 ^ (16 - 1))) with 32768%Q); lra.
Qed.
Lemma pu_like rnds o : rand_ok rnds -> pileup_like rnds o (pu_track rnds o).
Proof.
  intros H. unfold pileup_like, pu_track. cbv zeta. cbn [v_pt v_z0]. split.
  - pose proof (pt_near 20 20 (rnds o) (H o) (Qeq_refl _)) as P. apply P; lra.
  - destruct (gaus_near _ _ (H (o + 3)%nat) (H (o + 4)%nat)) as (A & B). destruct (unif_range _ (H (o + 3)%nat)). destruct (unif_range _ (H (o + 4)%nat)).
    set (g := gaus_z _ _) in *. set (u := unif (rnds (o + 3)%nat)) in *. set (v := unif (rnds (o + 4)%nat)) in *. clearbody g u v.
    destruct (err64 (g * 20) 200) as (C & D); [lra|lra|lra|]. apply to_ap_trunc; [lia| | | |]; try (change (inject_Z (2 ^ (10 - 1))) with 512%Q); lra.
Qed.
Lemma pv_like rnds z o : rand_ok rnds -> (0 <= z)%Q -> (z <= 8)%Q -> vertex_like rnds z o (pv_track rnds z o).
Proof.
  intros H Z0 Z8. unfold vertex_like, pv_track. cbv zeta. cbn [v_pt v_z0]. split.
  - pose proof (pt_near 100 100 (rnds o) (H o) (Qeq_refl _)) as P. apply P; lra.
  - intros N1 N2. pose proof (H (o + 3)%nat). pose proof (H (o + 4)%nat). replace (rnds (o + 3)%nat / RAND_MAX) with 0 by (symmetry; apply Z.div_small; unfold RAND_MAX; lia). replace (rnds (o + 4)%nat / RAND_MAX) with 0 by (symmetry; apply Z.div_small; unfold RAND_MAX; lia).
    assert (D : (r64 (r64 (r32 (r64 ((1 # 2) * inject_Z (0 + 0))) - (1 # 2)) * zPVSig) <= -(35 # 100) + (1 # 1000000))%Q) by (vm_compute; discriminate).
    assert (D' : (-(35 # 100) - (1 # 1000000) <= r64 (r64 (r32 (r64 ((1 # 2) * inject_Z (0 + 0))) - (1 # 2)) * zPVSig))%Q) by (vm_compute; discriminate).
    set (d := r64 (r64 (r32 (r64 ((1 # 2) * inject_Z (0 + 0))) - (1 # 2)) * zPVSig)) in *. clearbody d.
    destruct (err64 (d + z) 9) as (C & E); [lra|lra|lra|]. set (a := r64 (d + z)) in *. destruct (err32 a 10) as (F & G); [lra|lra|lra|]. set (b := r32 a) in *.
    destruct (err64 (b * 20) 220) as (I & J); [lra|lra|lra|]. apply to_ap_trunc; [lia| | | |]; try (change (inject_Z (2 ^ (10 - 1))) with 512%Q); lra.
Qed.
(** ** The tracks of a test *)
Lemma fill_ok (f : nat -> vtrack) (P : vtrack -> Prop) k n l : (k + n <= length l)%nat -> Forall P l -> (forall i, P (f i)) ->
  exists l', foldM (fun t i => wr t i (f i)) (seq k n) l = Ok l' /\ length l' = length l /\ Forall P l' /\
    (forall i, (k <= i < k + n)%nat -> nth_error l' i = Some (f i)) /\ (forall i, (i < k \/ k + n <= i)%nat -> nth_error l' i = nth_error l i).
Proof.
  revert k l. induction n as [|n IH]; intros k l L HP Hf; [exists l; repeat split; auto; lia|]. cbn [seq foldM].
  unfold wr at 1. destruct (Nat.ltb_spec k (length l)); [|lia]. cbn [bind].
  destruct (IH (S k) (upd l k (f k))) as (l' & E & L' & P' & I1 & I2); [rewrite length_upd; lia|apply Forall_upd; auto|exact Hf|].
  rewrite length_upd in L'. exists l'. split; [exact E|]. split; [exact L'|]. split; [exact P'|]. split.
  - intros i Hi. destruct (Nat.eq_dec i k) as [->|N]; [|apply I1; lia]. rewrite I2 by lia. apply nth_error_upd_eq. assumption.
  - intros i Hi. rewrite I2 by lia. apply nth_error_upd_ne. lia.
Qed.
Definition track_ok (t : vtrack) : Prop := tk_rg t \/ t = mkVtrack 0 0.
Lemma make_ok rnds o : rand_ok rnds -> exists t z o', make_tracks rnds o = Ok (t, z, o') /\ length t = 64%nat /\ Forall track_ok t /\ (exists t0, nth_error t 0 = Some t0 /\ tk_rg t0) /\
  (0 <= z)%Q /\ (z <= 8)%Q /\ exists npu npv, (24 <= npu <= 48)%nat /\ (7 <= npv <= 14)%nat /\ Z.of_nat (npu + npv) = rnds (o + 2)%nat mod 49 / 2 + 24 + rnds (o + 3)%nat mod 15 / 2 + 7 /\ o' = (o + 4 + 5 * (npu + npv))%nat /\
    (forall i u, nth_error t i = Some u -> if (i <? npu + npv)%nat then tk_rg u else u = mkVtrack 0 0) /\ z = gaus_z (rnds o) (rnds (o + 1)%nat) /\
    Z.of_nat npu = rnds (o + 2)%nat mod 49 / 2 + 24 /\ Z.of_nat npv = rnds (o + 3)%nat mod 15 / 2 + 7 /\
    (forall i u, nth_error t i = Some u -> (i < npu)%nat -> pileup_like rnds (o + 4 + 5 * i) u) /\ (forall i u, nth_error t i = Some u -> (npu <= i < npu + npv)%nat -> vertex_like rnds z (o + 4 + 5 * i) u).
Proof.
  intros H. unfold make_tracks. cbv zeta. set (z := gaus_z _ _).
  assert (U : (24 <= npu_of (rnds (o + 2)%nat) <= 48)%nat) by (unfold npu_of, nSubSector, nSubPV; pose proof (H (o + 2)%nat); lia).
  assert (V : (7 <= npv_of (rnds (o + 3)%nat) <= 14)%nat) by (unfold npv_of, nSubPV; pose proof (H (o + 3)%nat); lia).
  set (npu := npu_of _) in *. set (npv := npv_of _) in *.
  destruct (gaus_range (rnds o) (rnds (o + 1)%nat) (H _) (H _)) as (Z0 & Z8). fold z in Z0, Z8.
  destruct (fill_ok (fun i => pu_track rnds (o + 4 + 5 * i)%nat) track_ok 0 npu (repeat (mkVtrack 0 0) nSubSector)) as (t1 & E1 & L1 & P1 & I1 & I1').
  - rewrite repeat_length. unfold nSubSector. lia.
  - apply Forall_forall. intros t Ht. apply repeat_spec in Ht. right. exact Ht.
  - intros i. left. apply pu_range. exact H.
  - rewrite repeat_length in L1. rewrite E1. cbn [bind].
    destruct (fill_ok (fun i => pv_track rnds z (o + 4 + 5 * i)%nat) track_ok npu npv t1) as (t2 & E2 & L2 & P2 & I3 & I2).
    + rewrite L1. unfold nSubSector. lia.
    + exact P1.
    + intros i. left. apply pv_range; assumption.
    + rewrite E2. cbn [bind]. eexists _, _, _. split; [reflexivity|]. split; [rewrite L2, L1; reflexivity|]. split; [exact P2|].
      split; [eexists; split; [rewrite I2 by lia; rewrite I1 by lia; reflexivity|apply pu_range; exact H]|].
      split; [exact Z0|]. split; [exact Z8|]. exists npu, npv. split; [exact U|]. split; [exact V|]. split; [unfold npu, npv, npu_of, npv_of, nSubSector, nSubPV; pose proof (H (o + 2)%nat); pose proof (H (o + 3)%nat); lia|]. split; [reflexivity|].
      split; [|split; [reflexivity|]; split; [unfold npu, npu_of, nSubSector, nSubPV; pose proof (H (o + 2)%nat); lia|]; split; [unfold npv, npv_of, nSubPV; pose proof (H (o + 3)%nat); lia|]; split].
      * intros i u Hu. destruct (Nat.ltb_spec i (npu + npv)) as [Hi|Hi].
        -- destruct (Nat.lt_ge_cases i npu).
           ++ rewrite I2, I1 in Hu by lia. injection Hu as <-. apply pu_range. exact H.
           ++ rewrite I3 in Hu by lia. injection Hu as <-. apply pv_range; assumption.
        -- rewrite I2, I1' in Hu by lia. apply nth_error_In, repeat_spec in Hu. exact Hu.
      * intros i u Hu Hi. rewrite I2, I1 in Hu by lia. injection Hu as <-. apply pu_like. exact H.
      * intros i u Hu Hi. rewrite I3 in Hu by lia. injection Hu as <-. apply pv_like; assumption.
Qed.

(** ** One test *)
Lemma track_slice z0bin t : bins_ok z0bin -> track_ok t -> z0bin (v_z0 t) = slice (v_z0 t) /\ 0 <= slice (v_z0 t) <= 8.
Proof.
  intros HB H. assert (R : -7 <= v_z0 t <= 167) by (destruct H as [(_ & H)| ->]; [exact H|cbn; lia]). rewrite HB by exact R. unfold slice.
  destruct (Z.ltb_spec (v_z0 t) (-359)); [lia|]. destruct (Z.ltb_spec (v_z0 t) 20); [lia|]. destruct (Z.ltb_spec (v_z0 t) 320); lia.
Qed.
Lemma sumZ_in l x : (forall y, In y l -> 0 <= y) -> In x l -> x <= sumZ l.
Proof.
  induction l as [|y l IH]; intros H Hx; [destruct Hx|]. change (sumZ (y :: l)) with (y + sumZ l). assert (0 <= y) by (apply H; left; reflexivity).
  assert (0 <= sumZ l) by (apply sumZ_nonneg; intros w Hw; apply H; right; exact Hw). destruct Hx as [->|Hx]; [lia|]. assert (x <= sumZ l) by (apply IH; [intros w Hw; apply H; right; exact Hw|exact Hx]). lia.
Qed.
Lemma test_ok z0bin conv t hv rv : bins_ok z0bin -> centres_ok conv -> length t = 64%nat -> Forall track_ok t -> (exists t0, nth_error t 0 = Some t0 /\ tk_rg t0) ->
  exists b s h r, first_max (slice_sum slice t) NVTXBINS b s /\ 8 <= s /\ (b <= 8)%nat /\ simple_vtx_hwopt z0bin conv 6 t hv = Ok h /\ simple_vtx_ref t rv = Ok r /\
    x_z0 h = 20 * Z.of_nat b + 10 /\ x_z0 r = 20 * Z.of_nat b + 10 /\ x_sum h = s /\ x_sum r = s.
Proof.
  intros HB HC L HT (t0 & N0 & P0 & Z0).
  assert (IN : In t0 t) by (apply nth_error_In in N0; exact N0). pose proof (proj1 (Forall_forall _ _) HT) as HT'.
  assert (PT : forall u, In u t -> 0 <= v_pt u <= 408) by (intros u Hu; destruct (HT' u Hu) as [(P & _)| ->]; cbn; lia).
  assert (EQ : forall b, slice_sum z0bin t b = slice_sum slice t b).
  { intros b. unfold slice_sum, in_slice. do 2 f_equal. apply filter_ext_in. intros u Hu. destruct (track_slice z0bin u HB (HT' u Hu)) as (-> & _). reflexivity. }
  assert (B0 : 8 <= slice_sum slice t (Z.to_nat (slice (v_z0 t0)))).
  { destruct (track_slice z0bin t0 HB (HT' t0 IN)) as (_ & R). apply Z.le_trans with (Z.min 200 (v_pt t0)); [lia|]. unfold slice_sum. apply sumZ_in.
    - intros y Hy. apply in_map_iff in Hy as (u & <- & Hu). apply filter_In in Hu as (Hu & _). specialize (PT u Hu). lia.
    - apply in_map_iff. exists t0. split; [reflexivity|]. apply filter_In. split; [exact IN|]. lia. }
  assert (LT : (Z.to_nat (slice (v_z0 t0)) < NVTXBINS)%nat) by (destruct (track_slice z0bin t0 HB (HT' t0 IN)) as (_ & R); unfold NVTXBINS; lia).
  destruct (c34 z0bin conv 6 t hv) as [(Z & _)|(b & s & FM & S0 & EH)].
  - apply Forall_forall. intros u Hu. destruct (track_slice z0bin u HB (HT' u Hu)) as (E & R). unfold zok, NVTXBINS. rewrite E. lia.
  - rewrite L. reflexivity.
  - lia.
  - apply Forall_forall. intros u Hu. specialize (PT u Hu). lia.
  - specialize (Z _ LT). rewrite EQ in Z. lia.
  - destruct (c32 t rv) as [(Z & _)|(b' & s' & FM' & S0' & ER)].
    + apply Forall_forall. intros u Hu. specialize (PT u Hu). destruct (HT' u Hu) as [(_ & R)| ->]; unfold vt_ok, bad_z0, inS; cbn [v_z0 v_pt] in *; change (2 ^ (10 - 1)) with 512; lia.
    + rewrite L. lia.
    + specialize (Z _ LT). lia.
    + assert (FM2 : first_max (slice_sum slice t) NVTXBINS b s) by (destruct FM; constructor; intros; rewrite <- ?EQ; auto).
      destruct (BhvProofs.first_max_unique _ _ _ _ _ _ FM' FM2) as [-> ->].
      exists b, s. eexists _, _. split; [exact FM2|]. assert (S8 : 8 <= s) by (pose proof (fm_max _ _ _ _ FM2 _ LT); lia). split; [exact S8|].
      assert (B8 : (b <= 8)%nat).
      { destruct (Nat.le_gt_cases b 8) as [?|G]; [assumption|]. exfalso. pose proof (fm_val _ _ _ _ FM2) as V. unfold slice_sum, in_slice in V. rewrite (filter_ext_in _ (fun _ => false)) in V.
        - assert (X : forall l : list vtrack, filter (fun _ => false) l = []) by (intros l; induction l; cbn; auto). rewrite X in V. cbn in V. lia.
        - intros u Hu. destruct (track_slice z0bin u HB (HT' u Hu)) as (_ & R). apply Z.eqb_neq. lia. }
      split; [exact B8|]. split; [exact EH|]. split; [exact ER|]. cbn [x_z0 x_sum]. split; [|auto]. rewrite HC by (pose proof (fm_lt _ _ _ _ FM2); unfold NVTXBINS in *; lia).
      apply wrapS_id; [lia|]. unfold inS. change (2 ^ (10 - 1)) with 512. lia.
Qed.

Definition line_of (rnds : nat -> Z) (i : nat) (line : Z * Z * Q) : Prop :=
  exists t z o' b s, make_tracks rnds (calls_before rnds i) = Ok (t, z, o') /\ first_max (slice_sum slice t) NVTXBINS b s /\ (b <= 8)%nat /\
    line = (20 * Z.of_nat b + 10, 20 * Z.of_nat b + 10, r64 (z * 20)) /\ (0 <= r64 (z * 20))%Q /\ (r64 (z * 20) <= 160)%Q.
Lemma run_ok z0bin conv rnds : rand_ok rnds -> bins_ok z0bin -> centres_ok conv -> forall n k test hv rv out,
  exists hv' rv' new, foldM (vt_step z0bin conv rnds) (seq test n) (calls_before rnds k, hv, rv, out) = Ok (calls_before rnds (k + n), hv', rv', out ++ new) /\ length new = n /\
    forall i line, nth_error new i = Some line -> line_of rnds (k + i) line.
Proof.
  intros HR HB HC. induction n as [|n IH]; intros k test hv rv out.
  - exists hv, rv, []. rewrite Nat.add_0_r, app_nil_r. split; [reflexivity|]. split; [reflexivity|]. intros [|i] ?; discriminate.
  - cbn [seq foldM]. destruct (make_ok rnds (calls_before rnds k) HR) as (t & z & o' & EM & L & HT & H0 & Z0 & Z8 & npu & npv & _ & _ & SN & EO & _ & _).
    destruct (test_ok z0bin conv t hv rv HB HC L HT H0) as (b & s & h & r & FM & S8 & B8 & EH & ER & X1 & X2 & _ & _).
    unfold vt_step at 1. rewrite EM. cbn [bind]. rewrite EH. cbn [bind]. rewrite ER. cbn [bind].
    assert (CO : o' = calls_before rnds (S k)). { rewrite EO. cbn [calls_before]. rewrite <- SN, Nat2Z.id. reflexivity. }
    rewrite CO. destruct (IH (S k) (S test) h r (out ++ [(x_z0 h, x_z0 r, r64 (z * 20))])) as (hv' & rv' & new & E & LN & HN).
    exists hv', rv', ((x_z0 h, x_z0 r, r64 (z * 20)) :: new). rewrite E. split; [rewrite <- app_assoc; do 4 f_equal; f_equal; lia|]. split; [cbn; congruence|].
    intros [|i] line EL; cbn [nth_error] in EL.
    + injection EL as <-. rewrite Nat.add_0_r. exists t, z, o', b, s. split; [exact EM|]. split; [exact FM|]. split; [exact B8|]. split; [rewrite X1, X2; reflexivity|].
      split; [apply r64_pos; lra|]. apply Qle_trans with (r64 160); [apply r64_mono; lra|vm_compute; discriminate].
    + replace (k + S i)%nat with (S k + i)%nat by lia. apply HN. exact EL.
Qed.
Lemma c69 z0bin conv rnds hv rv : rand_ok rnds -> bins_ok z0bin -> centres_ok conv ->
  exists out, vt_main z0bin conv rnds hv rv = Ok (0, out) /\ length out = 50%nat /\ forall i line, nth_error out i = Some line ->
    exists t z o' b s, make_tracks rnds (calls_before rnds i) = Ok (t, z, o') /\ first_max (slice_sum slice t) NVTXBINS b s /\ (b <= 8)%nat /\
      line = (20 * Z.of_nat b + 10, 20 * Z.of_nat b + 10, r64 (z * 20)) /\ (0 <= r64 (z * 20))%Q /\ (r64 (z * 20) <= 160)%Q.
Proof.
  intros HR HB HC. destruct (run_ok z0bin conv rnds HR HB HC VT_NTEST 0 1 hv rv []) as (hv' & rv' & new & E & L & H). unfold vt_main. cbn [calls_before] in E. rewrite E. cbn [bind app].
  exists new. split; [reflexivity|]. split; [exact L|]. intros i line Hi. exact (H i line Hi).
Qed.
Lemma c69_tracks rnds o : rand_ok rnds -> exists t z o' npu npv, make_tracks rnds o = Ok (t, z, o') /\ length t = 64%nat /\ (24 <= npu <= 48)%nat /\ (7 <= npv <= 14)%nat /\
  (forall i u, nth_error t i = Some u -> if (i <? npu + npv)%nat then 8 <= v_pt u <= 408 /\ -7 <= v_z0 u <= 167 else u = mkVtrack 0 0) /\
  Z.of_nat npu = rnds (o + 2)%nat mod 49 / 2 + 24 /\ Z.of_nat npv = rnds (o + 3)%nat mod 15 / 2 + 7 /\
  (4 * (unif (rnds o) + unif (rnds (o + 1)%nat)) - (1 # 1000) <= z)%Q /\ (z <= 4 * (unif (rnds o) + unif (rnds (o + 1)%nat)) + (1 # 1000))%Q /\
  (forall i u, nth_error t i = Some u -> (i < npu)%nat -> pileup_like rnds (o + 4 + 5 * i) u) /\ (forall i u, nth_error t i = Some u -> (npu <= i < npu + npv)%nat -> vertex_like rnds z (o + 4 + 5 * i) u).
Proof.
  intros H. destruct (make_ok rnds o H) as (t & z & o' & EM & L & _ & _ & _ & _ & npu & npv & U & V & _ & _ & HT & EZ & NU & NV & HU & HV). exists t, z, o', npu, npv. repeat (split; [assumption|]).
  destruct (gaus_near _ _ (H o) (H (o + 1)%nat)) as (A & B). rewrite <- EZ in A, B. split; [lra|]. split; [lra|]. split; assumption.
Qed.
