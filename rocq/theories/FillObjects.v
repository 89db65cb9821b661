(** Filling whole objects, angles, order. *)
From Coq Require Import QArith Qpower Qround Qabs Lqa.
From Verif Require Import Base BaseFacts Data Discrete DiscreteIO SpecIO IOProofs Fill SpecFill FloatFacts FillProofs.
Local Open Scope Z_scope.

Lemma stores_of f lo hi c x : Z.abs lo <= 65536 -> Z.abs hi <= 65536 -> (forall n, f n = true <-> lo <= n <= hi) -> stores (x * c) (to_int f (fmul (Fin x) c)) lo hi.
Proof.
  intros Hlo Hhi Hf. split; [|split].
  - intros n. exact (scaled_close f lo hi c x n Hlo Hhi Hf).
  - exact (scaled_inside f lo hi c x Hlo Hhi Hf).
  - exact (scaled_outside f lo hi c x Hlo Hhi Hf).
Qed.
Lemma pt_stores x : stores (x * (4 # 1)) (fill_pt (Fin x)) (-32768) 32767.
Proof. apply (stores_of is_i16 _ _ PT_SCALE); [lia|lia|exact i16_range]. Qed.
Lemma eta_stores x : stores (x * ETAPHI_SCALE) (fill_eta (Fin x)) (-32768) 32767.
Proof. apply (stores_of is_i16 _ _ ETAPHI_SCALE); [lia|lia|exact i16_range]. Qed.
Lemma dz_stores x : stores (x * (20 # 1)) (round_i16 (fmul (Fin x) Z0_SCALE)) (-32768) 32767.
Proof. apply (stores_of is_i16 _ _ Z0_SCALE); [lia|lia|exact i16_range]. Qed.
Lemma puppiw_stores x : stores (x * (100 # 1)) (set_puppiw (Fin x)) 0 65535.
Proof. apply (stores_of is_u16 _ _ PUPPI_SCALE); [lia|lia|exact u16_range]. Qed.

(** ** the angle unit *)
Lemma etaphi_unit pi : (314159265 # 100000000 <= pi)%Q -> (pi <= 314159266 # 100000000)%Q -> (Qabs (ETAPHI_SCALE * pi - (720 # 1)) <= 1 # 100000)%Q.
Proof. intros A B. rewrite etaphi_value. apply Qabs_Qle_condition. lra. Qed.

(** ** Monotone *)
Lemma pt_mono x y n m : fill_pt (Fin x) = Ok n -> fill_pt (Fin y) = Ok m -> (x <= y)%Q -> n <= m.
Proof. apply scaled_mono. reflexivity. Qed.
Lemma eta_mono x y n m : fill_eta (Fin x) = Ok n -> fill_eta (Fin y) = Ok m -> (x <= y)%Q -> n <= m.
Proof. apply scaled_mono. reflexivity. Qed.
Lemma before_larger x y n m : fill_pt (Fin x) = Ok n -> fill_pt (Fin y) = Ok m -> before_pt n m = true -> (y < x)%Q.
Proof.
  intros A B C. unfold before_pt in C. apply Z.gtb_lt in C. destruct (Qlt_le_dec y x) as [L|L]; [exact L|]. pose proof (pt_mono _ _ _ _ A B L). lia.
Qed.

(** ** phi *)
Lemma rem_facts n : Z.abs (Z.rem n 1440) < 1440 /\ (exists k, Z.rem n 1440 = n + 1440 * k) /\ (0 <= n -> 0 <= Z.rem n 1440) /\ (n <= 0 -> Z.rem n 1440 <= 0).
Proof.
  split; [|split; [|split]].
  - pose proof (Z.rem_bound_abs n 1440 ltac:(lia)). lia.
  - exists (- Z.quot n 1440). pose proof (Z.quot_rem' n 1440). lia.
  - intros H. apply Z.rem_nonneg; lia.
  - intros H. apply Z.rem_nonpos; lia.
Qed.
Lemma zero_eta : fill_eta (Fin 0) = Ok 0. Proof. vm_compute. reflexivity. Qed.
Lemma phi_stored x h : fill_phi (Fin x) = Ok h -> Z.abs h < 1440 /\ (exists k, (Qabs (inject_Z (h + 1440 * k) - x * ETAPHI_SCALE) <= (1 # 2) + (1 # 200))%Q) /\ ((0 <= x)%Q -> 0 <= h) /\ ((x <= 0)%Q -> h <= 0).
Proof.
  intros E. destruct (phi_ok _ _ E) as (n & En & ->). destruct (rem_facts n) as (A & (k & K) & P & N). split; [exact A|]. split; [|split].
  - exists (- k). replace (Z.rem n 1440 + 1440 * - k) with n by lia. apply (eta_stores x). exact En.
  - intros H. apply P. eapply eta_mono; [exact zero_eta|exact En|exact H].
  - intros H. apply N. eapply eta_mono; [exact En|exact zero_eta|exact H].
Qed.
(** angles of up to half a turn, and up to almost a whole one *)
Lemma close_int (y : Q) (B n : Z) : (Qabs (inject_Z n - y) <= (1 # 2) + (1 # 200))%Q -> (Qabs y <= inject_Z B + (49 # 100))%Q -> Z.abs n <= B.
Proof.
  intros C H. apply Qabs_Qle_condition in C, H.
  assert (U : (inject_Z n < inject_Z (B + 1))%Q) by (rewrite inject_Z_plus; change (inject_Z 1) with 1%Q; lra). assert (L : (inject_Z (- (B + 1)) < inject_Z n)%Q) by (rewrite inject_Z_opp, inject_Z_plus; change (inject_Z 1) with 1%Q; lra).
  apply Zlt_of in U, L. lia.
Qed.
Lemma phi_half_turn x h : fill_phi (Fin x) = Ok h -> (Qabs x <= 314160 # 100000)%Q -> Z.abs h <= 720 /\ (Qabs (inject_Z h - x * ETAPHI_SCALE) <= (1 # 2) + (1 # 200))%Q.
Proof.
  intros E B. destruct (phi_ok _ _ E) as (n & En & ->). pose proof (eta_stores x) as (S & _). destruct (S n En) as (_ & C).
  assert (K : Z.abs n <= 720). { eapply close_int; [exact C|]. rewrite etaphi_value, Qabs_Qmult. change (Qabs (15019745 # 65536)) with (15019745 # 65536)%Q. change (inject_Z 720) with (720 # 1)%Q. pose proof (Qabs_nonneg x). lra. }
  rewrite (proj2 (Z.rem_small_iff n 1440 ltac:(lia))) by lia. auto.
Qed.
Lemma phi_defined x : (Qabs x <= 142 # 1)%Q -> exists h, fill_phi (Fin x) = Ok h.
Proof.
  intros B. pose proof (eta_stores x) as (_ & S & _). destruct S as (n & E).
  { rewrite etaphi_value. apply Qabs_Qle_condition in B. unfold well_inside. change (inject_Z (-32768)) with (-32768 # 1)%Q. change (inject_Z 32767) with (32767 # 1)%Q. lra. }
  unfold fill_phi. unfold fill_eta in E. rewrite E. cbn [bind]. eauto.
Qed.
(** angles a whole number of turns apart *)
Lemma phi_turns x y k h g : fill_phi (Fin x) = Ok h -> fill_phi (Fin y) = Ok g -> (Qabs ((x - y) * ETAPHI_SCALE - inject_Z (1440 * k)) <= 1 # 10)%Q -> exists j, Z.abs (h - g - 1440 * j) <= 1.
Proof.
  intros A B H. destruct (phi_stored _ _ A) as (_ & (a & HA) & _). destruct (phi_stored _ _ B) as (_ & (b & HB) & _). exists (k - a + b).
  apply Qabs_Qle_condition in H, HA, HB. set (n := h + 1440 * a) in *. set (m := g + 1440 * b) in *. set (sx := (x * ETAPHI_SCALE)%Q) in *. set (sy := (y * ETAPHI_SCALE)%Q) in *.
  assert (D : ((x - y) * ETAPHI_SCALE == sx - sy)%Q) by (unfold sx, sy; ring). rewrite D in H.
  assert (U : (inject_Z (n - m - 1440 * k) < inject_Z 2)%Q) by (unfold Z.sub; rewrite !inject_Z_plus, !inject_Z_opp; change (inject_Z 2) with 2%Q; lra).
  assert (L : (inject_Z (-2) < inject_Z (n - m - 1440 * k))%Q) by (unfold Z.sub; rewrite !inject_Z_plus, !inject_Z_opp; change (inject_Z (-2)) with (-2 # 1)%Q; lra).
  apply Zlt_of in U, L. subst n m. lia.
Qed.

(** ** Objects *)
Lemma fill_pt_wf x n : fill_pt x = Ok n -> inS 16 n.
Proof. unfold fill_pt, round_i16. intros E. destruct (to_int_fin _ _ _ E) as (y & Ey). rewrite Ey in E. apply to_int_ok in E as (_ & F). apply i16_iff. exact F. Qed.
Lemma fill_eta_wf x n : fill_eta x = Ok n -> inS 16 n.
Proof. unfold fill_eta, round_i16. intros E. destruct (to_int_fin _ _ _ E) as (y & Ey). rewrite Ey in E. apply to_int_ok in E as (_ & F). apply i16_iff. exact F. Qed.
Lemma fill_phi_range x n : fill_phi x = Ok n -> Z.abs n < 1440.
Proof. intros E. destruct (phi_ok _ _ E) as (m & _ & ->). apply rem_facts. Qed.
Lemma fill_phi_wf x n : fill_phi x = Ok n -> inS 16 n.
Proof. intros E. apply fill_phi_range in E. unfold inS. lia. Qed.
Lemma round_wf f x n : to_int f x = Ok n -> f n = true.
Proof. intros E. destruct (to_int_fin _ _ _ E) as (y & Ey). rewrite Ey in E. apply to_int_ok in E as (_ & F). exact F. Qed.
Ltac dores H := repeat match type of H with context [do _ <- ?e; _] => let E := fresh "E" in destruct e eqn:E; cbn [bind] in H; [|discriminate H] end.
Lemma clu_filled pt empt pterr eta phi em flags c : clu_fill pt empt pterr eta phi em flags = Ok c ->
  clu_wf c /\ Z.abs (cl_phi c) < 1440 /\ fill_pt pt = Ok (cl_pt c) /\ fill_pt empt = Ok (cl_empt c) /\ fill_pt pterr = Ok (cl_pterr c) /\ fill_eta eta = Ok (cl_eta c) /\ fill_phi phi = Ok (cl_phi c) /\
  cl_isem c = em /\ cl_used c = false /\ cl_flags c = flags mod 2 ^ 16.
Proof.
  unfold clu_fill. intros H. dores H. injection H as <-. unfold clu_wf. cbn [cl_pt cl_empt cl_pterr cl_eta cl_phi cl_flags cl_isem cl_used].
  repeat split; try reflexivity; eauto using fill_phi_range; eauto;
  try (eapply (fill_pt_wf pt); eassumption); try (eapply (fill_pt_wf empt); eassumption); try (eapply (fill_pt_wf pterr); eassumption); try (eapply fill_eta_wf; eassumption); try (eapply fill_phi_wf; eassumption);
  unfold wrapU; apply Z.mod_pos_bound; lia.
Qed.
Lemma dmu_filled pt eta phi charge flags m : dmu_fill pt eta phi charge flags = Ok m ->
  dmu_wf m /\ Z.abs (dm_phi m) < 1440 /\ fill_pt pt = Ok (dm_pt m) /\ fill_eta eta = Ok (dm_eta m) /\ fill_phi phi = Ok (dm_phi m) /\ dm_charge m = (0 <? charge) /\ dm_flags m = flags mod 2 ^ 16.
Proof.
  unfold dmu_fill. intros H. dores H. injection H as <-. unfold dmu_wf. cbn.
  repeat split; try reflexivity; eauto using fill_phi_range; eauto;
  try (eapply fill_pt_wf; eassumption); try (eapply fill_eta_wf; eassumption); try (eapply fill_phi_wf; eassumption);
  unfold wrapU; apply Z.mod_pos_bound; lia.
Qed.
Lemma itk_filled pt eta phi charge dz flags old t : itk_fill pt eta phi charge dz flags old = Ok t ->
  (inU 16 (it_chi2 old) -> inU 16 (it_stubs old) -> itk_wf t) /\ round_i32 (fmul eta VTX_ETA_SCALE) = Ok (it_veta t) /\ round_i32 (fmul phi VTX_PHI_SCALE) = Ok (it_vphi t) /\ round_i16 (fmul dz Z0_SCALE) = Ok (it_z0 t) /\
  it_charge t = (0 <? charge) /\ it_flags t = flags mod 2 ^ 16 /\ it_chi2 t = it_chi2 old /\ it_stubs t = it_stubs old.
Proof.
  unfold itk_fill. intros H. dores H. injection H as <-. unfold itk_wf. cbn [it_invpt it_veta it_vphi it_charge it_z0 it_chi2 it_stubs it_flags].
  split; [|repeat split; auto]. intros H1 H2.
  unfold round_u16, round_i32, round_i16 in *. apply round_wf in E, E0, E1, E2. apply u16_iff in E. apply i32_iff in E0, E1. apply i16_iff in E2. repeat (split; [assumption|]). unfold wrapU. apply Z.mod_pos_bound. lia.
Qed.
Lemma ptk_filled pt pterr calopterr eta phi flags old t : ptk_fill pt pterr calopterr eta phi flags old = Ok t ->
  (itk_wf (pt_in old) -> ptk_wf t) /\ Z.abs (pt_phi t) < 1440 /\ fill_pt pt = Ok (pt_pt t) /\ fill_pt pterr = Ok (pt_pterr t) /\ fill_pt calopterr = Ok (pt_calopterr t) /\ fill_eta eta = Ok (pt_eta t) /\ fill_phi phi = Ok (pt_phi t) /\
  pt_in t = pt_in old /\ pt_mulink t = false /\ pt_used t = false /\ pt_frompv t = pt_frompv old.
Proof.
  unfold ptk_fill. intros H. dores H. injection H as <-. unfold ptk_wf. cbn.
  repeat split; try reflexivity; eauto using fill_phi_range; eauto;
  try (apply H); try (eapply (fill_pt_wf pt); eassumption); try (eapply (fill_pt_wf pterr); eassumption); try (eapply (fill_pt_wf calopterr); eassumption); try (eapply fill_eta_wf; eassumption); try (eapply fill_phi_wf; eassumption).
Qed.

(** ** Round trips *)
Lemma wrapU16 n : inU 16 n -> wrapU 16 n = n. Proof. intros H. unfold wrapU, inU in *. apply Z.mod_small. exact H. Qed.
Lemma phi_back_small n : Z.abs n < 1440 -> fill_phi (float_angle n) = Ok n.
Proof. intros H. rewrite phi_back by (unfold inS; lia). rewrite (proj2 (Z.rem_small_iff n 1440 ltac:(lia))) by lia. reflexivity. Qed.
Lemma clu_back c : clu_wf c -> Z.abs (cl_phi c) < 1440 ->
  clu_fill (float_pt (cl_pt c)) (float_pt (cl_empt c)) (float_pt (cl_pterr c)) (float_angle (cl_eta c)) (float_angle (cl_phi c)) (cl_isem c) (cl_flags c) = Ok (unused c).
Proof.
  intros (A & B & C & D & E & F) P. unfold clu_fill. rewrite !pt_back, eta_back, phi_back_small, wrapU16 by assumption. reflexivity.
Qed.
Lemma charge_back b : (0 <? int_charge b) = b. Proof. destruct b; reflexivity. Qed.
Lemma dmu_back m : dmu_wf m -> Z.abs (dm_phi m) < 1440 -> dmu_fill (float_pt (dm_pt m)) (float_angle (dm_eta m)) (float_angle (dm_phi m)) (int_charge (dm_charge m)) (dm_flags m) = Ok m.
Proof. intros (A & B & C & D) P. unfold dmu_fill. rewrite pt_back, eta_back, phi_back_small, wrapU16, charge_back by assumption. destruct m; reflexivity. Qed.
Lemma itk_back t old : itk_wf t -> Z.abs (it_veta t) <= 4000000 -> Z.abs (it_vphi t) <= 4000000 -> it_chi2 old = it_chi2 t -> it_stubs old = it_stubs t ->
  itk_fill (float_vtxpt (it_invpt t)) (float_vtxeta (it_veta t)) (float_vtxphi (it_vphi t)) (int_charge (it_charge t)) (float_dz (it_z0 t)) (it_flags t) old = Ok t.
Proof.
  intros (A & B & C & D & E & F & G) P Q H1 H2. unfold itk_fill. rewrite invpt_back, veta_back, vphi_back, dz_back, wrapU16, charge_back, H1, H2 by assumption. destruct t; reflexivity.
Qed.
Lemma ptk_back t : ptk_wf t -> Z.abs (pt_phi t) < 1440 -> forall flags,
  ptk_fill (float_pt (pt_pt t)) (float_pt (pt_pterr t)) (float_pt (pt_calopterr t)) (float_angle (pt_eta t)) (float_angle (pt_phi t)) flags t = Ok (fresh_track t).
Proof. intros (_ & A & B & C & D & E) P flags. unfold ptk_fill. rewrite !pt_back, eta_back, phi_back_small by assumption. reflexivity. Qed.
(** phi outside (-1440, 1440) never comes back *)
Lemma phi_not_back n : inS 16 n -> 1440 <= Z.abs n -> fill_phi (float_angle n) <> Ok n.
Proof. intros H B E. apply fill_phi_range in E. lia. Qed.
Lemma veta_not_back : round_i32 (fmul (float_vtxeta 16777217) VTX_ETA_SCALE) = Ok 16777216. Proof. vm_compute. reflexivity. Qed.

(** ** Vertex quantities *)
Lemma vtx_stored c x n : round_i32 (fmul (Fin x) c) = Ok n -> inS 32 n /\ (Qabs (inject_Z n - x * c) <= (1 # 2) + Qabs (x * c) * (1 # 16777216) + (1 # 1000000))%Q.
Proof.
  intros H. apply scaled_near in H as (F & N). apply i32_iff in F. split; [exact F|]. pose proof t32_small as (_ & T). unfold u32 in N. lra.
Qed.
Lemma invpt_value x : (1 # 1000000 <= x)%Q -> (x <= 1000000 # 1)%Q -> exists y, fmul (finv (Fin x)) INVPT_SCALE = Fin y /\ ((1 - (1 # 5000000)) * ((20000 # 1) / x) <= y)%Q /\ (y <= (1 + (1 # 5000000)) * ((20000 # 1) / x))%Q.
Proof.
  intros A B. destruct (inv_range x A B) as (I1 & I2 & I3). unfold finv. destruct (Qeq_bool x 0) eqn:Z; [apply Qeq_bool_iff in Z; exfalso; lra|].
  assert (E : ((20000 # 1) / x == (20000 # 1) * (1 / x))%Q) by (field; lra). set (z := ((20000 # 1) / x)%Q) in *. set (ix := (1 / x)%Q) in *.
  destruct (f32_fin ix) as (d & Ed & Rd). { rewrite Qabs_pos by lra. change (p2 126) with (85070591730234615865843651857942052864 # 1)%Q. lra. }
  pose proof (rnd32_error ix) as N. rewrite <- Rd in N. rewrite (Qabs_pos ix) in N by lra. pose proof t32_small as (_ & T). unfold u32 in N. apply Qabs_Qle_condition in N. rewrite Ed. unfold fmul, INVPT_SCALE.
  destruct (f32_fin (d * (20000 # 1))) as (y & -> & Ry). { apply Qabs_Qle_condition. change (p2 126) with (85070591730234615865843651857942052864 # 1)%Q. lra. }
  exists y. split; [reflexivity|]. pose proof (rnd32_error (d * (20000 # 1))) as G. rewrite <- Ry in G. rewrite (Qabs_pos (d * (20000 # 1))) in G by lra. unfold u32 in G. apply Qabs_Qle_condition in G. lra.
Qed.
Lemma invpt_stored x n : (1 # 1000000 <= x)%Q -> (x <= 1000000 # 1)%Q -> round_u16 (fmul (finv (Fin x)) INVPT_SCALE) = Ok n -> (Qabs (inject_Z n - (20000 # 1) / x) <= (1 # 2) + (1 # 50))%Q.
Proof.
  intros A B H. destruct (invpt_value x A B) as (y & E & Y1 & Y2). rewrite E in H. apply to_int_ok in H as (-> & F). apply u16_range in F as (F1 & F2). pose proof (round_near y) as N. apply injZ_le in F1, F2. change (inject_Z 65535) with (65535 # 1)%Q in *. change (inject_Z 0) with 0%Q in *.
  set (z := ((20000 # 1) / x)%Q) in *. apply Qabs_Qle_condition in N. apply Qabs_Qle_condition. lra.
Qed.
Lemma invpt_range x : (1 # 1000000 <= x)%Q -> (x <= 1000000 # 1)%Q ->
  ((306 # 1000 <= x)%Q -> exists n, round_u16 (fmul (finv (Fin x)) INVPT_SCALE) = Ok n) /\ ((x <= 305 # 1000)%Q -> round_u16 (fmul (finv (Fin x)) INVPT_SCALE) = UB BadConversion).
Proof.
  intros A B. destruct (invpt_value x A B) as (y & E & Y1 & Y2). rewrite E. unfold round_u16, to_int. destruct (inv_range x A B) as (I1 & I2 & I3). assert (EE : ((20000 # 1) / x == (20000 # 1) * (1 / x))%Q) by (field; lra). rewrite EE in Y1, Y2. set (ix := (1 / x)%Q) in *. cbv zeta. pose proof (round_near y) as N. apply Qabs_Qle_condition in N. split; intros L.
  - assert (U : (ix <= 3268 # 1000)%Q) by nra. assert (F : is_u16 (roundQ y) = true).
    { apply u16_range. assert (P : (inject_Z (-1) < inject_Z (roundQ y))%Q) by (change (inject_Z (-1)) with (-1)%Q; lra). assert (R : (inject_Z (roundQ y) < inject_Z 65536)%Q) by (change (inject_Z 65536) with (65536 # 1)%Q; lra). apply Zlt_of in P, R. lia. }
    rewrite F. eauto.
  - assert (U : (3278 # 1000 <= ix)%Q) by nra. assert (F : is_u16 (roundQ y) = false).
    { destruct (is_u16 (roundQ y)) eqn:F; [|reflexivity]. apply u16_range in F as (_ & F). apply injZ_le in F. change (inject_Z 65535) with (65535 # 1)%Q in F. exfalso. lra. }
    rewrite F. reflexivity.
Qed.

Lemma set_pt_back c : clu_wf c -> clu_set_pt (float_pt (cl_pt c)) c = Ok c /\ clu_set_empt (float_pt (cl_empt c)) c = Ok c.
Proof. intros (A & B & _). unfold clu_set_pt, clu_set_empt. rewrite !pt_back by assumption. destruct c; split; reflexivity. Qed.
(** minFloatPt is what one unit is read as, and all smaller positive numbers that do not round up to it are stored as 0 *)
Lemma min_pt_is_unit : float_pt 1 = min_float_pt /\ fill_pt min_float_pt = Ok 1. Proof. split; vm_compute; reflexivity. Qed.
Lemma round_monotone (f : Z -> bool) c : (0 < c)%Q -> forall x y n m, to_int f (fmul (Fin x) c) = Ok n -> to_int f (fmul (Fin y) c) = Ok m -> (x <= y)%Q -> n <= m.
Proof. intros C x y n m A B L. exact (scaled_mono f c x y n m C A B L). Qed.
Lemma all_monotone x y : (x <= y)%Q -> forall n m,
  (fill_pt (Fin x) = Ok n -> fill_pt (Fin y) = Ok m -> n <= m) /\ (fill_eta (Fin x) = Ok n -> fill_eta (Fin y) = Ok m -> n <= m) /\ (set_puppiw (Fin x) = Ok n -> set_puppiw (Fin y) = Ok m -> n <= m).
Proof.
  intros L n m. split; [|split]; intros A B.
  - exact (pt_mono x y n m A B L).
  - exact (eta_mono x y n m A B L).
  - exact (round_monotone is_u16 PUPPI_SCALE ltac:(reflexivity) x y n m A B L).
Qed.
Lemma clu_defined pt empt pterr eta phi em flags :
  well_inside (pt * (4 # 1)) (-32768) 32767 -> well_inside (empt * (4 # 1)) (-32768) 32767 -> well_inside (pterr * (4 # 1)) (-32768) 32767 -> well_inside (eta * ETAPHI_SCALE) (-32768) 32767 -> well_inside (phi * ETAPHI_SCALE) (-32768) 32767 ->
  exists c, clu_fill (Fin pt) (Fin empt) (Fin pterr) (Fin eta) (Fin phi) em flags = Ok c.
Proof.
  intros A B C D E. destruct (proj1 (proj2 (pt_stores pt)) A) as (a & Ha). destruct (proj1 (proj2 (pt_stores empt)) B) as (b & Hb). destruct (proj1 (proj2 (pt_stores pterr)) C) as (c & Hc).
  destruct (proj1 (proj2 (eta_stores eta)) D) as (d & Hd). destruct (proj1 (proj2 (eta_stores phi)) E) as (e & He). unfold clu_fill. rewrite Ha, Hb, Hc, Hd. unfold fill_phi. unfold fill_eta in He. rewrite He. cbn [bind]. eauto.
Qed.
Lemma not_finite_ub_all x : x = Inf \/ x = NaN -> fill_pt x = UB BadConversion /\ fill_eta x = UB BadConversion /\ fill_phi x = UB BadConversion /\ set_puppiw x = UB BadConversion.
Proof. intros [-> | ->]; repeat split. Qed.
Lemma phi_apart : let y := ((3 # 1) - (628318531 # 100000000))%Q in
  (Qabs (((3 # 1) - y) * ETAPHI_SCALE - inject_Z 1440) <= 1 # 10)%Q /\ fill_phi (Fin (3 # 1)) = Ok 688 /\ fill_phi (Fin y) = Ok (-752).
Proof. cbv zeta. split; [vm_compute; discriminate|]. split; vm_compute; reflexivity. Qed.
Lemma veta_lost : exists n, inS 32 n /\ round_i32 (fmul (float_vtxeta n) VTX_ETA_SCALE) = Ok (n - 1).
Proof. exists 16777217. split; [unfold inS; lia|exact veta_not_back]. Qed.
