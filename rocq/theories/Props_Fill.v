(** Filling objects from floating point, and reading them as floating point. *)
From Coq Require Import QArith Qabs.
From Verif Require Import Base Data Discrete DiscreteIO SpecIO Fill SpecFill FillProofs FillObjects.
Local Open Scope Z_scope.

(** ** C64 *)
(** What a pt, an eta, a longitudinal distance and a puppi weight are stored as:
    the value in units, to half a unit (and a 200th, for the rounding of the
    product to a float), when the field can hold it; otherwise the conversion
    is undefined. *)
Theorem C64_stored : forall x,
  stores (x * (4 # 1)) (fill_pt (Fin x)) (-32768) 32767 /\ stores (x * ETAPHI_SCALE) (fill_eta (Fin x)) (-32768) 32767 /\
  stores (x * (20 # 1)) (round_i16 (fmul (Fin x) Z0_SCALE)) (-32768) 32767 /\ stores (x * (100 # 1)) (set_puppiw (Fin x)) 0 65535.
Proof. exact (fun x => conj (pt_stores x) (conj (eta_stores x) (conj (dz_stores x) (puppiw_stores x)))). Qed.
Print Assumptions C64_stored.
(** for pt the product is exact: the nearest number of quarters, halves away from zero *)
Theorem C64_pt_nearest : forall b x n, f32_number b x -> nearest (x * (4 # 1)) n -> (inS 16 n -> fill_pt (Fin x) = Ok n) /\ (~ inS 16 n -> fill_pt (Fin x) = UB BadConversion).
Proof. exact pt_stored. Qed.
Print Assumptions C64_pt_nearest.
(** a pattern and a number: 0x42f6e979 is 123.456001..., stored as 494; half a quarter goes up *)
Example C64_hyp : f32_number 1123477881 (16181625 # 131072) /\ nearest ((16181625 # 131072) * (4 # 1)) 494 /\ fill_pt (Fin (16181625 # 131072)) = Ok 494 /\
  f32_number (2 ^ 31 + 124 * 2 ^ 23) (-1 # 8) /\ nearest ((-1 # 8) * (4 # 1)) (-1) /\ fill_pt (Fin (-1 # 8)) = Ok (-1) /\ fill_pt (Fin (8192 # 1)) = UB BadConversion.
Proof.
  assert (F1 : f32_number 1123477881 (16181625 # 131072)) by (repeat split; vm_compute; congruence).
  assert (F2 : f32_number (2 ^ 31 + 124 * 2 ^ 23) (-1 # 8)) by (repeat split; vm_compute; congruence).
  split; [exact F1|]. split; [left; reflexivity|]. split; [vm_compute; reflexivity|]. split; [exact F2|]. split; [right; split; [reflexivity|discriminate]|]. split; vm_compute; reflexivity.
Qed.
(** 720 angle units are pi *)
Theorem C64_angle_unit : forall pi, (314159265 # 100000000 <= pi)%Q -> (pi <= 314159266 # 100000000)%Q -> (Qabs (ETAPHI_SCALE * pi - (720 # 1)) <= 1 # 100000)%Q.
Proof. exact etaphi_unit. Qed.
Print Assumptions C64_angle_unit.
(** angles at the vertex: 32 bits, so the relative error of the product counts *)
Theorem C64_vertex_angles : forall x n,
  (round_i32 (fmul (Fin x) VTX_ETA_SCALE) = Ok n -> inS 32 n /\ (Qabs (inject_Z n - x * VTX_ETA_SCALE) <= (1 # 2) + Qabs (x * VTX_ETA_SCALE) * (1 # 16777216) + (1 # 1000000))%Q) /\
  (round_i32 (fmul (Fin x) VTX_PHI_SCALE) = Ok n -> inS 32 n /\ (Qabs (inject_Z n - x * VTX_PHI_SCALE) <= (1 # 2) + Qabs (x * VTX_PHI_SCALE) * (1 # 16777216) + (1 # 1000000))%Q).
Proof. exact (fun x n => conj (vtx_stored VTX_ETA_SCALE x n) (vtx_stored VTX_PHI_SCALE x n)). Qed.
Print Assumptions C64_vertex_angles.
Example C64_vertex_scales : VTX_ETA_SCALE = (100000 # 1)%Q /\ VTX_PHI_SCALE = (400000 # 1)%Q /\ round_i32 (fmul (Fin (3 # 2)) VTX_ETA_SCALE) = Ok 150000.
Proof. vm_compute. repeat split. Qed.
(** a track's inverse pt, for pt from 306 MeV; below 305 MeV it does not fit *)
Theorem C64_inverse_pt : forall x, (1 # 1000000 <= x)%Q -> (x <= 1000000 # 1)%Q ->
  (forall n, round_u16 (fmul (finv (Fin x)) INVPT_SCALE) = Ok n -> (Qabs (inject_Z n - (20000 # 1) / x) <= (1 # 2) + (1 # 50))%Q) /\
  ((306 # 1000 <= x)%Q -> exists n, round_u16 (fmul (finv (Fin x)) INVPT_SCALE) = Ok n) /\ ((x <= 305 # 1000)%Q -> round_u16 (fmul (finv (Fin x)) INVPT_SCALE) = UB BadConversion).
Proof. exact (fun x A B => conj (fun n => invpt_stored x n A B) (invpt_range x A B)). Qed.
Print Assumptions C64_inverse_pt.
Example C64_inverse_pt_hyp : round_u16 (fmul (finv (Fin (5 # 2))) INVPT_SCALE) = Ok 8000 /\ round_u16 (fmul (finv (Fin (3 # 10))) INVPT_SCALE) = UB BadConversion /\ round_u16 (fmul (finv (Fin 0)) INVPT_SCALE) = UB BadConversion.
Proof. vm_compute. repeat split. Qed.
Theorem C64_not_a_number : forall x, x = Inf \/ x = NaN -> fill_pt x = UB BadConversion /\ fill_eta x = UB BadConversion /\ fill_phi x = UB BadConversion /\ set_puppiw x = UB BadConversion.
Proof. exact not_finite_ub_all. Qed.
Print Assumptions C64_not_a_number.
(** storing keeps the order, so objects compare (operator<, largest pt first) as the numbers they come from *)
Theorem C64_monotone : forall x y, (x <= y)%Q -> forall n m,
  (fill_pt (Fin x) = Ok n -> fill_pt (Fin y) = Ok m -> n <= m) /\ (fill_eta (Fin x) = Ok n -> fill_eta (Fin y) = Ok m -> n <= m) /\ (set_puppiw (Fin x) = Ok n -> set_puppiw (Fin y) = Ok m -> n <= m).
Proof. exact all_monotone. Qed.
Print Assumptions C64_monotone.
Theorem C64_sorted_by_pt : forall x y n m, fill_pt (Fin x) = Ok n -> fill_pt (Fin y) = Ok m -> before_pt n m = true -> (y < x)%Q.
Proof. exact before_larger. Qed.
Print Assumptions C64_sorted_by_pt.
Example C64_order_hyp : fill_pt (Fin (11 # 10)) = Ok 4 /\ fill_pt (Fin (9 # 10)) = Ok 4 /\ fill_pt (Fin (14 # 10)) = Ok 6 /\ before_pt 6 4 = true /\ before_pt 4 4 = false.
Proof. vm_compute. repeat split. Qed.
(** whole objects: what fill, fillInput and fillPropagated leave is what files can hold *)
Theorem C64_cluster : forall pt empt pterr eta phi em flags c, clu_fill pt empt pterr eta phi em flags = Ok c ->
  clu_wf c /\ Z.abs (cl_phi c) < 1440 /\ fill_pt pt = Ok (cl_pt c) /\ fill_pt empt = Ok (cl_empt c) /\ fill_pt pterr = Ok (cl_pterr c) /\ fill_eta eta = Ok (cl_eta c) /\ fill_phi phi = Ok (cl_phi c) /\
  cl_isem c = em /\ cl_used c = false /\ cl_flags c = flags mod 2 ^ 16.
Proof. exact clu_filled. Qed.
Print Assumptions C64_cluster.
Theorem C64_cluster_defined : forall pt empt pterr eta phi em flags,
  well_inside (pt * (4 # 1)) (-32768) 32767 -> well_inside (empt * (4 # 1)) (-32768) 32767 -> well_inside (pterr * (4 # 1)) (-32768) 32767 -> well_inside (eta * ETAPHI_SCALE) (-32768) 32767 -> well_inside (phi * ETAPHI_SCALE) (-32768) 32767 ->
  exists c, clu_fill (Fin pt) (Fin empt) (Fin pterr) (Fin eta) (Fin phi) em flags = Ok c.
Proof. exact clu_defined. Qed.
Print Assumptions C64_cluster_defined.
Theorem C64_muon : forall pt eta phi charge flags m, dmu_fill pt eta phi charge flags = Ok m ->
  dmu_wf m /\ Z.abs (dm_phi m) < 1440 /\ fill_pt pt = Ok (dm_pt m) /\ fill_eta eta = Ok (dm_eta m) /\ fill_phi phi = Ok (dm_phi m) /\ dm_charge m = (0 <? charge) /\ dm_flags m = flags mod 2 ^ 16.
Proof. exact dmu_filled. Qed.
Print Assumptions C64_muon.
Theorem C64_input_track : forall pt eta phi charge dz flags old t, itk_fill pt eta phi charge dz flags old = Ok t ->
  (inU 16 (it_chi2 old) -> inU 16 (it_stubs old) -> itk_wf t) /\ round_i32 (fmul eta VTX_ETA_SCALE) = Ok (it_veta t) /\ round_i32 (fmul phi VTX_PHI_SCALE) = Ok (it_vphi t) /\ round_i16 (fmul dz Z0_SCALE) = Ok (it_z0 t) /\
  it_charge t = (0 <? charge) /\ it_flags t = flags mod 2 ^ 16 /\ it_chi2 t = it_chi2 old /\ it_stubs t = it_stubs old.
Proof. exact itk_filled. Qed.
Print Assumptions C64_input_track.
Theorem C64_propagated_track : forall pt pterr calopterr eta phi flags old t, ptk_fill pt pterr calopterr eta phi flags old = Ok t ->
  (itk_wf (pt_in old) -> ptk_wf t) /\ Z.abs (pt_phi t) < 1440 /\ fill_pt pt = Ok (pt_pt t) /\ fill_pt pterr = Ok (pt_pterr t) /\ fill_pt calopterr = Ok (pt_calopterr t) /\ fill_eta eta = Ok (pt_eta t) /\ fill_phi phi = Ok (pt_phi t) /\
  pt_in t = pt_in old /\ pt_mulink t = false /\ pt_used t = false /\ pt_frompv t = pt_frompv old.
Proof. exact ptk_filled. Qed.
Print Assumptions C64_propagated_track.
Example C64_cluster_hyp : clu_fill (Fin (101 # 10)) (Fin 4) (Fin 2) (Fin (-7 # 10)) (Fin 3) true 65537 = Ok (mkClu 40 16 8 (-160) 688 1 true false).
Proof. vm_compute. reflexivity. Qed.

(** ** C65 *)
Theorem C65_cluster : forall c, clu_wf c -> Z.abs (cl_phi c) < 1440 ->
  clu_fill (float_pt (cl_pt c)) (float_pt (cl_empt c)) (float_pt (cl_pterr c)) (float_angle (cl_eta c)) (float_angle (cl_phi c)) (cl_isem c) (cl_flags c) = Ok (unused c).
Proof. exact clu_back. Qed.
Print Assumptions C65_cluster.
Theorem C65_muon : forall m, dmu_wf m -> Z.abs (dm_phi m) < 1440 -> dmu_fill (float_pt (dm_pt m)) (float_angle (dm_eta m)) (float_angle (dm_phi m)) (int_charge (dm_charge m)) (dm_flags m) = Ok m.
Proof. exact dmu_back. Qed.
Print Assumptions C65_muon.
Theorem C65_input_track_partial : forall t old, itk_wf t -> Z.abs (it_veta t) <= 4000000 -> Z.abs (it_vphi t) <= 4000000 -> it_chi2 old = it_chi2 t -> it_stubs old = it_stubs t ->
  itk_fill (float_vtxpt (it_invpt t)) (float_vtxeta (it_veta t)) (float_vtxphi (it_vphi t)) (int_charge (it_charge t)) (float_dz (it_z0 t)) (it_flags t) old = Ok t.
Proof. exact itk_back. Qed.
Print Assumptions C65_input_track_partial.
Theorem C65_propagated_track : forall t, ptk_wf t -> Z.abs (pt_phi t) < 1440 -> forall flags,
  ptk_fill (float_pt (pt_pt t)) (float_pt (pt_pterr t)) (float_pt (pt_calopterr t)) (float_angle (pt_eta t)) (float_angle (pt_phi t)) flags t = Ok (fresh_track t).
Proof. exact ptk_back. Qed.
Print Assumptions C65_propagated_track.
Theorem C65_setters : forall c, clu_wf c -> clu_set_pt (float_pt (cl_pt c)) c = Ok c /\ clu_set_empt (float_pt (cl_empt c)) c = Ok c.
Proof. exact set_pt_back. Qed.
Print Assumptions C65_setters.
Theorem C65_puppi_weight : forall n, inU 16 n -> set_puppiw (float_puppiw n) = Ok n.
Proof. exact puppiw_back. Qed.
Print Assumptions C65_puppi_weight.
Theorem C65_min_pt : float_pt 1 = min_float_pt /\ fill_pt min_float_pt = Ok 1.
Proof. exact min_pt_is_unit. Qed.
Print Assumptions C65_min_pt.
(** an azimuth of a whole turn or more is never given back *)
Theorem C65_large_phi_refuted : forall n, inS 16 n -> 1440 <= Z.abs n -> fill_phi (float_angle n) = Ok (Z.rem n 1440) /\ fill_phi (float_angle n) <> Ok n.
Proof. exact (fun n A B => conj (phi_back n A) (phi_not_back n A B)). Qed.
Print Assumptions C65_large_phi_refuted.
(** and a vertex eta that a float cannot hold is not either *)
Theorem C65_large_vertex_eta_refuted : exists n, inS 32 n /\ round_i32 (fmul (float_vtxeta n) VTX_ETA_SCALE) = Ok (n - 1).
Proof. exact veta_lost. Qed.
Print Assumptions C65_large_vertex_eta_refuted.
Example C65_hyp : clu_wf (mkClu 32767 16 (-8) (-32768) 1439 1 true true) /\ itk_wf (mkITk 65535 (-250000) 1256637 true (-300) 15 6 1) /\ itk_wf (mkITk 0 1 (-4000000) false 0 0 0 0) /\
  float_vtxpt 0 = Inf /\ ptk_wf (mkPTk (mkITk 65535 (-250000) 1256637 true (-300) 15 6 1) 12 3 4 (-200) (-720) true true true) /\ dmu_wf (mkDMu 40 5 (-6) 3 true).
Proof. repeat split; vm_compute; congruence. Qed.

(** ** C66 *)
(** The stored azimuth: the angle in units, less whole turns, with the sign of the angle. *)
Theorem C66_phi : forall x h, fill_phi (Fin x) = Ok h -> Z.abs h < 1440 /\ (exists k, (Qabs (inject_Z (h + 1440 * k) - x * ETAPHI_SCALE) <= (1 # 2) + (1 # 200))%Q) /\ ((0 <= x)%Q -> 0 <= h) /\ ((x <= 0)%Q -> h <= 0).
Proof. exact phi_stored. Qed.
Print Assumptions C66_phi.
Theorem C66_half_turn : forall x h, fill_phi (Fin x) = Ok h -> (Qabs x <= 314160 # 100000)%Q -> Z.abs h <= 720 /\ (Qabs (inject_Z h - x * ETAPHI_SCALE) <= (1 # 2) + (1 # 200))%Q.
Proof. exact phi_half_turn. Qed.
Print Assumptions C66_half_turn.
Theorem C66_defined : forall x, (Qabs x <= 142 # 1)%Q -> exists h, fill_phi (Fin x) = Ok h.
Proof. exact phi_defined. Qed.
Print Assumptions C66_defined.
(** angles a whole number of turns apart agree to one unit, but only modulo a turn *)
Theorem C66_turns_partial : forall x y k h g, fill_phi (Fin x) = Ok h -> fill_phi (Fin y) = Ok g -> (Qabs ((x - y) * ETAPHI_SCALE - inject_Z (1440 * k)) <= 1 # 10)%Q -> exists j, Z.abs (h - g - 1440 * j) <= 1.
Proof. exact phi_turns. Qed.
Print Assumptions C66_turns_partial.
(** 3 and 3 - 2 pi are the same direction, stored a whole turn apart *)
Theorem C66_same_direction_refuted : let y := ((3 # 1) - (628318531 # 100000000))%Q in
  (Qabs (((3 # 1) - y) * ETAPHI_SCALE - inject_Z 1440) <= 1 # 10)%Q /\ fill_phi (Fin (3 # 1)) = Ok 688 /\ fill_phi (Fin y) = Ok (-752).
Proof. exact phi_apart. Qed.
Print Assumptions C66_same_direction_refuted.
Example C66_hyp : fill_phi (Fin (-157 # 50)) = Ok (-720) /\ fill_phi (Fin (157 # 50)) = Ok 720 /\ fill_phi (Fin (7 # 1)) = Ok 164 /\ fill_phi (Fin (143 # 1)) = UB BadConversion.
Proof. vm_compute. repeat split. Qed.
