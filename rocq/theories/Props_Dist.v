(** C12, C13: the distance functions. *)
From Verif Require Import Base Data PFHw SpecPF LinkProofs.

Theorem C12_dr2_symmetric : forall eta1 phi1 eta2 phi2, dr2_int eta1 phi1 eta2 phi2 = dr2_int eta2 phi2 eta1 phi1.
Proof. exact dr2_sym. Qed.
Print Assumptions C12_dr2_symmetric.

Theorem C12_dr2_zero_on_equal_points : forall eta phi, dr2_int eta phi eta phi = 0.
Proof. exact dr2_refl. Qed.
Print Assumptions C12_dr2_zero_on_equal_points.

Theorem C12_dr2_range : forall eta1 phi1 eta2 phi2, 0 <= dr2_int eta1 phi1 eta2 phi2 <= 2 ^ 19.
Proof. exact dr2_range. Qed.
Print Assumptions C12_dr2_range.

Theorem C12_dr2_exact : forall eta1 phi1 eta2 phi2, inS 10 (eta1 - eta2) -> inS 10 (phi1 - phi2) ->
  dr2_int eta1 phi1 eta2 phi2 = (eta1 - eta2) * (eta1 - eta2) + (phi1 - phi2) * (phi1 - phi2).
Proof. exact dr2_exact. Qed.
Print Assumptions C12_dr2_exact.
Example C12_dr2_exact_hyp : inS 10 (200 - -250) /\ inS 10 (-256 - 255) /\ dr2_int 200 (-256) (-250) 255 = 450 * 450 + 511 * 511.
Proof. unfold inS; cbn; repeat split; lia. Qed.

(** outside that range a far object looks near: exact distance 1023^2, computed 1 *)
Theorem C12_dr2_aliasing_refuted : exists eta1 phi1 eta2 phi2, inS 10 eta1 /\ inS 10 phi1 /\ inS 10 eta2 /\ inS 10 phi2 /\
  (eta1 - eta2) * (eta1 - eta2) + (phi1 - phi2) * (phi1 - phi2) = 1023 * 1023 /\ dr2_int eta1 phi1 eta2 phi2 = 1.
Proof. exists 511, 0, (-512), 0. unfold inS; cbn; repeat split; lia. Qed.
Print Assumptions C12_dr2_aliasing_refuted.

(** [nb] is the number of bits of the return type; the firmware uses 7, 10 and 12
    with maxima 84, 525/756 and 2101 *)
Theorem C12_dr2_cap_is_min : forall nb eta1 phi1 eta2 phi2 max, 0 <= max < 2 ^ nb ->
  dr2_int_cap nb eta1 phi1 eta2 phi2 max = Z.min (dr2_int eta1 phi1 eta2 phi2) max.
Proof. exact dr2_cap_min. Qed.
Print Assumptions C12_dr2_cap_is_min.
Example C12_dr2_cap_is_min_hyp : 0 <= 2101 < 2 ^ 12 /\ dr2_int_cap 12 0 0 40 40 2101 = 2101 /\ dr2_int_cap 12 0 0 30 30 2101 = 1800.
Proof. repeat split; vm_compute; congruence. Qed.

(** C13: for a track and a cluster that pass the pt cut and the distance cut,
    the firmware's combined metric stays below its cap 3780, equals the integer
    formula with the tabulated scale, and equals the reference formula unless
    the track error is 1. *)
Theorem C13_metric_below_cap_and_exact : forall tk h s, tk_phys tk -> had_phys h ->
  calc_dptscale 756 (t_pterr tk) = Ok s ->
  Z.max 0 (wrapS 16 (t_pt tk - 2 * t_pterr tk)) < h_pt h ->
  dr2_int (t_eta tk) (t_phi tk) (h_eta h) (h_phi h) < 756 ->
  let q := dr2_dpt_int_cap 12 (t_eta tk) (t_phi tk) (h_eta h) (h_phi h) (t_pt tk) (h_pt h) (wrapS 18 s) 756 3780 in
  let d := Z.max 0 (t_pt tk - h_pt h) in
  0 <= q < 3780 /\
  q = dr2_int (t_eta tk) (t_phi tk) (h_eta h) (h_phi h) + d * d * s / 256 /\
  (t_pterr tk <> 1 -> q = dr2_int (t_eta tk) (t_phi tk) (h_eta h) (h_phi h)
                          + d * d * (756 * 256 / Z.max 1 (t_pterr tk * t_pterr tk)) / 256).
Proof. exact c13. Qed.
Print Assumptions C13_metric_below_cap_and_exact.
Example C13_hyp : let tk := mkTk 200 10 50 52 0 true in let h := mkHad 185 40 40 0 false in
  tk_phys tk /\ had_phys h /\ calc_dptscale 756 (t_pterr tk) = Ok 1935 /\
  Z.max 0 (wrapS 16 (t_pt tk - 2 * t_pterr tk)) < h_pt h /\ dr2_int 50 52 40 40 < 756 /\
  dr2_dpt_int_cap 12 50 52 40 40 200 185 (wrapS 18 1935) 756 3780 = 244 + 1700.
Proof.
  cbv zeta. split; [repeat split; unfold inS; cbn; lia|]. split; [repeat split; unfold inS; cbn; lia|].
  split; [vm_compute; reflexivity|]. split; [cbn; lia|]. split; [cbn; lia|]. vm_compute; reflexivity.
Qed.
