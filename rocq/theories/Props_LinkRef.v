(** C02: the table of links of the reference (link_ref, which no test program calls). *)
From Verif Require Import Base Data PFHw PFRef SpecLink SpecPF LinkRef Witness.

Theorem C02_link_ref_em : forall em track, exists rows, link_ref e_pt e_eta e_phi 84 false em track = Ok rows /\ length rows = length track /\
  forall i t, nth_error track i = Some t -> exists row, nth_error rows i = Some row /\ marks_best row (cand_tk_em em t).
Proof. exact c02_link_ref_em. Qed.
Print Assumptions C02_link_ref_em.
Example C02_link_ref_em_ex : link_ref e_pt e_eta e_phi 84 false ev_em ev_tk = Ok [[false; false]; [true; false]; [false; false]; [false; true]].
Proof. vm_compute. reflexivity. Qed.

(** with the cut on the transverse momentum it is the firmware's table *)
Theorem C02_link_ref_had : forall had track, exists rows, link_ref h_pt h_eta h_phi 756 true had track = Ok rows /\ rows = tk2calo_link_dronly had track /\ length rows = length track /\
  forall i t, nth_error track i = Some t -> exists row, nth_error rows i = Some row /\ marks_best row (cand_tk_had_dr had t).
Proof. exact c02_link_ref_had. Qed.
Print Assumptions C02_link_ref_had.
Example C02_link_ref_had_ex : link_ref h_pt h_eta h_phi 756 true ev_had ev_tk = Ok (tk2calo_link_dronly ev_had ev_tk) /\ existsb (existsb (fun b => b)) (tk2calo_link_dronly ev_had ev_tk) = true.
Proof. vm_compute. split; reflexivity. Qed.
