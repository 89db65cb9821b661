(** Reading a particle: PFParticle's accessors (DiscretePFInputs.h:242-275). *)
From Verif Require Import Base Data Discrete DiscreteIO Fill.
Local Open Scope Z_scope.

(** floatPt, floatEta, floatPhi: DiscretePFInputs.h:262-264 *)
Definition part_pt (p : PFPart) : fl := float_pt (pp_pt p).
Definition part_eta (p : PFPart) : fl := float_angle (pp_eta p).
Definition part_phi (p : PFPart) : fl := float_angle (pp_phi p).
(** floatVtxEta, floatVtxPhi: DiscretePFInputs.h:265-266 *)
Definition part_vtx_eta (p : PFPart) : fl :=
  if pt_pt (pp_track p) >? 0 then float_vtxeta (it_veta (pt_in (pp_track p))) else float_angle (pp_veta p).
Definition part_vtx_phi (p : PFPart) : fl :=
  if pt_pt (pp_track p) >? 0 then float_vtxphi (it_vphi (pt_in (pp_track p))) else float_angle (pp_vphi p).
(** floatDZ: DiscretePFInputs.h:267 *)
Definition part_dz (p : PFPart) : fl := float_dz (it_z0 (pt_in (pp_track p))).
(** floatPuppiW: DiscretePFInputs.h:268 *)
Definition part_puppiw (p : PFPart) : fl := float_puppiw (pp_puppiw p).
(** intCharge: DiscretePFInputs.h:269 *)
Definition part_charge (p : PFPart) : Z := if pt_pt (pp_track p) >? 0 then int_charge (it_charge (pt_in (pp_track p))) else 0.
(** setPuppiW, setFloatPt: DiscretePFInputs.h:270-273 *)
Definition part_set_puppiw (w : fl) (p : PFPart) : res PFPart :=
  do n <- set_puppiw w; Ok (mkPFPart (pp_pt p) (pp_eta p) (pp_phi p) (pp_id p) (pp_veta p) (pp_vphi p) (pp_flags p) (pp_cluster p) (pp_track p) (pp_chargedpv p) n (pp_status p)).
Definition part_set_pt (pt : fl) (p : PFPart) : res PFPart :=
  do n <- fill_pt pt; Ok (mkPFPart n (pp_eta p) (pp_phi p) (pp_id p) (pp_veta p) (pp_vphi p) (pp_flags p) (pp_cluster p) (pp_track p) (pp_chargedpv p) (pp_puppiw p) (pp_status p)).
