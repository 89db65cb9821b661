(** Vocabulary for the values read from particles. *)
From Coq Require Import QArith Qabs.
From Verif Require Import Base Data Discrete DiscreteIO Fill Particle.
Local Open Scope Z_scope.

(** a measured track in GeV, radians, centimetres: momentum, direction at the
    calorimeter and at the vertex, charge, longitudinal impact parameter *)
Record Measured := mkMeasured { v_pt : Q; v_eta : Q; v_phi : Q; v_veta : Q; v_vphi : Q; v_charge : Z; v_dz : Q }.
(** [t] is what the two fill methods make of it, with any errors and flags and
    any track quality *)
Definition filled_from (v : Measured) (t : PTk) : Prop :=
  exists flags old pterr calopterr flags' oldp,
    inU 16 (it_chi2 old) /\ inU 16 (it_stubs old) /\
    itk_fill (Fin (v_pt v)) (Fin (v_veta v)) (Fin (v_vphi v)) (v_charge v) (Fin (v_dz v)) flags old = Ok (pt_in oldp) /\
    ptk_fill (Fin (v_pt v)) pterr calopterr (Fin (v_eta v)) (Fin (v_phi v)) flags' oldp = Ok t.
(** the directions lie in one region of the detector *)
Definition in_region (v : Measured) : Prop :=
  (Qabs (v_eta v) <= 22 # 10 /\ Qabs (v_phi v) <= 22 # 10 /\ Qabs (v_veta v) <= 10 # 1 /\ Qabs (v_vphi v) <= 4 # 1)%Q.
(** the float is a number and [tol] or less from [x] *)
Definition reads (f : fl) (x tol : Q) : Prop := exists y, f = Fin y /\ (Qabs (y - x) <= tol)%Q.
(** what is read from the particle is what was measured, up to half a unit of
    the format: 1/8 GeV, 1/458 rad, 5 and 1.25 microradians, 1/40 cm *)
Definition reads_as (v : Measured) (p : PFPart) : Prop :=
  reads (part_pt p) (v_pt v) (1275 # 10000) /\
  reads (part_eta p) (v_eta v) (1 # 450) /\ reads (part_phi p) (v_phi v) (1 # 450) /\
  reads (part_vtx_eta p) (v_veta v) (7 # 1000000) /\ reads (part_vtx_phi p) (v_vphi v) (2 # 1000000) /\
  reads (part_dz p) (v_dz v) (51 # 2000) /\
  part_charge p = (if 0 <? v_charge v then 1 else -1).
(** the same for a neutral object of the firmware: no charge, and the direction
    at the vertex is the one at the calorimeter *)
Definition reads_as_neutral (x : PFNe) (p : PFPart) : Prop :=
  reads (part_pt p) (inject_Z (n_pt x) / (4 # 1)) (1 # 1000) /\
  reads (part_eta p) (inject_Z (n_eta x) / ETAPHI_SCALE) (1 # 1000000) /\
  reads (part_phi p) (inject_Z (n_phi x) / ETAPHI_SCALE) (1 # 1000000) /\
  part_vtx_eta p = part_eta p /\ part_vtx_phi p = part_phi p /\ part_charge p = 0.
