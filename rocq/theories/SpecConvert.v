(** Specification vocabulary for the conversions. *)
From Verif Require Import Base Data Discrete.

(** y is x reduced to a 10-bit signed number: the representative modulo 1024 *)
Definition narrow10 (x y : Z) : Prop := inS 10 y /\ (y - x) mod 1024 = 0.
(** the firmware object for a discrete one *)
Definition tk_of (x : PTk) (y : Tk) : Prop :=
  t_pt y = pt_pt x /\ t_pterr y = pt_calopterr x /\ narrow10 (pt_eta x) (t_eta y) /\ narrow10 (pt_phi x) (t_phi y) /\ narrow10 (it_z0 (pt_in x)) (t_z0 y) /\
  (t_tight y = true <-> 6 <= it_stubs (pt_in x) /\ it_chi2 (pt_in x) < 500).
Definition had_of (x : Clu) (y : HadCalo) : Prop :=
  h_pt y = cl_pt x /\ h_empt y = cl_empt x /\ narrow10 (cl_eta x) (h_eta y) /\ narrow10 (cl_phi x) (h_phi y) /\ h_isem y = cl_isem x.
Definition em_of (x : Clu) (y : EmCalo) : Prop :=
  e_pt y = cl_pt x /\ e_pterr y = cl_pterr x /\ narrow10 (cl_eta x) (e_eta y) /\ narrow10 (cl_phi x) (e_phi y).
Definition mu_of (x : DMu) (y : Mu) : Prop := m_pt y = dm_pt x /\ m_pterr y = 0 /\ narrow10 (dm_eta x) (m_eta y) /\ narrow10 (dm_phi x) (m_phi y).
(** slot i of an array of NMAX slots filled from a vector *)
Definition slots_ok {In Out} (of : In -> Out -> Prop) (clr : Out) (NMAX : nat) (ins : list In) (out : list Out) : Prop :=
  length out = NMAX /\ forall i y, nth_error out i = Some y -> match nth_error ins i with Some x => of x y | None => y = clr end.

(** DiscretePFInputs.h:246  CH=0, EL=1, NH=2, GAMMA=3, MU=4 *)
Inductive kind := Charged | Electron | Neutral | Photon | Muon.
Definition discrete_id (k : kind) : Z := match k with Charged => 0 | Electron => 1 | Neutral => 2 | Photon => 3 | Muon => 4 end.
(** data.h:12 *)
Definition firmware_id (k : kind) : Z := match k with Charged => 0 | Neutral => 1 | Photon => 2 | Electron => 3 | Muon => 4 end.

Definition ch_of (x : PFCh) (t : PTk) (p : PFPart) : Prop :=
  pp_pt p = c_pt x /\ pp_eta p = c_eta x /\ pp_phi p = c_phi x /\ pp_veta p = c_eta x /\ pp_vphi p = c_phi x /\ pp_track p = t /\ cl_pt (pp_cluster p) = 0 /\ pp_status p = 0 /\
  (forall k, In k [Charged; Electron; Muon] -> c_id x = firmware_id k -> pp_id p = discrete_id k).
Definition ne_of (x : PFNe) (p : PFPart) : Prop :=
  pp_pt p = n_pt x /\ pp_eta p = n_eta x /\ pp_phi p = n_phi x /\ pp_veta p = n_eta x /\ pp_vphi p = n_phi x /\ pt_pt (pp_track p) = 0 /\ cl_pt (pp_cluster p) = n_pt x /\ pp_status p = 0 /\
  (forall k, In k [Neutral; Photon] -> n_id x = firmware_id k -> pp_id p = discrete_id k).
