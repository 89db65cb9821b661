(** Motions of the inputs of PUPPI. *)
From Verif Require Import Base Data SpecPF SpecSym.

(** a charged candidate at its moved position, with its z0 displaced by [s] *)
Definition move_ch (mv : motion) (s : Z) (c : PFCh) : PFCh := mkCh (c_pt c) (fst (mv (c_eta c) (c_phi c))) (snd (mv (c_eta c) (c_phi c))) (c_id c) (c_z0 c + s).
Definition move_ne (mv : motion) (n : PFNe) : PFNe := mkNe (n_pt n) (fst (mv (n_eta n) (n_phi n))) (snd (mv (n_eta n) (n_phi n))) (n_id n) (n_puppi n).
(** too far from the vertex at [z], or from the neutral, to count *)
Definition unseen (z : Z) (c : PFCh) (n : PFNe) : Prop := 256 < Z.abs (z - c_z0 c) \/ 8404 < dist2 (c_eta c) (c_phi c) (n_eta n) (n_phi n).
