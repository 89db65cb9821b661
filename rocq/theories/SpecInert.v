(** When an EM cluster takes a track away from the others.  Independent of the model. *)
From Verif Require Import Base Data SpecLink SpecPF.

(** EM cluster [x], standing between [l1] and [l2], is the one linked to the
    track although the track has another EM cluster in its reach. *)
Definition takes_from (l1 : list EmCalo) (x : EmCalo) (l2 : list EmCalo) (tk : Tk) : Prop :=
  is_best (cand_tk_em (l1 ++ x :: l2) tk) (length l1) /\ some_admissible (cand_tk_em (l1 ++ l2) tk).
