(** Two runs of a particle-flow algorithm with the same visible result. *)
From Verif Require Import Base Data PFHw SpecOut SpecTest.

(** both undefined in the same way, or the same particles slot by slot; hwPtPuppi,
    which no particle-flow algorithm writes, may differ *)
Definition same_result (a b : res pfout) : Prop :=
  match a, b with Ok o, Ok q => same_out o q | UB k, UB l => k = l | _, _ => False end.
