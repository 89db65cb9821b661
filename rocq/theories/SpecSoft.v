(** Specification of what a harder object may depend on (C97). *)
From Verif Require Import Base Regionizer SpecRegion.

Section soft.
Context {A : Type}.

(** the objects harder than [T], in their order *)
Definition hard (T : Z) (l : list (robj A)) : list (robj A) := filter (fun x => T <? r_pt x) l.

(** two lists of slots show the same objects harder than [T], slot by slot *)
Definition same_hard (T : Z) (out out' : list (robj A)) : Prop :=
  forall i o, T < r_pt o -> (nth_error out i = Some o <-> nth_error out' i = Some o).
End soft.
