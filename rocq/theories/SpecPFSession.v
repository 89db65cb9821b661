(** Specification of sessions with the reference: calls that switch the
    debugging printout on or off, and events. *)
From Verif Require Import Base Data PFHw PFRef SpecPF PFDebug SpecPFDebug.

(** the results, each event on its own *)
Definition session_results (ops : list ref_op) : list (res pfout) :=
  flat_map (fun o => match o with Run mem nsel em had track mu => [pfalgo3_full_ref mem nsel em had track mu] | SetDebug _ => [] end) ops.
(** the lines: those of the events while the printout is on *)
Fixpoint session_lines (root angle : Z -> Z) (more on : bool) (ops : list ref_op) : list trow :=
  match ops with
  | [] => []
  | SetDebug b :: r => session_lines root angle more b r
  | Run _ _ em had track mu :: r => (if on then trace_lines root angle em had track mu more else []) ++ session_lines root angle more on r
  end.
(** physical events of fewer than 2^31 objects of each kind *)
Definition op_phys (o : ref_op) : Prop :=
  match o with
  | SetDebug _ => True
  | Run _ nsel em had track mu => phys em had track mu /\ (nsel <= length had)%nat /\
      Z.of_nat (length em) < 2 ^ 31 /\ Z.of_nat (length had) < 2 ^ 31 /\ Z.of_nat (length track) < 2 ^ 31 /\ Z.of_nat (length mu) < 2 ^ 31
  end.
