(** Vocabulary for comparing two executions of the particle-flow test program. *)
From Verif Require Import Base Data PFHw SpecOut Discrete Convert DiscreteIO RegionLoop PFTest SpecTest.

(** the same region, the same words, the same particles (hwPtPuppi, which particle
    flow does not write, may differ) *)
Definition same_run (t u : pfrun) : Prop :=
  pr_region t = pr_region u /\ pr_in t = pr_in u /\ pr_out t = pr_out u /\ same_out (pr_hw t) (pr_hw u) /\ same_out (pr_ref t) (pr_ref u).
(** two executions that end with the same exit code after the same tests, or are
    undefined in the same way *)
Definition same_execution (a b : option (res (Z * list pfrun))) : Prop :=
  match a, b with
  | Some (Ok (code, runs)), Some (Ok (code', runs')) => code = code' /\ Forall2 same_run runs runs'
  | Some (UB k), Some (UB l) => k = l
  | _, _ => False
  end.
(** no hadronic cluster of a region has a negative pt *)
Definition no_negative_cluster (r : fwregion) : Prop := Forall (fun h => 0 <= h_pt h) (fw_calo r).
