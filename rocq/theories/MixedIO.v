(** A program that calls the two reading functions of DiscretePFInputs on one
    object, in any order. *)
From Verif Require Import Base Data Discrete Convert DiscreteIO.
Open Scope Z_scope.

(** the calls: nextRegion with the program's arrays (DiscretePFInputs_IO.h:42-59)
    and nextEvent (DiscretePFInputs_IO.h:62-66) *)
Inductive call := CallRegion | CallEvent.
(** what a call gives: the arrays and the vertex position filled by a
    nextRegion that returned true; the event held by the object after a
    nextEvent that returned true (DiscretePFInputs_IO.h:67); false *)
Inductive seen := SawRegion (a : fwregion) | SawEvent (e : event) | SawNothing.

(** the calls of [h] in order, on one object and one set of arrays
    (DiscretePFInputs_IO.h:42-85).  [None]: some nextRegion has not finished
    after [fuel] rounds of its loop. *)
Fixpoint mixed_calls (c : config) (special : Z -> Z) (tail : res bool) (fuel : nat) (h : list call) (out : fwregion) (s : inputs) : option (res (list seen)) :=
  let after (x : seen) (o : option (res (list seen))) := match o with Some (Ok l) => Some (Ok (x :: l)) | _ => o end in
  match h with
  | [] => Some (Ok [])
  | CallRegion :: h' =>
    match next_region_fw c special tail fuel out s with
    | None => None
    | Some (UB k) => Some (UB k)
    | Some (Ok (b, out1, s1)) => after (if b then SawRegion out1 else SawNothing) (mixed_calls c special tail fuel h' out1 s1)
    end
  | CallEvent :: h' =>
    match next_event tail s with
    | UB k => Some (UB k)
    | Ok (b, s1) => after (if b then SawEvent (in_event s1) else SawNothing) (mixed_calls c special tail fuel h' out s1)
    end
  end.
