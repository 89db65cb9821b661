(** Specification vocabulary for matching: "the first nearest admissible
    candidate".  Independent of the model. *)
From Verif Require Import Base.

(** [cand]: one entry per candidate object, [Some d] = admissible at distance
    [d], [None] = not admissible.  Candidate [i] is the best one if it is
    admissible, no admissible candidate is nearer, and none of smaller index is
    equally near. *)
Definition is_best (cand : list (option Z)) (i : nat) : Prop :=
  exists v, nth_error cand i = Some (Some v) /\
  forall j w, nth_error cand j = Some (Some w) -> v < w \/ (v = w /\ (i <= j)%nat).

(** there is an admissible candidate at all *)
Definition some_admissible (cand : list (option Z)) : Prop :=
  exists j w, nth_error cand j = Some (Some w).

(** admissible iff [adm], at distance [d] *)
Definition cand_if (adm : bool) (d : Z) : option Z := if adm then Some d else None.

(** The same as a function: scan in index order, keep the nearest seen so far
    (proved equivalent to [is_best] in Props_Link: first_best_is_best). *)
Definition bstep (st : Z * option nat) (p : nat * option Z) : Z * option nat :=
  let '(m, b) := st in let '(i, c) := p in
  match c with
  | None => (m, b)
  | Some v => match b with None => (v, Some i) | Some _ => if v <? m then (v, Some i) else (m, b) end
  end.
Definition best_st (cand : list (option Z)) := fold_left bstep (indexed cand) (0, None).
Definition best (cand : list (option Z)) : option nat := snd (best_st cand).

(** A row of link bits marks exactly the best candidate. *)
Definition marks_best (row : list bool) (cand : list (option Z)) : Prop :=
  length row = length cand /\ forall k, nth_error row k = Some true <-> is_best cand k.
