(** Specification of sorting with truncation, independent of the model. *)
From Coq Require Import Permutation Sorted.
From Verif Require Import Base.

(** [out] consists of the [n] highest-pt elements of [input] (all of them if
    there are fewer), in decreasing pt; among equal pts the element that comes
    later in [input] is first when [later] is true, else last.  [idx] is the
    ranking as a permutation of the positions in [input]. *)
Definition top_n {T} (pt : T -> Z) (later : bool) (n : nat) (input out : list T) : Prop :=
  exists idx,
    Permutation idx (seq 0 (length input)) /\
    StronglySorted (fun i j => exists x y, nth_error input i = Some x /\ nth_error input j = Some y /\
        (pt y < pt x \/ (pt x = pt y /\ if later then (j < i)%nat else (i < j)%nat))) idx /\
    Forall2 (fun i x => nth_error input i = Some x) (firstn n idx) out.
