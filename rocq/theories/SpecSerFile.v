(** When a pattern file determines the events written to it. *)
From Coq Require Import Ascii String.
From Verif Require Import Base Data Serializer SpecSer SerText.

(** two histories of the same length leave the same text only if equal *)
Definition recoverable (board : string) (nmux : nat) (nempty : Z) (nlinks : nat) : Prop :=
  forall ev1 ev2, Forall event_ok ev1 -> Forall event_ok ev2 -> few nempty ev1 -> length ev1 = length ev2 ->
  forall b1 b2 c1 c2, mp7_session true nmux nempty nlinks ev1 = Ok (b1, c1) -> mp7_session true nmux nempty nlinks ev2 = Ok (b2, c2) ->
  mp7_text board (links nmux nlinks) c1 = mp7_text board (links nmux nlinks) c2 -> ev1 = ev2.
