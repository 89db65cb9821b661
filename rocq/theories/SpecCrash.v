(** What the pattern files hold when the program that writes them is stopped. *)
From Coq Require Import Ascii.
From Verif Require Import Base SerText.

(** [p] is the beginning of [text]: what is on disk of the characters written,
    the output being buffered *)
Definition begins (p text : list ascii) : Prop := exists rest, text = p ++ rest.
(** the number of complete lines *)
Definition lines_in (p : list ascii) : nat := count_occ ascii_dec p newline.
