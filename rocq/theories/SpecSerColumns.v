(** Columns of the pattern files: the characters [k] to [k + n - 1] of a line. *)
From Coq Require Import Ascii String.
From Verif Require Import Base Data Serializer SerText.
Definition cell (k n : nat) (s : list ascii) : list ascii := firstn n (skipn k s).
(** the decimal or hexadecimal number in a cell *)
Definition shows (base : Z) (k n : nat) (s : list ascii) (v : Z) : Prop := number base 0 (cell k n s) = Some v.
(** the heading lines of an MP7 file give quad, channel and link number of the
    11 characters wide column of each link *)
Definition mp7_headings (nlinks : nat) (quad link : list ascii) : Prop := forall i, (i < nlinks)%nat ->
  cell (16 + 11 * i) 1 quad = chars "q" /\ shows 10 (17 + 11 * i) 2 quad (Z.of_nat (i / 4)) /\ cell (19 + 11 * i) 1 quad = chars "c" /\ shows 10 (20 + 11 * i) 1 quad (Z.of_nat (i mod 4)) /\
  shows 10 (17 + 11 * i) 2 link (Z.of_nat i).
(** a line of data has the word of link i in the same column *)
Definition mp7_columns (l : line) (s : list ascii) : Prop := shows 10 6 4 s (fst l) /\ forall i w, nth_error (snd l) i = Some w -> cell (13 + 11 * i) 2 s = chars "1v" /\ shows 16 (15 + 11 * i) 8 s w.
Definition ctp7_headings (isInput : bool) (n : nat) (s : list ascii) : Prop := let k := if isInput then 6%nat else 7%nat in
  firstn k s = chars (if isInput then "Input " else "Output ") /\ forall i, (i < n)%nat -> cell (k + 8 * i) 5 s = chars "LINK_" /\ shows 10 (k + 8 * i + 5) 2 s (Z.of_nat i).
