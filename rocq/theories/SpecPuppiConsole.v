(** What the console of the PUPPI test program should hold, row by row. *)
From Coq Require Import Ascii String.
From Verif Require Import Base DiscreteIO SpecHR SpecConsole.
Local Open Scope string_scope.
Local Open Scope list_scope.
Local Open Scope Z_scope.

(** a neutral: its pt and its two puppi pts *)
Definition puppi_row (l : Z * Z * Z) : row := let '(pt, hw, ref) := l in (["hwpt"; "="; "hwptpuppi"; "="; "hwptpuppi-ref"; "="], [pt; hw; ref]).
(** a test: its number, its neutrals, its number *)
Definition puppi_rows (test : nat) (lines : list (Z * Z * Z)) : list row :=
  [(["test"], [Z.of_nat test])] ++ map puppi_row lines ++ [(["end"; "of"; "test"; "----"], [Z.of_nat test])].
(** the whole console: every event is announced, every region used is announced and tested, up to the fiftieth *)
Fixpoint puppi_story (test : nat) (l : list news) (out : list (list (Z * Z * Z))) : list row :=
  match l with
  | [] => []
  | Begin e :: l => news_row (Begin e) :: puppi_story test l out
  | Found e i r :: l =>
    match out with
    | [] => []
    | lines :: out => news_row (Found e i r) :: puppi_rows test lines ++ (if (test =? 50)%nat then [] else puppi_story (S test) l out)
    end
  end.
