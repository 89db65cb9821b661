(** What the decimal numbers in the summary of bram_hist_vtx_test should be. *)
From Coq Require Import QArith Qabs Ascii String.
From Verif Require Import Base SpecVtxConsole.
Local Open Scope list_scope.
Local Open Scope Z_scope.

(** half a unit of the third decimal, and a little for the float arithmetic *)
Definition tolerance : Q := 51 # 100000.
(** the word [w] shows [a/n]; [nan] for no tests *)
Definition shows_quotient (nan w : string) (a n : Z) : Prop :=
  (n = 0 -> w = nan) /\
  (n <> 0 -> exists v, real (list_ascii_of_string w) = Some v /\ (Qabs (v - inject_Z a / inject_Z n) <= tolerance)%Q).
(** the word [w] shows half the root of [s/n] *)
Definition shows_half_root (nan w : string) (s n : Z) : Prop :=
  (n = 0 -> w = nan) /\
  (n <> 0 -> exists v, real (list_ascii_of_string w) = Some v /\ (0 <= v)%Q /\
     (inject_Z s / inject_Z n <= (2 * (v + tolerance)) * (2 * (v + tolerance)))%Q /\
     ((tolerance <= v)%Q -> ((2 * (v - tolerance)) * (2 * (v - tolerance)) <= inject_Z s / inject_Z n)%Q)).
