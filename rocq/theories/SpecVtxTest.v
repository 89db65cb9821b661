(** What is asked of rand() and of the two functions simple_vtx.cpp lacks. *)
From Coq Require Import QArith.
From Verif Require Import Base VtxTest.
Local Open Scope Z_scope.

Definition rand_ok (rnds : nat -> Z) : Prop := forall i, 0 <= rnds i <= 2147483647.
(** the slice of a z0 the program can produce, and the centre of a slice, as in the reference *)
Definition bins_ok (z0bin : Z -> Z) : Prop := forall z, -7 <= z <= 167 -> z0bin z = if z <? 20 then 0 else z / 20.
Definition centres_ok (convertZ0 : Z -> Z) : Prop := forall b, 0 <= b < 15 -> convertZ0 b = 20 * b + 10.
(** calls of rand() before test [i]: 4, and 5 per track (24 to 48 of pileup, 7 to 14 of the vertex) *)
Fixpoint calls_before (rnds : nat -> Z) (i : nat) : nat :=
  match i with
  | O => O
  | S i' => let o := calls_before rnds i' in
      (o + 4 + 5 * Z.to_nat (rnds (o + 2)%nat mod 49 / 2 + 24 + rnds (o + 3)%nat mod 15 / 2 + 7))%nat
  end.
(** [v] is a number within [e] of [x], truncated towards zero *)
Definition truncated (e x : Q) (v : Z) : Prop := exists y, (x - e <= y)%Q /\ (y <= x + e)%Q /\
  ((0 <= y)%Q -> (inject_Z v <= y)%Q /\ (y < inject_Z v + 1)%Q) /\ ((y < 0)%Q -> (inject_Z v - 1 < y)%Q /\ (y <= inject_Z v)%Q).
(** a random fraction *)
Definition unif (r : Z) : Q := inject_Z r / 2147483647.
(** pt in quarters of a GeV (2 to 22 for pileup, 2 to 102 from the vertex), z in twentieths of a cm; [o] is
    the first of the five numbers drawn for the track.  Pileup is anywhere; a vertex track is 0.35 cm before
    the vertex, except when a number drawn is the largest possible *)
Definition pileup_like (rnds : nat -> Z) (o : nat) (u : Bhv.vtrack) : Prop :=
  truncated (1 # 1000) (8 + 80 * unif (rnds o)) (Bhv.v_pt u) /\ truncated (1 # 1000) (80 * (unif (rnds (o + 3)%nat) + unif (rnds (o + 4)%nat))) (Bhv.v_z0 u).
Definition vertex_like (rnds : nat -> Z) (z : Q) (o : nat) (u : Bhv.vtrack) : Prop :=
  truncated (1 # 1000) (8 + 400 * unif (rnds o)) (Bhv.v_pt u) /\
  (rnds (o + 3)%nat <> 2147483647 -> rnds (o + 4)%nat <> 2147483647 -> truncated (1 # 1000) (20 * z - 7) (Bhv.v_z0 u)).
