(** Vocabulary for filling objects from floating point. *)
From Coq Require Import QArith Qabs.
From Verif Require Import Base Data Discrete DiscreteIO SpecIO Fill.
Local Open Scope Z_scope.

(** [x] is the number with the binary32 pattern [b] *)
Definition f32_number (b : Z) (x : Q) : Prop := inU 32 b /\ f32_finite b /\ (x == (if 2 ^ 31 <=? b then - f32_abs b else f32_abs b))%Q.
(** [n] is the integer nearest to [y], halves away from zero *)
Definition nearest (y : Q) (n : Z) : Prop := (Qabs (inject_Z n - y) < 1 # 2)%Q \/ (Qabs (inject_Z n - y) == 1 # 2 /\ Qabs y <= Qabs (inject_Z n))%Q.
(** [y] is well inside the range of the type (resp. outside) *)
Definition well_inside (y : Q) (lo hi : Z) : Prop := (inject_Z lo - (49 # 100) <= y /\ y <= inject_Z hi + (49 # 100))%Q.
Definition well_outside (y : Q) (lo hi : Z) : Prop := (y < inject_Z lo - (51 # 100) \/ inject_Z hi + (51 # 100) < y)%Q.
(** [f] stores [y], a number of units, in a type with the values from [lo] to [hi] *)
Definition stores (y : Q) (f : res Z) (lo hi : Z) : Prop :=
  (forall n, f = Ok n -> lo <= n <= hi /\ (Qabs (inject_Z n - y) <= (1 # 2) + (1 # 200))%Q) /\
  (well_inside y lo hi -> exists n, f = Ok n) /\ (well_outside y lo hi -> f = UB BadConversion).
(** the same object, not used yet *)
Definition unused (c : Clu) : Clu := mkClu (cl_pt c) (cl_empt c) (cl_pterr c) (cl_eta c) (cl_phi c) (cl_flags c) (cl_isem c) false.
Definition fresh_track (t : PTk) : PTk := mkPTk (pt_in t) (pt_pt t) (pt_pterr t) (pt_calopterr t) (pt_eta t) (pt_phi t) false false (pt_frompv t).
