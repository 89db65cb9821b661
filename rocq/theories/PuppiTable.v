(** The table of puppi weights: puppi/firmware/simple_puppi.h:13-44.
    log, sqrt and pow of the C library are arguments; every other operation is
    rounded as IEEE 754 prescribes (no number here exceeds 2^31, so there is no
    overflow and the finite results suffice). *)
From Coq Require Import QArith Qround Qabs.
From Verif Require Import Base Fill Puppi.
Local Open Scope Z_scope.

(** log, sqrt, and pow with exponent 4 *)
Record libm := mkLibm { lm_log : Q -> Q; lm_sqrt : Q -> Q; lm_pow4 : Q -> Q }.
Definition r32 (x : Q) : Q := rnd 24 (-149) x.
Definition r64 (x : Q) : Q := rnd 53 (-1074) x.
(** the literals of simple_puppi.h:14, as doubles *)
Definition erf_a : Q := r64 (278393 # 1000000).
Definition erf_b : Q := r64 (230389 # 1000000).
Definition erf_c : Q := r64 (972 # 1000000).
Definition erf_d : Q := r64 (78108 # 1000000).
(** simple_puppi.h:14: double arithmetic, from left to right, stored in a float *)
Definition erf_denom (x : Q) : Q :=
  let s1 := r64 (1 + r64 (erf_a * x)) in
  let s2 := r64 (s1 + r64 (r64 (erf_b * x) * x)) in
  let s3 := r64 (s2 + r64 (r64 (r64 (erf_c * x) * x) * x)) in
  let s4 := r64 (s3 + r64 (r64 (r64 (r64 (erf_d * x) * x) * x) * x)) in
  r32 s4.
(** simple_puppi.h:13-17 *)
Definition erf_approx (m : libm) (x : Q) : Q := r32 (r64 (1 - r64 (1 / lm_pow4 m (erf_denom x)))).
(** simple_puppi.h:20-34: alphaMed = 10, alphaRms = 2; 2.0f * 2.0f is 4 *)
Definition weight_function_float (m : libm) (e : Q) : Q :=
  let alpha := r32 (lm_log m (r32 (e + 1))) in
  let d := r32 (alpha - 10) in
  let sigmas := r32 (r32 (d * d) / 4) in
  let weight := erf_approx m (r32 (lm_sqrt m (r64 (sigmas / 2)))) in
  let weight := if Qle_bool 10 alpha then weight else 0%Q in
  r32 (r64 (weight * 256)).
(** conversion of a floating-point number to ap_uint<8>: towards zero, the low 8 bits *)
Definition to_u8 (x : Q) : Z := wrapU 8 (if Qle_bool 0 x then Qfloor x else - Qfloor (- x)).
(** simple_puppi.h:36-45; float(ii << 10) is exact *)
Definition puppi_entry (m : libm) (ii : Z) : Z := to_u8 (weight_function_float m (r32 (inject_Z (ii * 1024)))).
Definition puppi_table (m : libm) : list Z := map (fun i => puppi_entry m (Z.of_nat i)) (seq 0 (Z.to_nat PUPPI_TABLE_SIZE)).
