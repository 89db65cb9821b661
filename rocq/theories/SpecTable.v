(** What is asked of the C library's log, sqrt and pow: that they increase, and
    a few values (ln 21505 = 9.976..., ln 22529 = 10.022..., ln 1201153 =
    13.998..., sqrt 2 = 1.414..., 3^4 = 81). *)
From Coq Require Import QArith Qabs.
From Verif Require Import Base PuppiTable.

Definition increasing_from (lo : Q) (f : Q -> Q) : Prop := forall x y, (lo <= x)%Q -> (x <= y)%Q -> (f x <= f y)%Q.
Definition libm_ok (m : libm) : Prop :=
  (increasing_from 1 (lm_log m) /\ lm_log m (21505 # 1) <= 999 # 100 /\ 10 # 1 <= lm_log m (22529 # 1) /\ lm_log m (1201153 # 1) <= 14 # 1)%Q /\
  (increasing_from 0 (lm_sqrt m) /\ 0 <= lm_sqrt m 0 /\ lm_sqrt m (2 # 1) <= 3 # 2)%Q /\
  (increasing_from 1 (lm_pow4 m) /\ 1 <= lm_pow4 m 1 /\ lm_pow4 m (3 # 1) <= 82 # 1)%Q.

(** ... and that sqrt and pow are accurate to a millionth where they are used *)
Definition libm_accurate (m : libm) : Prop :=
  (forall x, 0 <= x -> x <= 2 # 1 -> 0 <= lm_sqrt m x /\ lm_sqrt m x * lm_sqrt m x <= x + (1 # 1000000) /\ x - (1 # 1000000) <= lm_sqrt m x * lm_sqrt m x)%Q /\
  (forall x, 1 <= x -> x <= 3 # 1 -> x * x * (x * x) * (1 - (1 # 1000000)) <= lm_pow4 m x /\ lm_pow4 m x <= x * x * (x * x) * (1 + (1 # 1000000)))%Q.
(** Abramowitz and Stegun 7.1.27: erf s to 5e-4 *)
Definition erf_poly (s : Q) : Q := (1 + (278393 # 1000000) * s + (230389 # 1000000) * s * s + (972 # 1000000) * s * s * s + (78108 # 1000000) * s * s * s * s)%Q.
Definition erf_7_1_27 (s : Q) : Q := (1 - 1 / (erf_poly s * erf_poly s * (erf_poly s * erf_poly s)))%Q.
(** [w], of 256, is the weight of a particle [alpha] of whose logarithm is [l]:
    erf (z / sqrt 2), rounded down, where z is the number of standard
    deviations (half the distance) above 10 *)
Definition weight_at (l : Q) (w : Z) : Prop :=
  exists s, (0 <= s /\ Qabs (s * s - (l - 10) * (l - 10) / (8 # 1)) <= 1 # 100000)%Q /\
    (inject_Z w <= 256 * erf_7_1_27 s + (1 # 1000) /\ 256 * erf_7_1_27 s - (1 # 1000) < inject_Z w + 1)%Q.
