(** The quotients and resolutions in the summary of vertexing/bram_hist_vtx_test.cpp
    (lines 126-128): what BhvConsole.v takes as the parameters [ratio] and
    [resolution]. *)
From Coq Require Import QArith Qround Qabs Ascii String.
From Verif Require Import Base Fill PuppiTable SerText.
Local Open Scope string_scope.
Local Open Scope list_scope.
Local Open Scope Z_scope.

(** %.3f of a finite number (C's conversion is exact: the nearest multiple of
    1/1000, halves to even).  %5.3f is the same, since the text has at least five
    characters; the sign of a negative zero is not modelled. *)
Definition f3 (x : Q) : list ascii :=
  let m := rneQ (Qabs x * 1000) in
  (if Qle_bool 0 x then [] else ["-"%char]) ++ dec (Z.to_nat (Z.log2 m + 2)) (m / 1000) ++ "."%char :: map digit [m / 100 mod 10; m / 10 mod 10; m mod 10].
(** sqrt of a double, correctly rounded (IEEE 754): the 53-bit number nearest to
    the root; the root of a double is never half-way between two doubles *)
Definition sqrt64 (x : Q) : Q :=
  if Qeq_bool x 0 then 0%Q else
  let e := expoQ x / 2 - 52 in
  (inject_Z ((Z.sqrt (Qfloor (x * (4 # 1) * (2 # 1) ^ (- 2 * e))) + 1) / 2) * (2 # 1) ^ e)%Q.
(** bram_hist_vtx_test.cpp:126-127 [%.3f] of [float(n)/(d)], both unsigned; [nan]
    is the text for 0/0, which differs between C libraries *)
Definition ratio3 (nan : list ascii) (n d : Z) : list ascii :=
  if d =? 0 then nan else f3 (r32 (r32 (inject_Z n) / r32 (inject_Z d))).
(** bram_hist_vtx_test.cpp:128 [%5.3f] of [0.5*sqrt(s/(n))] in double precision *)
Definition resolution3 (nan : list ascii) (s n : Z) : list ascii :=
  let q := r64 (r64 (inject_Z s) / r64 (inject_Z n)) in
  if (n =? 0) || negb (Qle_bool 0 q) then nan else f3 (r64 ((1 # 2) * sqrt64 q)).
