(** What vertexing/simple_vtx_test.cpp prints on the console. *)
From Coq Require Import QArith Qabs Ascii String.
From Verif Require Import Base Fill SerText Vtx VtxTest.
Local Open Scope string_scope.
Local Open Scope list_scope.
Local Open Scope Z_scope.

(** ** std::cout << x for a float or double x: the conversion %g with six significant digits *)
Definition p10 (e : Z) : Q := (10 # 1) ^ e.
(** the decimal exponent of [x > 0], searched downwards from [e] (all doubles are between 10^-324 and 10^309) *)
Fixpoint exp10 (fuel : nat) (e : Z) (x : Q) : Z :=
  match fuel with O => e | S f => if Qle_bool (p10 e) x then e else exp10 f (e - 1) x end.
(** six digits (as a number from 100000 to 999999) and the exponent of the first; the rounding may give 1000000 *)
Definition six (x : Q) : Z * Z :=
  let e := exp10 (Z.to_nat 800) 400 x in
  let m := rneQ (x * p10 (5 - e)) in
  if m <? 1000000 then (m, e) else (m / 10, e + 1).
Definition six_digits (m : Z) : list Z := [m / 100000 mod 10; m / 10000 mod 10; m / 1000 mod 10; m / 100 mod 10; m / 10 mod 10; m mod 10].
(** trailing zeros are removed *)
Fixpoint drop_zeros (l : list Z) : list Z :=
  match l with [] => [] | d :: r => match drop_zeros r with [] => if d =? 0 then [] else [d] | r' => d :: r' end end.
Definition point (fraction : list Z) : list ascii := match fraction with [] => [] | _ => "."%char :: map digit fraction end.
(** scientific notation for exponents below -4 and from 6 on; the exponent has at least two digits *)
Definition exponent (e : Z) : list ascii :=
  let a := Z.abs e in
  "e"%char :: (if e <? 0 then "-"%char else "+"%char) :: map digit ((if a <? 100 then [] else [a / 100]) ++ [a / 10 mod 10; a mod 10]).
Definition g6 (x : Q) : list ascii :=
  if Qeq_bool x 0 then ["0"%char] else
  (if Qle_bool 0 x then [] else ["-"%char]) ++
  let (m, e) := six (Qabs x) in let ds := six_digits m in
  if (e <? -4) || (6 <=? e) then map digit (firstn 1 ds) ++ point (drop_zeros (skipn 1 ds)) ++ exponent e
  else if e <? 0 then "0"%char :: point (repeat 0 (Z.to_nat (- e - 1)) ++ drop_zeros ds)
  else map digit (firstn (Z.to_nat (e + 1)) ds) ++ point (drop_zeros (skipn (Z.to_nat (e + 1)) ds)).

(** ** simple_vtx_test.cpp:51 *)
Definition vt_text (l : Z * Z * Q) : list ascii :=
  let '(hw, ref, true_z) := l in
  chars "====>  hardware dZ:" ++ g6 (inject_Z hw) ++ chars " -- emulated dZ: " ++ g6 (inject_Z ref) ++ chars " -- True dZ: " ++ g6 true_z ++ [newline].
(** simple_vtx_test.cpp:10-54: the exit code and the text on the console *)
Definition vt_main_say (z0bin convertZ0 : Z -> Z) (rnds : nat -> Z) (hv rv : vtxobj) : res (Z * list ascii) :=
  do (code, out) <- vt_main z0bin convertZ0 rnds hv rv; Ok (code, List.concat (map vt_text out)).
