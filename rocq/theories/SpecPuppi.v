(** Specification of PUPPI, independent of the model: e^alpha is a plain sum
    over charged objects, the weight a table lookup. *)
From Verif Require Import Base Data SpecPF.

(** contribution of charged object [c] to neutral [n] for the vertex at [z] *)
Definition alpha_term (z : Z) (c : PFCh) (n : PFNe) : Z :=
  if (Z.abs (z - c_z0 c) <=? 256) && (dist2 (c_eta c) (c_phi c) (n_eta n) (n_phi n) <=? 8404)
  then Z.min (c_pt c * c_pt c / 32) 131071
       * (32768 / Z.max 1 (dist2 (c_eta c) (c_phi c) (n_eta n) (n_phi n) / 32))
  else 0.
Definition alpha_sum (z : Z) (pfch : list PFCh) (n : PFNe) : Z := sumZ (map (fun c => alpha_term z c n) pfch).

(** weighted pt: table index = sum / 1024; below 1 nothing survives, from 1174
    on everything does *)
Definition puppi_pt (tab : list Z) (pt sum : Z) : Z :=
  let e := sum / 1024 in
  if e <=? 0 then 0
  else if e <? 1174 then pt * nth (Z.to_nat e) tab 0 / 256
  else pt.

(** the ap_uint<8> table *)
Definition table_ok (tab : list Z) : Prop := Z.of_nat (length tab) = 1174 /\ Forall (fun w => 0 <= w <= 255) tab.
Definition table_monotone (tab : list Z) : Prop :=
  forall i j, (i <= j)%nat -> (j < length tab)%nat -> nth i tab 0 <= nth j tab 0.

Definition set_puppi (n : PFNe) (p : Z) : PFNe := mkNe (n_pt n) (n_eta n) (n_phi n) (n_id n) p.

(** conversion to int keeps the low 32 bits *)
Definition to_int (x : Z) : Z := (x + 2147483648) mod 4294967296 - 2147483648.
Definition is_int (x : Z) : Prop := -2147483648 <= x < 2147483648.
(** the sum whose terms are first converted to int *)
Definition int_alpha_sum (z : Z) (pfch : list PFCh) (n : PFNe) : Z := sumZ (map (fun c => to_int (alpha_term z c n)) pfch).
(** a negative sum counts as infinite activity *)
Definition int_puppi_pt (tab : list Z) (pt sum : Z) : Z := if sum <? 0 then pt else puppi_pt tab pt sum.
