(** What the testbench (simple_fullpfalgo_test.cpp:115-131) checks about a
    reference output [r] and a firmware output [o]: every slot is accepted by
    pf_equals. *)
From Verif Require Import Base Data PFHw TestUtils.

Definition agree (r o : pfout) : Prop :=
  Forall2 (fun a b => pf_equals_ch a b = true) (o_ch r) (o_ch o) /\
  Forall2 (fun a b => pf_equals_ne a b = true) (o_pho r) (o_pho o) /\
  Forall2 (fun a b => pf_equals_ne a b = true) (o_ne r) (o_ne o) /\
  Forall2 (fun a b => pf_equals_ch a b = true) (o_mu r) (o_mu o).

(** equal in every field the algorithm writes (hwPtPuppi is left untouched by it) *)
Definition same_ne (a b : PFNe) : Prop :=
  n_pt a = n_pt b /\ n_eta a = n_eta b /\ n_phi a = n_phi b /\ n_id a = n_id b.

(** an equivalence relation as a boolean function *)
Definition equivb {T} (f : T -> T -> bool) : Prop :=
  (forall x, f x x = true) /\ (forall x y, f x y = f y x) /\ (forall x y z, f x y = true -> f y z = true -> f x z = true).
