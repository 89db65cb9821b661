(** What is asked of the generator of random regions. *)
From Coq Require Import QArith Qround.
From Verif Require Import Base Data RandomInputs.
Local Open Scope Z_scope.

(** Adding a float to an ap_int<16>: whether the float is truncated first or
    the sum is, this is the result when both are non-negative. *)
Definition adds (addf : Z -> Q -> Z) : Prop := forall x q, 0 <= x -> (0 <= q)%Q -> addf x q = wrapS 16 (x + Qfloor q).
Definition within (b x : Z) : Prop := - b <= x <= b.
(** 2 to 52 GeV (one unit is 0.25), |eta| and |phi| up to 1 (229.2 units), |z| up to 15 cm (300 units) *)
Definition random_track (t : Tk) : Prop := 8 <= t_pt t <= 208 /\ 17 <= t_pterr t <= 57 /\ within 229 (t_eta t) /\ within 229 (t_phi t) /\ within 300 (t_z0 t).
Definition random_muon (m : Mu) : Prop := 8 <= m_pt m <= 208 /\ 17 <= m_pterr m <= 57 /\ within 229 (m_eta m) /\ within 229 (m_phi m).
(** a cluster with a pt of at most B units, |eta| and |phi| up to 1.15 (263.6 units) *)
Definition random_calo (B : Z) (c : rcalo) : Prop := 0 <= rc_pt c <= B /\ within 263 (rc_eta c) /\ within 263 (rc_phi c).
Definition sized (NTRACK NCALO NMU : nat) (a : rregion) : Prop := length (rr_track a) = NTRACK /\ length (rr_calo a) = NCALO /\ length (rr_mu a) = NMU.
(** a region whose clusters have at most B units *)
Definition random_ok (B : Z) (n : nat) (a : rregion) : Prop :=
  (forall i t, (i < n)%nat -> nth_error (rr_track a) i = Some t -> random_track t) /\ Forall (random_calo B) (rr_calo a) /\ Forall random_muon (rr_mu a) /\ within 200 (rr_zpv a).
(** cleared arrays *)
Definition cleared (NTRACK NCALO NMU : nat) : rregion := mkRr (repeat (mkRc 0 0 0) NCALO) (repeat (mkTk 0 0 0 0 0 false) NTRACK) (repeat (mkMu 0 0 0 0) NMU) 0.
(** the two readings of x += q *)
Definition truncate_first (x : Z) (q : Q) : Z := wrapS 16 (x + (if Qle_bool 0 q then Qfloor q else - Qfloor (- q))).
Definition truncate_sum (x : Z) (q : Q) : Z := let s := (inject_Z x + q)%Q in wrapS 16 (if Qle_bool 0 s then Qfloor s else - Qfloor (- s)).
