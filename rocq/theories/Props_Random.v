(** C71: the generator of random regions. *)
From Coq Require Import QArith.
From Verif Require Import Base Data VtxTest SpecVtxTest RandomInputs SpecRandom RandomProofs.
Local Open Scope Z_scope.

(** Full statement: every call of RandomPFInputs::nextRegion, with any arrays,
    gives a region whose tracks, clusters and muons are all drawn by it and in
    range.  It is false: only some slots are written, and energies are added to
    what is in the arrays. *)

(** One call: at least half of the track slots, never all, get a new track and
    the others are left as they were.  Every second track comes from the vertex
    (within 4 mm, plus the truncation).  A cluster gains at most 294 units per
    new track and loses none, unless a neutral one is drawn in its place, which
    only happens in odd slots of the first three quarters. *)
Theorem C71_region_partial : forall addf rnds NTRACK NCALO NMU B o a,
  adds addf -> rand_ok rnds -> (0 < NTRACK)%nat -> (1 < NCALO)%nat -> sized NTRACK NCALO NMU a -> 324 <= B -> B + 294 * Z.of_nat NTRACK < 2 ^ 15 ->
  Forall (random_calo B) (rr_calo a) ->
  exists n a' o', random_region addf rnds NTRACK NCALO NMU o a = Ok (a', o') /\ sized NTRACK NCALO NMU a' /\ (NTRACK / 2 <= n < NTRACK)%nat /\
    random_ok (B + 294 * Z.of_nat n) n a' /\
    (forall i t, (i < n)%nat -> nth_error (rr_track a') i = Some t -> exists t0, nth_error (rr_track a) i = Some t0 /\ t_tight t = t_tight t0) /\
    (forall i, (n <= i)%nat -> nth_error (rr_track a') i = nth_error (rr_track a) i) /\
    (forall i t, (i < n)%nat -> (i mod 2 = 0)%nat -> nth_error (rr_track a') i = Some t -> within 8 (t_z0 t - rr_zpv a')) /\
    (forall i c, nth_error (rr_calo a') i = Some c -> exists c0, nth_error (rr_calo a) i = Some c0 /\
      (rc_pt c0 <= rc_pt c <= rc_pt c0 + 294 * Z.of_nat n \/ (i mod 2 = 1)%nat /\ Z.of_nat i < 3 * Z.of_nat NCALO / 4 /\ 4 <= rc_pt c <= 324 + 294 * Z.of_nat n)).
Proof. exact c71_region. Qed.
Print Assumptions C71_region_partial.
(** n calls with arrays that were cleared once: in range as long as the
    energies fit; the last track slot is never filled. *)
Theorem C71_calls_partial : forall addf rnds NTRACK NCALO NMU n,
  adds addf -> rand_ok rnds -> (0 < NTRACK)%nat -> (1 < NCALO)%nat -> 324 + 294 * Z.of_nat NTRACK * Z.of_nat n < 2 ^ 15 ->
  exists l, random_regions addf rnds NTRACK NCALO NMU n 0 (cleared NTRACK NCALO NMU) = Ok l /\ length l = n /\
    Forall (fun a => sized NTRACK NCALO NMU a /\ random_ok (324 + 294 * Z.of_nat NTRACK * Z.of_nat n) (NTRACK / 2) a /\ nth_error (rr_track a) (NTRACK - 1) = Some (mkTk 0 0 0 0 0 false)) l.
Proof. exact c71_calls. Qed.
Print Assumptions C71_calls_partial.
(** More calls: some sequence of random numbers gives a cluster of negative
    energy in the 23rd region. *)
Theorem C71_reused_refuted : exists rnds, rand_ok rnds /\ forall addf, addf = truncate_first \/ addf = truncate_sum ->
  exists l a c, random_regions addf rnds 15 15 4 23 0 (cleared 15 15 4) = Ok l /\ nth_error l 22 = Some a /\ nth_error (rr_calo a) 0 = Some c /\ rc_pt c < 0.
Proof. exact c71_reused. Qed.
Print Assumptions C71_reused_refuted.
(** With room for one cluster or none, the number of clusters is taken modulo 0. *)
Theorem C71_one_cluster_refuted : forall addf rnds NTRACK NCALO NMU o a, (0 < NTRACK)%nat -> (NCALO <= 1)%nat -> random_region addf rnds NTRACK NCALO NMU o a = UB DivByZero.
Proof. exact c71_small. Qed.
Print Assumptions C71_one_cluster_refuted.

Theorem C71_additions : adds truncate_first /\ adds truncate_sum.
Proof. exact (conj first_adds sum_adds). Qed.
Print Assumptions C71_additions.
(** a sequence of numbers, the arrays of two configurations, and a region *)
Definition rx_rnds (i : nat) : Z := (Z.of_nat i * 1103515245 + 12345) mod 2 ^ 31.
Example C71_hyp : rand_ok rx_rnds /\ sized 7 5 2 (cleared 7 5 2) /\ Forall (random_calo 324) (rr_calo (cleared 7 5 2)) /\
  324 + 294 * Z.of_nat 7 * Z.of_nat 15 < 2 ^ 15 /\ 324 + 294 * Z.of_nat 15 * Z.of_nat 7 < 2 ^ 15 /\
  match random_region truncate_first rx_rnds 7 5 2 0 (cleared 7 5 2) with
  | Ok (a, _) => (0 <? t_pt (nth 0 (rr_track a) tk0)) && (0 <? t_pt (nth 2 (rr_track a) tk0)) && (t_pt (nth 6 (rr_track a) tk0) =? 0) && (0 <? sumZ (map rc_pt (rr_calo a))) | UB _ => false end = true.
Proof.
  split; [intros i; unfold rx_rnds; lia|]. split; [apply cleared_sized|]. split; [apply cleared_calo; lia|]. split; [reflexivity|]. split; [reflexivity|]. vm_compute. reflexivity.
Qed.
