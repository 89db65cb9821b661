(** The generator of random regions, utils/random_inputs.h.  [rnds] is the
    sequence of numbers rand() returns; [o] the number of calls made so far.
    Floating-point operations as in Fill.v and VtxTest.v. *)
From Coq Require Import QArith Qround.
From Verif Require Import Base Data Fill PuppiTable VtxTest.
Local Open Scope Z_scope.

(** data.h:55-57: CaloObj *)
Record rcalo := mkRc { rc_pt : Z; rc_eta : Z; rc_phi : Z }.

(** random_inputs.h:9-11: PT_SCALE is 4, Z0_SCALE is 20 *)
Definition ANGLE_SCALE : Q := r32 (r64 (720 / M_PI)).
(** random_inputs.h:16, 26, 44: (rand()/float(RAND_MAX))*2.0-1.0 assigned to a float *)
Definition rnd_angle (r : Z) : Q := r32 (r64 (r64 (frac r * 2) - 1)).
(** random_inputs.h:18-19, 30-31, 47-48: hwEta and hwPhi *)
Definition hw_angle (a : Q) : Z := to_ap 10 (r32 (a * ANGLE_SCALE)).
(** random_inputs.h:16, 26, 44: (rand()/float(RAND_MAX))*k+c *)
Definition rnd_pt (k c : Q) (r : Z) : Q := r32 (r32 (frac r * k) + c).
(** random_inputs.h:29, 34, 46: 0.2*pt+4 *)
Definition pt_err (pt : Q) : Q := r64 (r64 (r64 (1 # 5) * pt) + 4).

(** random_inputs.h:15-20: neutral clusters, at 1, 3, 5, ... below nneutral and NCALO *)
Fixpoint neutrals (rnds : nat -> Z) (NCALO : nat) (nneutral : Z) (fuel i o : nat) (calo : list rcalo) : res (list rcalo * nat) :=
  match fuel with
  | O => Ok (calo, o)
  | S fuel' =>
    if (Z.of_nat i <? nneutral) && (i <? NCALO)%nat then
      do calo' <- wr calo i (mkRc (to_ap 16 (r32 (rnd_pt 80 1 (rnds o) * 4))) (hw_angle (rnd_angle (rnds (o + 1)%nat))) (hw_angle (rnd_angle (rnds (o + 2)%nat))));
      neutrals rnds NCALO nneutral fuel' (i + 2) (o + 3) calo'
    else Ok (calo, o)
  end.

(** random_inputs.h:25-41: one charged particle.  [addf x q]: the low 16 bits
    of x += q for an ap_int x and a float q.  hwTightQuality is not assigned. *)
Definition charged (addf : Z -> Q -> Z) (rnds : nat -> Z) (NCALO : nat) (zPV : Q) (st : list rcalo * list Tk * nat) (i : nat) : res (list rcalo * list Tk * nat) :=
  let '(calo, track, o) := st in
  let pt := rnd_pt 50 2 (rnds o) in
  let eta := rnd_angle (rnds (o + 1)%nat) in
  let phi := rnd_angle (rnds (o + 2)%nat) in
  let fz := frac (rnds (o + 3)%nat) in
  let z := if (i mod 2 =? 0)%nat then r32 (r64 (r64 (zPV + r64 (fz * r64 (7 # 10))) - r64 (35 # 100))) else r32 (r32 (fz * 30) - 15) in
  do t <- rd track i;
  do track' <- wr track i (mkTk (to_ap 16 (r32 (pt * 4))) (to_ap 16 (r64 (pt_err pt * 4))) (hw_angle eta) (hw_angle phi) (to_ap 10 (r32 (z * 20))) (t_tight t));
  do icalo <- if (NCALO =? 0)%nat then UB DivByZero else Ok (Z.to_nat (Z.rem (rnds (o + 4)%nat) (Z.of_nat NCALO)));
  if (i mod 3 =? 1)%nat || (NCALO <=? icalo)%nat then Ok (calo, track', o + 5)%nat else
  let dpt := r32 (r64 (r64 (r32 (frac (rnds (o + 5)%nat) * 3) - (3 # 2)) * pt_err pt)) in
  let deta := r32 (r64 (r64 (frac (rnds (o + 6)%nat) * r64 (3 # 10)) - r64 (15 # 100))) in
  let dphi := r32 (r64 (r64 (frac (rnds (o + 7)%nat) * r64 (3 # 10)) - r64 (15 # 100))) in
  if Qle_bool (r32 (pt + dpt)) 0 then Ok (calo, track', o + 8)%nat else
  do c <- rd calo icalo;
  do calo' <- wr calo icalo (mkRc (addf (rc_pt c) (r32 (r32 (pt + dpt) * 4))) (hw_angle (r32 (eta + deta))) (hw_angle (r32 (phi + dphi))));
  Ok (calo', track', o + 8)%nat.

(** random_inputs.h:43-49 *)
Definition muon_at (rnds : nat -> Z) (st : list Mu * nat) (i : nat) : res (list Mu * nat) :=
  let '(mu, o) := st in
  let pt := rnd_pt 50 2 (rnds o) in
  do mu' <- wr mu i (mkMu (to_ap 16 (r32 (pt * 4))) (to_ap 16 (r64 (pt_err pt * 4))) (hw_angle (rnd_angle (rnds (o + 1)%nat))) (hw_angle (rnd_angle (rnds (o + 2)%nat))));
  Ok (mu', o + 3)%nat.

(** the arrays of the caller and hwZPV *)
Record rregion := mkRr { rr_calo : list rcalo; rr_track : list Tk; rr_mu : list Mu; rr_zpv : Z }.
(** random_inputs.h:13, 14: rand() % NTRACK/2 is (rand() % NTRACK)/2 *)
Definition ncharged (r : Z) (NTRACK : nat) : res nat :=
  if (NTRACK =? 0)%nat then UB DivByZero else Ok (Z.to_nat (Z.rem r (Z.of_nat NTRACK) / 2 + Z.of_nat NTRACK / 2)).
Definition nneutral (r : Z) (NCALO : nat) : res Z :=
  let m := 3 * Z.of_nat NCALO / 4 in if m =? 0 then UB DivByZero else Ok (Z.rem r m).
(** random_inputs.h:8-52: the filled arrays and the number of calls of rand() after it *)
Definition random_region (addf : Z -> Q -> Z) (rnds : nat -> Z) (NTRACK NCALO NMU o : nat) (a : rregion) : res (rregion * nat) :=
  do nc <- ncharged (rnds o) NTRACK;
  do nn <- nneutral (rnds (o + 1)%nat) NCALO;
  do (calo, o) <- neutrals rnds NCALO nn NCALO 1 (o + 2) (rr_calo a);
  let zPV := r32 (r32 (frac (rnds o) * 20) - 10) in
  do (calo, track, o) <- foldM (charged addf rnds NCALO zPV) (seq 0 (Nat.min nc NTRACK)) (calo, rr_track a, o + 1)%nat;
  do (mu, o) <- foldM (muon_at rnds) (seq 0 NMU) (rr_mu a, o);
  Ok (mkRr calo track mu (to_ap 10 (r32 (zPV * 20))), o).
(** a program that calls nextRegion n times with the same arrays *)
Fixpoint random_regions (addf : Z -> Q -> Z) (rnds : nat -> Z) (NTRACK NCALO NMU n o : nat) (a : rregion) : res (list rregion) :=
  match n with
  | O => Ok []
  | S n' => do (a', o') <- random_region addf rnds NTRACK NCALO NMU o a; do l <- random_regions addf rnds NTRACK NCALO NMU n' o' a'; Ok (a' :: l)
  end.
