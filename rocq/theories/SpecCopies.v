(** Specification of how often the regionizers copy an object (C96).  It uses
    the windows of SpecRegion. *)
From Verif Require Import Base Regionizer SpecRegion.

Section copies.
Context {A : Type}.
Implicit Types (x o : robj A) (l : list (robj A)) (objs : nat -> list (robj A)).

(** the objects in a list of slots *)
Definition held l : list (robj A) := filter (fun x => 0 <? r_pt x) l.

(** What region (ie, ip) is offered by the sectors, which have received [objs]:
    the objects of its eta slice in its three sectors, in its own coordinates. *)
Definition offered objs (ie ip : nat) : list (robj A) :=
  flat_map (fun j => map (local_phi j) (slice_cands ie (objs (region_sector ip j)))) [0; 1; 2]%nat.
(** ... and it all fits: [nsec] objects of each sector, [nreg] in the region *)
Definition fits_in (nsec nreg : nat) objs (ie ip : nat) : Prop :=
  (forall j, (j < 3)%nat -> (length (slice_cands ie (objs (region_sector ip j))) <= nsec)%nat) /\ (length (offered objs ie ip) <= nreg)%nat.

(** In how many regions an object belongs.  Around the ring: an odd sector is
    the middle of one region, an even one is shared by two.  In eta: the three
    slices overlap for 57 <= |eta| <= 171 and end at 342. *)
Definition eta_copies x : Z :=
  let a := Z.abs (r_eta x) in if 342 <? a then 0 else if (57 <=? a) && (a <=? 171) then 2 else 1.
Definition copies (s : nat) x : Z := (if Nat.odd s then 1 else 2) * eta_copies x.

(** The same for the muons of the four muon sectors: region [ip] takes the
    muons within 180 units of its centre. *)
Definition mu_here (ie ip m : nat) x : bool :=
  (0 <? r_pt x) && in_slice ie x && (-180 <? muon_local ip m (r_phi x)) && (muon_local ip m (r_phi x) <=? 180).
Definition mu_offered objs (ie ip : nat) : list (robj A) :=
  flat_map (fun m => map (fun x => mkR (r_pt x) (r_eta x - slice_centre ie) (muon_local ip m (r_phi x)) (r_rest x)) (filter (mu_here ie ip m) (objs m))) [0; 1; 2; 3]%nat.
(** the centres of the regions are 240 units apart: one region for a muon up to 60
    units from a centre, two in between *)
Definition mu_copies (m : nat) x : Z :=
  let u := (r_phi x + 360 * Z.of_nat m) mod 240 in (if (60 <? u) && (u <=? 180) then 2 else 1) * eta_copies x.

(** the same for a muon of one of the twelve sectors that are merged into four *)
Definition mu_copies12 (s : nat) x : Z :=
  let u := (r_phi x + 120 * (Z.of_nat s - 1)) mod 240 in (if (60 <? u) && (u <=? 180) then 2 else 1) * eta_copies x.

(** the sum of [f] (a function of what the regionizers leave alone: the pt and
    the payload) over the objects of a list, and over all regions *)
Definition total (f : Z -> A -> Z) l : Z := sumZ (map (fun o => f (r_pt o) (r_rest o)) (held l)).
Definition total_out (f : Z -> A -> Z) (regions : list (list (robj A))) : Z := sumZ (map (total f) regions).
(** the same over the inputs of [n] sectors, each object counted [c] times *)
Definition total_in (c : nat -> robj A -> Z) (f : Z -> A -> Z) (n : nat) objs : Z :=
  sumZ (map (fun s => sumZ (map (fun x => c s x * f (r_pt x) (r_rest x)) (held (objs s)))) (seq 0 n)).
End copies.
