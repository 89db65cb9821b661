(** Specification of how the regions respond to a rotated or mirrored
    detector, and to a different order of arrival. *)
From Verif Require Import Base Regionizer SpecRegion.

Section spec.
Context {A : Type} (d : A).

(** enough entries on every fibre of the 12 sectors *)
Definition fibres_ok (nobj nf : nat) (fibers : list (list (robj A))) : Prop :=
  length fibers = (nf * 12)%nat /\ forall fib, In fib fibers -> (nobj / nf <= length fib)%nat.

(** [out] is what the regionizers write for the event on [fibers], whatever
    was in their memory: the reference with [nf] fibres per sector, and the
    firmware with its one fibre and at least as many slots per region as per
    sector *)
Definition gives (nobj nsec nreg nf : nat) (fibers out : list (list (robj A))) : Prop :=
  (forall work regions, dims3 12 3 nsec work -> dims2 18 nreg regions ->
     exists rest static, regionize_ref d nobj nsec nreg nf work fibers regions = Ok (out, rest, static)) /\
  (nf = 1%nat -> (nsec <= nreg)%nat -> forall junk work regions, dims3 12 3 nsec work -> dims2 18 nreg regions ->
     exists rest, regionize_hw d nobj nsec nreg junk work fibers regions = Ok (out, rest)).
(** the same for the muons: 4 sectors of one fibre *)
Definition mu_ok (nmu : nat) (fibers : list (list (robj A))) : Prop := length fibers = 4%nat /\ forall fib, In fib fibers -> (nmu <= length fib)%nat.
Definition gives_muons (nmu : nat) (fibers out : list (list (robj A))) : Prop :=
  forall work regions, dims3 4 3 nmu work -> dims2 18 nmu regions ->
    exists rest static, regionize_muon_ref d nmu work fibers regions = Ok (out, rest, static).

(** the region in slice [ie] and phi sector [ip] *)
Definition region (out : list (list (robj A))) (ie ip : nat) : list (robj A) := nth (6 * ie + ip) out [].

(** [fibers'] is [fibers] with the detector turned by [n] fibres *)
Definition turned (n : nat) (fibers fibers' : list (list (robj A))) : Prop :=
  length fibers' = length fibers /\
  forall i, (i < length fibers)%nat -> nth i fibers' [] = nth ((i + n) mod length fibers) fibers [].

(** an object seen in a mirror at eta = 0 *)
Definition mirrored (x : robj A) : robj A := mkR (r_pt x) (- r_eta x) (r_phi x) (r_rest x).

(** the objects of a sector that have pt and lie in the slice *)
Definition present (ie : nat) (objs : list (robj A)) : list (robj A) := filter (fun x => (0 <? r_pt x) && in_slice ie x) objs.
End spec.
