(** Specification of the regionizer, independent of the model's loops.  It uses
    the object record and the cleared object of Regionizer.v. *)
From Coq Require Import Permutation.
From Verif Require Import Base Regionizer SpecSort.

Section spec.
Context {A : Type} (d : A).
Implicit Types (x o : robj A) (l objs cands out : list (robj A)).

(** [out] is the list of the [n] highest-pt candidates in decreasing pt, the
    earlier candidate first among equal pts, followed by cleared slots. *)
Definition kept (n : nat) cands out : Prop :=
  exists top, top_n r_pt false n cands top /\ out = top ++ repeat (rclear d) (n - length top).

(** the objects a sector receives, in order of arrival: entry 0 of its [nf]
    fibres, then entry 1, ..., [cnt] entries of each *)
Definition arrivals (nf cnt : nat) (fibers : list (list (robj A))) (s : nat) : list (robj A) :=
  flat_map (fun io => flat_map (fun f =>
    match nth_error (nth (nf * s + f) fibers []) io with Some x => [x] | None => [] end) (seq 0 nf)) (seq 0 cnt).

(** the three overlapping eta slices, in units of the hardware eta *)
Definition slice_lo (ie : nat) : Z := match ie with O => -342 | S O => -171 | _ => 57 end.
Definition slice_hi (ie : nat) : Z := match ie with O => -57 | S O => 171 | _ => 342 end.
Definition slice_centre (ie : nat) : Z := match ie with O => -171 | S O => 0 | _ => 171 end.
Definition in_slice (ie : nat) x : bool := (slice_lo ie <=? r_eta x) && (r_eta x <=? slice_hi ie).

(** the same object with eta relative to the centre of the slice *)
Definition local_eta (ie : nat) x : robj A := mkR (r_pt x) (r_eta x - slice_centre ie) (r_phi x) (r_rest x).
Definition slice_cands (ie : nat) objs : list (robj A) :=
  map (local_eta ie) (filter (fun x => (0 <? r_pt x) && in_slice ie x) objs).

(** region [ip] is centred on sector 2 ip + 1 and takes that sector and its two
    neighbours ([j] = 0, 1, 2); sectors are 120 units wide, 12 around the ring *)
Definition region_sector (ip j : nat) : nat := ((2 * ip + j) mod 12)%nat.
(** the same object with phi relative to the centre of the region (10 bits) *)
Definition local_phi (j : nat) x : robj A :=
  mkR (r_pt x) (r_eta x) (wrapS 10 (r_phi x + 120 * (Z.of_nat j - 1))) (r_rest x).

(** a region: in each of its three sectors keep [nsec] objects, then keep
    [nreg] of those *)
Definition region_spec (nsec nreg : nat) (objs : nat -> list (robj A)) (ie ip : nat) out : Prop :=
  exists t0 t1 t2,
    top_n r_pt false nsec (slice_cands ie (objs (region_sector ip 0))) t0 /\
    top_n r_pt false nsec (slice_cands ie (objs (region_sector ip 1))) t1 /\
    top_n r_pt false nsec (slice_cands ie (objs (region_sector ip 2))) t2 /\
    kept nreg (map (local_phi 0) t0 ++ map (local_phi 1) t1 ++ map (local_phi 2) t2) out.

(** a sorted list of [n] slots: positive decreasing pts, then cleared slots *)
Definition sorted_slots (n : nat) l : Prop :=
  exists p, l = p ++ repeat (rclear d) (n - length p) /\ (length p <= n)%nat /\
    (forall x, In x p -> 0 < r_pt x) /\
    (forall i j x y, (i < j)%nat -> nth_error p i = Some x -> nth_error p j = Some y -> r_pt y <= r_pt x).

(** the real objects of a list of slots, shifted in phi (10 bits) *)
Definition shifted (s : Z) l : list (robj A) :=
  map (fun x => mkR (r_pt x) (r_eta x) (wrapS 10 (r_phi x + s)) (r_rest x)) (filter (fun x => 0 <? r_pt x) l).
End spec.

(** An array of the right dimensions. *)
Definition dims2 {T} (n m : nat) (l : list (list T)) : Prop :=
  length l = n /\ forall a, In a l -> length a = m.
Definition dims3 {T} (n m k : nat) (l : list (list (list T))) : Prop :=
  length l = n /\ forall a, In a l -> dims2 m k a.

(** Global coordinates of an object: eta from the centre of the detector, phi
    on the ring of 1440 units, where sector [s] has its centre at 120 s + 60 - 720
    and region [ip] has the centre of sector 2 ip + 1. *)
Definition sector_phi (s : nat) (phi : Z) : Z := (phi + 120 * Z.of_nat s + 60 - 720) mod 1440.
Definition region_phi (ip : nat) (phi : Z) : Z := sector_phi (2 * ip + 1) phi.
Definition region_eta (ie : nat) (eta : Z) : Z := eta + slice_centre ie.

(** ** muons: 4 sectors of 360 units, muon sector [m] centred on calorimeter
    sector 3 m + 1 *)
Definition muon_phi (m : nat) (phi : Z) : Z := sector_phi (3 * m + 1) phi.

(** phi of a muon of muon sector [m] relative to region [ip], in (-720, 720] *)
Definition muon_local (ip m : nat) (phi : Z) : Z :=
  let d := (phi + 120 * (Z.of_nat (3 * m + 1) - Z.of_nat (2 * ip + 1))) mod 1440 in
  if d <=? 720 then d else d - 1440.

(** Successive calls of a regionizer with a static work area: the k-th call is
    given the k-th array of [regs] to fill, the fibres left by the previous
    call and the static area left by it. *)
Section calls.
Context {T : Type} (call : list (list (list T)) -> list (list T) -> list (list T) -> res (list (list T) * list (list T) * list (list (list T)))).
Fixpoint calls (regs : list (list (list T))) (static : list (list (list T))) (fibers : list (list T)) : res (list (list (list T)) * list (list T)) :=
  match regs with
  | [] => Ok ([], fibers)
  | r :: regs => do (out, fibers, static) <- call static fibers r;
                 do (outs, fibers) <- calls regs static fibers;
                 Ok (out :: outs, fibers)
  end.
End calls.

(** what call number [k] reads when each call reads [cnt] entries per fibre *)
Definition chunk {T} (cnt k : nat) (fibers : list (list T)) : list (list T) :=
  map (fun fib => firstn cnt (skipn (k * cnt) fib)) fibers.
