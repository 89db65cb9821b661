(** The test program of the simple vertex finders: vertexing/simple_vtx_test.cpp.
    [rnds] is the sequence of numbers rand() returns; [o] the number of calls
    made so far. *)
From Coq Require Import QArith Qround.
From Verif Require Import Base Fill PuppiTable Bhv Vtx.
Local Open Scope Z_scope.

(** RAND_MAX of glibc *)
Definition RAND_MAX : Z := 2147483647.
(** simple_vtx_test.cpp:4-6, 14-15: NTEST; nSubSector = NALLTRACK/NSECTOR, which
    expands to 1 << 6/1; nSubPV = 15/1 *)
Definition VT_NTEST : nat := 50.
Definition nSubSector : nat := 64.
Definition nSubPV : Z := 15.

(** float(rand())/RAND_MAX and rand()/float(RAND_MAX) *)
Definition frac (r : Z) : Q := r32 (r32 (inject_Z r) / r32 (inject_Z RAND_MAX)).
(** simple_vtx_test.cpp:19, 29: the sum of two such numbers; lines 20, 30: times zPU = 4 *)
Definition gaus_z (r1 r2 : Z) : Q := r32 (r32 (frac r1 + frac r2) * 4).
(** conversion of a floating-point number to ap_int<n>: towards zero, the low n bits *)
Definition to_ap (n : Z) (x : Q) : Z := wrapS n (if Qle_bool 0 x then Qfloor x else - Qfloor (- x)).

(** simple_vtx_test.cpp:28-35: hwPt and hwZ0 of a pileup track (the other fields are not read by
    the vertex finders), from 5 calls of rand(): pt, eta, phi, and 2 for z *)
Definition pu_track (rnds : nat -> Z) (o : nat) : vtrack :=
  let pt := r32 (r32 (20 * frac (rnds o)) + 2) in
  mkVtrack (to_ap 16 (r64 (pt * 4))) (to_ap 10 (r64 (gaus_z (rnds (o + 3)%nat) (rnds (o + 4)%nat) * 20))).
(** simple_vtx_test.cpp:38-45: a track of the primary vertex; the divisions of line 39 are integer divisions *)
Definition zPVSig : Q := r32 (7 # 10).
Definition pv_track (rnds : nat -> Z) (zPV : Q) (o : nat) : vtrack :=
  let pt := r32 (r32 (100 * frac (rnds o)) + 2) in
  let pGaus := r32 (r64 ((1 # 2) * inject_Z (rnds (o + 3)%nat / RAND_MAX + rnds (o + 4)%nat / RAND_MAX))) in
  let pZPV := r32 (r64 (r64 (r64 (pGaus - (1 # 2)) * zPVSig) + zPV)) in
  mkVtrack (to_ap 16 (r64 (pt * 4))) (to_ap 10 (r64 (pZPV * 20))).

(** simple_vtx_test.cpp:22-23 *)
Definition npu_of (r : Z) : nat := Z.to_nat (r mod (Z.of_nat nSubSector - nSubPV) / 2 + (Z.of_nat nSubSector - nSubPV) / 2).
Definition npv_of (r : Z) : nat := Z.to_nat (r mod nSubPV / 2 + nSubPV / 2).
(** simple_vtx_test.cpp:19-46: the 64 tracks, zPV and the number of calls of rand() after it *)
Definition make_tracks (rnds : nat -> Z) (o : nat) : res (list vtrack * Q * nat) :=
  let zPV := gaus_z (rnds o) (rnds (o + 1)%nat) in
  let npu := npu_of (rnds (o + 2)%nat) in
  let npv := npv_of (rnds (o + 3)%nat) in
  do t <- foldM (fun t i => wr t i (pu_track rnds (o + 4 + 5 * i)%nat)) (seq 0 npu) (repeat (mkVtrack 0 0) nSubSector);
  do t <- foldM (fun t i => wr t i (pv_track rnds zPV (o + 4 + 5 * i)%nat)) (seq npu npv) t;
  Ok (t, zPV, (o + 4 + 5 * (npu + npv))%nat).

(** simple_vtx_test.cpp:18-52: one test.  The two vertex objects keep their
    content from one test to the next; a line is (hardware dZ, emulated dZ,
    true dZ). *)
Definition vt_step (z0bin convertZ0 : Z -> Z) (rnds : nat -> Z) (st : nat * vtxobj * vtxobj * list (Z * Z * Q)) (test : nat) : res (nat * vtxobj * vtxobj * list (Z * Z * Q)) :=
  let '(o, hv, rv, out) := st in
  do (t, zPV, o') <- make_tracks rnds o;
  do hv' <- simple_vtx_hwopt z0bin convertZ0 6 t hv;
  do rv' <- simple_vtx_ref t rv;
  Ok (o', hv', rv', out ++ [(x_z0 hv', x_z0 rv', r64 (zPV * 20))]).
(** simple_vtx_test.cpp:10-54: the exit code and what is printed *)
Definition vt_main (z0bin convertZ0 : Z -> Z) (rnds : nat -> Z) (hv rv : vtxobj) : res (Z * list (Z * Z * Q)) :=
  do (_, _, _, out) <- foldM (vt_step z0bin convertZ0 rnds) (seq 1 VT_NTEST) (O, hv, rv, []);
  Ok (0, out).
