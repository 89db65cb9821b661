(** Model of vertexing/simple_vtx_ref.cpp and vertexing/firmware/simple_vtx.cpp.
    The number of tracks is the length of the list (NALLTRACK = 1 << NPOW in
    the header, firmware/data.h:15-19). *)
From Verif Require Export Base Bhv.

Definition NVTXBINS : nat := 15.
Definition VTXPTMAX : Z := 200.

(** firmware/data.h:106-111 [VtxObj] *)
Record vtxobj := mkVtx { x_sum : Z; x_z0 : Z; x_mult : Z; x_id : Z }.

(** simple_vtx_ref.cpp:17-19: the bin of a track.  The C++ computes
    [z0*1./20.*(NVTXBINS/15)] in double and converts to ap_int<5>: the double
    quotient truncates to the same integer as the exact one (a correctly
    rounded quotient cannot cross an integer, and it is exact on integers), so
    it is modelled as truncating integer division, then 5-bit wrap-around. *)
Definition ref_bin (z0 : Z) : Z :=
  let bin := wrapS 5 (Z.quot z0 20) in
  let bin := if bin <? 0 then 0 else bin in
  if bin >? Z.of_nat NVTXBINS then wrapS 5 (Z.of_nat NVTXBINS) else bin.

(** simple_vtx_ref.cpp:20-21 and simple_vtx.cpp:39-40: clipped pt *)
Definition clip_pt (pt : Z) : Z := if pt >? VTXPTMAX then VTXPTMAX else pt.

(** [a[i] = w-bit (a[i] + d)] on a C array *)
Definition bump (w : Z) (a : list Z) (i : Z) (d : Z) : res (list Z) :=
  if i <? 0 then UB OutOfBounds else
  do x <- rd a (Z.to_nat i); wr a (Z.to_nat i) (wrapS w (x + d)).

(** simple_vtx_ref.cpp:16-24: [vtxbin[bin]++; sumbin[bin] += pt] *)
Definition vtx_ref_fill (st : list Z * list Z) (t : vtrack) : res (list Z * list Z) :=
  let '(vb, sb) := st in
  do vb <- bump 5 vb (ref_bin (v_z0 t)) 1;
  do sb <- bump 16 sb (ref_bin (v_z0 t)) (clip_pt (v_pt t));
  Ok (vb, sb).

(** simple_vtx_ref.cpp:29-35: the scan; [it*20+10] is stored in a z0_t *)
Definition vtx_ref_scan (vb sb : list Z) (o : vtxobj) (it : nat) : res vtxobj :=
  do s <- rd sb it;
  if s >? x_sum o then do m <- rd vb it; Ok (mkVtx s (wrapS 10 (Z.of_nat it * 20 + 10)) m (x_id o)) else Ok o.

(** simple_vtx_ref.cpp:36, simple_vtx.cpp:93: the quality flag *)
Definition vtx_flag (o : vtxobj) : vtxobj := mkVtx (x_sum o) (x_z0 o) (x_mult o) (if x_mult o >? 3 then 1 else 0).

(** simple_vtx_ref.cpp:10-37 [simple_vtx_ref]; [old] is the previous content of
    [*outvtx]. *)
Definition simple_vtx_ref (tracks : list vtrack) (old : vtxobj) : res vtxobj :=
  do st <- foldM vtx_ref_fill tracks (repeat 0 NVTXBINS, repeat 0 NVTXBINS);
  let '(vb, sb) := st in
  do o <- foldM (vtx_ref_scan vb sb) (seq 0 NVTXBINS) (mkVtx 0 0 0 (x_id old));
  Ok (vtx_flag o).

(** simple_vtx.cpp:37-43 [fillVtx] on cleared rows; [z0bin] is a parameter (its
    definition in the file is commented out) returning an ap_int<5>. *)
Definition fillVtx (z0bin : Z -> Z) (t : vtrack) (vb sb : list Z) : res (list Z * list Z) :=
  let bin0 := wrapS 5 (z0bin (v_z0 t)) in
  let pt0 := clip_pt (v_pt t) in
  do vb <- bump 5 vb bin0 (if pt0 >? 0 then 1 else 0);
  do sb <- bump 16 sb bin0 pt0;
  Ok (vb, sb).

(** simple_vtx.cpp:66-69 *)
Definition fill_rows (z0bin : Z -> Z) (tracks : list vtrack) : res (list (list Z) * list (list Z)) :=
  do rows <- mapM (fun t => fillVtx z0bin t (repeat 0 NVTXBINS) (repeat 0 NVTXBINS)) tracks;
  Ok (map fst rows, map snd rows).

(** simple_vtx.cpp:76-79: the loop over j, as one element-wise row addition *)
Definition row_add (w : Z) (a b : list Z) : list Z :=
  map (fun p => wrapS w (fst p + snd p)) (combine a b).
Definition tree_add (w : Z) (pow : nat) (m : list (list Z)) (i : nat) : res (list (list Z)) :=
  do a <- rd m i; do b <- rd m (i + pow); wr m i (row_add w a b).

(** the values taken by [for (i = 0; i < n; i += step)] *)
Definition strided (n step : nat) : list nat := map (fun q => (q * step)%nat) (seq 0 ((n + step - 1) / step)).

(** simple_vtx.cpp:71-81: the tree reduction of one of the two arrays (they
    do not interact).  [pow] is an ap_int<7>: it holds [1<<k] for k <= 5. *)
Definition tree_reduce (w : Z) (npow : nat) (m : list (list Z)) : res (list (list Z)) :=
  foldM (fun m k => foldM (tree_add w (2 ^ k)) (strided (2 ^ npow) (2 ^ k * 2)) m) (seq 0 npow) m.

(** simple_vtx.cpp:84-90 *)
Definition vtx_hw_scan (vb sb : list Z) (o : vtxobj) (it : nat) : res vtxobj :=
  do s <- rd sb it;
  if s >? x_sum o then do m <- rd vb it; Ok (mkVtx s (wrapS 10 (Z.of_nat it)) m (x_id o)) else Ok o.

(** simple_vtx.cpp:44-94 [simple_vtx_hwopt]; [old] is the content of [*outvtx]
    on entry: only hwSumPt is reset (line 83).  [convertZ0] is a parameter (its
    definition is commented out). *)
Definition simple_vtx_hwopt (z0bin convertZ0 : Z -> Z) (npow : nat) (tracks : list vtrack) (old : vtxobj) : res vtxobj :=
  do rows <- fill_rows z0bin tracks;
  let '(vb, sb) := rows in
  do vb <- tree_reduce 5 npow vb;
  do sb <- tree_reduce 16 npow sb;
  do vb0 <- rd vb 0; do sb0 <- rd sb 0;
  do o <- foldM (vtx_hw_scan vb0 sb0) (seq 0 NVTXBINS) (mkVtx 0 (x_z0 old) (x_mult old) (x_id old));
  Ok (vtx_flag (mkVtx (x_sum o) (wrapS 10 (convertZ0 (x_z0 o))) (x_mult o) (x_id o))).
