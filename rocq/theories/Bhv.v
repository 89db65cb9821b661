(** Model of vertexing/firmware/bram_hist_vtx.{h,cpp} and
    vertexing/bram_hist_vtx_ref.cpp: the histogramming primary-vertex finder.
    [nhalf] stands for BHV_NHALFBINS in the scan (36 in the headers), and the
    number of sectors is the length of the list of sector histograms. *)
From Verif Require Export Base.

(** bram_hist_vtx.h:7-10 [zbin_vt] *)
Record zbin_vt := mkZbin { zb_bin : Z; zb_valid : bool }.

(** bram_hist_vtx.h:18-26 *)
Definition BHV_MAXPT : Z := 100.
Definition BHV_MAXBIN : Z := 511.
Definition BNV_SHIFT : Z := 3.
Definition BHV_NBINS : Z := 72.
Definition BHV_NHALFBINS : Z := 36.

(** bram_hist_vtx.h:29-38 [fetch_bin_ref]; [ret.bin] is ap_uint<10> *)
Definition fetch_bin_ref (z0 : Z) : zbin_vt :=
  let zbin := Z.shiftr z0 BNV_SHIFT + BHV_NHALFBINS in
  let '(zbin, valid) := if zbin <? 0 then (0, false) else (zbin, true) in
  let '(zbin, valid) := if zbin >? BHV_NBINS - 1 then (0, false) else (zbin, valid) in
  mkZbin (wrapU 10 zbin) valid.

(** bram_hist_vtx.h:39-42 [bin_center_ref]; z0_t is ap_int<10>.
    The C++ shifts a negative int left; modelled as multiplication. *)
Definition bin_center_ref (iz : Z) : Z :=
  let z := iz - BHV_NHALFBINS in
  wrapS 10 (z * 2 ^ BNV_SHIFT + 2 ^ (BNV_SHIFT - 1)).

(** bram_hist_vtx.cpp:3-13 [bhv_add_track]; pt_t is ap_int<16>, ptsum_t is
    ap_uint<9>; the bit test is [sum & (BHV_MAXBIN+1)]. *)
Definition bhv_add_track (zb : zbin_vt) (tkpt : Z) (hist : list Z) : res (list Z) :=
  if zb_valid zb then
    let pt := wrapS 16 (Z.shiftr tkpt 1) in
    let pt := if pt >? BHV_MAXPT then BHV_MAXPT else pt in
    do h <- rd hist (Z.to_nat (zb_bin zb));
    do sum <- i32 (h + pt);
    wr hist (Z.to_nat (zb_bin zb))
       (wrapU 9 (if negb (Z.land sum (BHV_MAXBIN + 1) =? 0) then BHV_MAXBIN else sum))
  else Ok hist.

(** bram_hist_vtx.cpp:15-41 [bhv_find_pv]: [hists] holds one array of packed
    pairs (ap_uint<18>) per sector; low 9 bits are the odd bin, high 9 bits the
    even one.  Returns the bin (ap_uint<10>) and [*sumpt] (ap_int<16>). *)
Definition lo9 (w : Z) : Z := w mod 512.
Definition hi9 (w : Z) : Z := (w / 512) mod 512.

Definition pair_sums (hists : list (list Z)) (i : nat) : res (Z * Z) :=
  foldM (fun acc h => let '(s1, s2) := acc in
      do w <- rd h i;
      do s1 <- i32 (s1 + lo9 w); do s2 <- i32 (s2 + hi9 w); Ok (s1, s2)) hists (0, 0).

Definition find_pv_step (hists : list (list Z)) (best : Z * Z) (i : nat) : res (Z * Z) :=
  let '(ibest, sbest) := best in
  do ss <- pair_sums hists i;
  let '(sum1, sum2) := ss in
  if sum1 >? sum2 then
    if sum1 >? sbest then Ok (2 * Z.of_nat i + 1, sum1) else Ok best
  else
    if sum2 >? sbest then Ok (2 * Z.of_nat i, sum2) else Ok best.

Definition bhv_find_pv (nhalf : nat) (hists : list (list Z)) : res (Z * Z) :=
  do best <- foldM (find_pv_step hists) (seq 0 nhalf) (0, 0);
  let '(ibest, sbest) := best in Ok (wrapU 10 ibest, wrapS 16 sbest).

(** a track of the vertexing code is used through its hwZ0 and hwPt only
    (firmware/data.h:75-80 [TkObj]) *)
Record vtrack := mkVtrack { v_pt : Z; v_z0 : Z }.

(** bram_hist_vtx_ref.cpp:8-19: one track filled into the histogram of its sector *)
Definition ref_fill (hist : list Z) (t : vtrack) : res (list Z) :=
  let tkpt := wrapS 16 (Z.shiftr (v_pt t) 1) in
  if tkpt >? 0 then
    let tkpt := if tkpt >? BHV_MAXPT then BHV_MAXPT else tkpt in
    let b := fetch_bin_ref (v_z0 t) in
    if (0 <=? zb_bin b) && (zb_bin b <? BHV_NBINS) then
      if zb_valid b then
        do h <- rd hist (Z.to_nat (zb_bin b));
        do newsum <- i32 (h + tkpt);
        wr hist (Z.to_nat (zb_bin b)) (wrapU 9 (if newsum >? BHV_MAXBIN then BHV_MAXBIN else newsum))
      else Ok hist
    else UB AssertFail
  else Ok hist.

(** bram_hist_vtx_ref.cpp:22-30: the scan *)
Definition ref_scan_step (hists : list (list Z)) (best : Z * Z) (b : nat) : res (Z * Z) :=
  let '(ibest, sbest) := best in
  do sum <- foldM (fun s h => do x <- rd h b; i32 (s + x)) hists 0;
  if sum >? sbest then Ok (Z.of_nat b, sum) else Ok best.

(** bram_hist_vtx_ref.cpp:4-34 [bhv_find_pv_ref]: bin, sum (int) and vertex z *)
Definition bhv_find_pv_ref (sectors : list (list vtrack)) : res (Z * Z * Z) :=
  do hists <- mapM (fun ts => foldM ref_fill ts (repeat 0 (Z.to_nat BHV_NBINS))) sectors;
  do best <- foldM (ref_scan_step hists) (seq 0 (Z.to_nat BHV_NBINS)) (0, 0);
  let '(ibest, sbest) := best in
  Ok (wrapU 10 ibest, sbest, bin_center_ref (wrapU 10 ibest)).

(** bram_hist_vtx_test.cpp:75-91 [main]: fill with bhv_add_track, then pack
    bin [2i] in the high and bin [2i+1] in the low half of word [i]. *)
Definition hw_fill (ts : list vtrack) : res (list Z) :=
  foldM (fun h t => bhv_add_track (fetch_bin_ref (v_z0 t)) (v_pt t) h) ts (repeat 0 (Z.to_nat BHV_NBINS)).

Definition pack_hist (hist : list Z) : res (list Z) :=
  mapM (fun i => do a <- rd hist (2 * i); do b <- rd hist (2 * i + 1); Ok (wrapU 9 a * 512 + wrapU 9 b))
       (seq 0 (Z.to_nat BHV_NHALFBINS)).

(** bram_hist_vtx_test.cpp:75-94: the firmware chain for one event *)
Definition hw_vertex (sectors : list (list vtrack)) : res (Z * Z * Z) :=
  do hists <- mapM (fun ts => do h <- hw_fill ts; pack_hist h) sectors;
  do r <- bhv_find_pv (Z.to_nat BHV_NHALFBINS) hists;
  let '(b, s) := r in Ok (b, s, bin_center_ref b).
