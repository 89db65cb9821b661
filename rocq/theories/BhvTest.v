(** Model of vertexing/bram_hist_vtx_test.cpp, the test program of the
    histogramming vertex finder: the exit code, the error count, the tests made
    and the six files written.  The messages on the console and the comparisons
    with the generated and CMSSW vertices, which only feed them (lines 45-46,
    114-119, 126-128), are in BhvConsole.v. *)
From Coq Require Import Ascii String.
From Verif Require Import Base Data Encoding Serializer SerText Printf Discrete Convert DiscreteIO EventLoop Regionizer RegFiles Bhv.
Local Open Scope string_scope.
Local Open Scope list_scope.
Local Open Scope Z_scope.

(** bram_hist_vtx.h:25-26 *)
Definition BHV_NSECTORS : nat := 24.
Definition BHV_NTRACKS : nat := 18.
(** bram_hist_vtx_test.cpp:7 *)
Definition BHV_NTEST : nat := 250.

(** the track as the vertexing functions see it *)
Definition vt_of (o : Tk) : vtrack := mkVtrack (t_pt o) (t_z0 o).

(** What one pass of the loop leaves: track_in (line 13), hist of sector 0
    when it is dumped (lines 81-86), hists (line 75), the firmware's result
    (pvbin_hw, ptsum_hw, pv_hw) and the reference's. *)
Record btest := mkBt { bt_tracks : list (list Tk); bt_hist0 : list Z; bt_hists : list (list Z); bt_hw : Z * Z * Z; bt_ref : Z * Z * Z }.
(** the variables of main that live across passes: track_in, track_tmp, nerr *)
Record bstate := mkBs { bs_in : list (list Tk); bs_tmp : list Tk; bs_nerr : Z; bs_tests : list btest }.

(** [track_in[row][i] = x] *)
Definition put_track (arr : list (list Tk)) (row i : nat) (x : Tk) : res (list (list Tk)) :=
  do r <- rd arr row; do r <- wr r i x; wr arr row r.
(** bram_hist_vtx_test.cpp:36-43: one sector of the event, its tracks dealt to
    two rows of track_in in turn *)
Definition bhv_sector (ev : event) (st : list (list Tk) * list Tk) (is : nat) : res (list (list Tk) * list Tk) :=
  let '(arr, tmp) := st in
  do r <- rd (ev_regions ev) is;
  do tmp <- convert_in fw_tk tk0 (2 * BHV_NTRACKS) (rg_track r) tmp;
  do (arr, _) <- foldM (fun '(arr, t) i =>
      do x <- rd tmp t; do arr <- put_track arr (2 * is + 0) i x;
      do y <- rd tmp (t + 1); do arr <- put_track arr (2 * is + 1) i y;
      Ok (arr, (t + 2)%nat)) (seq 0 BHV_NTRACKS) (arr, 0%nat);
  Ok (arr, tmp).

(** bram_hist_vtx_test.cpp:35-120 without the files: line 35 returns 2, line
    50 is the reference, 75-94 the firmware (Bhv.v: hw_fill, pack_hist,
    bhv_find_pv), 120 the comparison of the z and of the sum; nerr is unsigned *)
Definition bhv_body (_ : nat) (st : bstate) (ev : event) : res (bstate * option Z) :=
  if negb (length (ev_regions ev) =? N_IN_SECTORS)%nat then Ok (st, Some 2) else
  do (arr, tmp) <- foldM (bhv_sector ev) (seq 0 N_IN_SECTORS) (bs_in st, bs_tmp st);
  let sectors := map (map vt_of) arr in
  do ref <- bhv_find_pv_ref sectors;
  do both <- mapM (fun ts => do h <- hw_fill ts; do p <- pack_hist h; Ok (h, p)) sectors;
  let hists := map snd both in
  do hist0 <- rd (map fst both) 0;
  do (b, s) <- bhv_find_pv (Z.to_nat BHV_NHALFBINS) hists;
  let hw := (b, s, bin_center_ref b) in
  let '(_, s_ref, z_ref) := ref in
  let differ := negb (z_ref =? bin_center_ref b) || negb (s =? s_ref) in
  Ok (mkBs arr tmp (if differ then wrapU 32 (bs_nerr st + 1) else bs_nerr st) (bs_tests st ++ [mkBt arr hist0 hists hw ref]), None).

(** bram_hist_vtx_test.cpp:9-130: the exit code, nerr as printed on line 127,
    and the tests; [arr] and [tmp] are uninitialised memory *)
Definition bhv_main (tail : res bool) (g : Z) (arr : list (list Tk)) (tmp : list Tk) (bytes : option (list Z)) : res (Z * Z * list btest) :=
  do s <- inputs_open g bytes;
  do (st, code) <- event_loop tail bhv_body BHV_NTEST 1 (mkBs arr tmp 0 []) s;
  Ok (match code with Some x => x | None => 0 end, bs_nerr st, bs_tests st).

(** ** bhv_dump_in.txt and bhv_dump_out.txt *)
(** [fprintf(f, fmt, frame++, ...)] for the rows of every test; frame is
    unsigned and starts at 0 (line 26) *)
Definition bhv_file (fmt : string) (rows : btest -> res (list (list Z))) (tests : list btest) : res (list ascii) :=
  do (_, text) <- foldM (fun '(frame, text) t =>
      do rs <- rows t;
      Ok (fold_left (fun '(frame, text) r => (wrapU 32 (frame + 1), text ++ printf_nl fmt (frame :: r))) rs (frame, text)))
    tests (0, []);
  Ok text.
(** bram_hist_vtx_test.cpp:52-56 *)
Definition bhv_in_rows (t : btest) : res (list (list Z)) :=
  do l <- mapM (fun it => mapM (fun go => do row <- rd (bt_tracks t) 0; do o <- rd row it;
      Ok [go; zb_bin (fetch_bin_ref (t_z0 o)); Z.shiftr (t_pt o) 1]) [1; 0]) (seq 0 18);
  Ok (List.concat l).
(** bram_hist_vtx_test.cpp:83-85 *)
Definition bhv_out_rows (t : btest) : res (list (list Z)) :=
  mapM (fun k => let b := (2 * k)%nat in do x <- rd (bt_hist0 t) b; do y <- rd (bt_hist0 t) (b + 1); Ok [Z.of_nat b; x; y]) (seq 0 (Z.to_nat BHV_NHALFBINS)).
Definition bhv_in_file : list btest -> res (list ascii) := bhv_file "Frame %4d : %1d  %3d  %6d" bhv_in_rows.
Definition bhv_out_file : list btest -> res (list ascii) := bhv_file "Frame %4d : %3d   %6d   %6d" bhv_out_rows.

(** ** The pattern files (MP7DataWord is ap_uint<32>) *)
(** bram_hist_vtx_test.cpp:57-64: the words given to serMP7_in; [old] is
    track_in_transposed before *)
Definition bhv_in_words (t : btest) (old : list (list Tk)) : res (list (list Z) * list (list Tk)) :=
  do tr <- transpose (fun _ io => io) (fun is _ => is) BHV_NSECTORS BHV_NTRACKS (bt_tracks t) old;
  do ws <- mapM (fun ic => pack_if mp7_pack_tk 0 BHV_NTRACKS ic tr mp7_zeros) (seq 0 (N_CLOCKS / 2));
  Ok (ws, tr).
(** bram_hist_vtx_test.cpp:65-73: to serMP7_in_debug *)
Definition bhv_in_debug (t : btest) (ic : nat) : res (list Z) :=
  foldM (fun data is =>
    do row <- rd (bt_tracks t) is; do o <- rd row (ic / 2);
    let bin := fetch_bin_ref (t_z0 o) in
    do data <- wr data (2 * is + 0) (wrapU 32 (zb_bin bin + 268435456 * b2z (zb_valid bin)));
    wr data (2 * is + 1) (wrapU 32 (Z.shiftr (t_pt o) 1))) (seq 0 BHV_NSECTORS) mp7_zeros.
(** bram_hist_vtx_test.cpp:96-103: to serMP7_out; mp7_out is cleared once *)
Definition bhv_out_words (t : btest) : res (list (list Z)) :=
  let '(b, s, _) := bt_hw t in
  do (ws, _) <- foldM (fun '(ws, data) ic =>
      let done := (ic =? 0)%nat in
      do data <- wr data 0 (if done then 1 else 0);
      do data <- wr data 1 (wrapU 32 (if done then s else 0));
      do data <- wr data 2 (wrapU 32 (if done then b else 0));
      Ok (ws ++ [data], data)) (seq 0 N_CLOCKS) ([], mp7_zeros);
  Ok ws.
(** bram_hist_vtx_test.cpp:104-112: to serMP7_out_debug *)
Definition bhv_out_debug (test : nat) (t : btest) : res (list (list Z)) :=
  do (ws, _) <- foldM (fun '(ws, data) ic =>
      do data <- foldM (fun data is =>
          let i := (3 + 2 * is)%nat in
          do data <- wr data (i + 0) (wrapU 32 (65536 * b2z (ic =? 0)%nat + Z.of_nat ic * 2 + (Z.of_nat test mod 2) * 16777216));
          do h <- rd (bt_hists t) is; do w <- rd h ic;
          wr data (i + 1) (wrapU 32 (Z.lor (Z.shiftl (lo9 w) 16) (hi9 w)))) (seq 0 BHV_NSECTORS) data;
      Ok (ws ++ [data], data)) (seq 0 N_CLOCKS) ([], mp7_zeros);
  Ok ws.

(** the words given to the four serializers (lines 27-30), which are called once
    per clock of each test *)
Definition bhv_words (tests : list btest) (old : list (list Tk)) : res (list (list Z) * list (list Z) * list (list Z) * list (list Z)) :=
  do (w1, _) <- foldM (fun '(l, tr) t => do (ws, tr) <- bhv_in_words t tr; Ok (l ++ ws, tr)) tests ([], old);
  do w2 <- mapM (fun t => mapM (bhv_in_debug t) (seq 0 N_CLOCKS)) tests;
  do w3 <- mapM bhv_out_words tests;
  do w4 <- mapM (fun p => bhv_out_debug (S (fst p)) (snd p)) (indexed tests);
  Ok (w1, List.concat w2, List.concat w3, List.concat w4).
(** the files they leave *)
Definition bhv_mp7_files (tests : list btest) (old : list (list Tk)) : res (list line * list line * list line * list line) :=
  do (((w1, w2), w3), w4) <- bhv_words tests old;
  do a <- mp7_session true 2 1 0 w1;
  do b <- mp7_session true 1 0 0 w2;
  do c <- mp7_session true 1 0 3 w3;
  do d <- mp7_session true 1 0 0 w4;
  Ok (snd a, snd b, snd c, snd d).
