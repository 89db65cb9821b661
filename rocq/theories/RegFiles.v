(** Model of the files regionizer/regionizer_test.cpp writes: dump_in.txt,
    dump_out.txt and, in the MP7 build, the pattern files.  They are functions
    of the tests made; a file is written from the same arrays the test uses. *)
From Coq Require Import Ascii String.
From Verif Require Import Base Data PFHw Encoding Serializer SerText Printf Regionizer RegTest.
Local Open Scope string_scope.
Local Open Scope list_scope.
Local Open Scope Z_scope.

(** regionizer.h:8 *)
Definition N_CLOCKS : nat := 36.
(** regionizer_test.cpp:18-46: [dump_o]; [dump_z] is [dump_o] of a cleared
    object (firmware/data.h:63-65, 71-73, 81-83, 89-91) *)
Definition dump_had (o : HadCalo) : list ascii := printf "       %4d % 4d % 4d %3d %1d" [h_pt o; h_eta o; h_phi o; h_empt o; b2z (h_isem o)].
Definition dump_em (o : EmCalo) : list ascii := printf "       %4d % 4d % 4d %3d" [e_pt o; e_eta o; e_phi o; e_pterr o].
Definition dump_tk (o : Tk) : list ascii := printf "       %4d % 4d % 4d %4d %4d" [t_pt o; t_eta o; t_phi o; t_pterr o; t_z0 o].
Definition dump_mu (o : Mu) : list ascii := printf "       %4d % 4d % 4d %4d" [m_pt o; m_eta o; m_phi o; m_pterr o].
(** [if (iobj < n && send) dump_o(arr[is][iobj]) else dump_z(...)] *)
Definition dump_if {T} (dump_o : T -> list ascii) (clr : T) (send : bool) (n iobj : nat) (row : list T) : res (list ascii) :=
  if (iobj <? n)%nat && send then do o <- rd row iobj; Ok (dump_o o) else Ok (dump_o clr).

(** regionizer_test.cpp:155-180, one line; [frame] after the increment *)
Definition dump_in_line (c : config) (test : nat) (i : rins) (frame : Z) (ic : nat) : res (list ascii) :=
  let iobj := (ic / 2)%nat in let send := (ic mod 2 =? 0)%nat in
  let head := printf "Frame %04d : %2d %2d" [frame; Z.of_nat test; Z.of_nat iobj] in
  do calo <- mapM (fun is => do row <- rd (ri_calo i) is; dump_if dump_had had0 send NCALO_PER_SECTOR iobj row) (seq 0 N_IN_SECTORS);
  do em <- mapM (fun is => do row <- rd (ri_em i) is; dump_if dump_em em0 send NEMCALO_PER_SECTOR iobj row) (seq 0 N_IN_SECTORS);
  let jobj := ic in
  do tk <- mapM (fun is => do row <- rd (ri_tk i) is;
      do a <- dump_if dump_tk tk0 send (NTRACK_PER_SECTOR / 2) (jobj + 0) row;
      do b <- dump_if dump_tk tk0 send (NTRACK_PER_SECTOR / 2) (jobj + 1) row; Ok (a ++ b)) (seq 0 N_IN_SECTORS);
  do mu <- mapM (fun is => do row <- rd (ri_mu i) is; dump_if dump_mu mu0 send (NMU c) iobj row) (seq 0 N_MUON_SECTORS);
  Ok (head ++ List.concat calo ++ List.concat em ++ List.concat tk ++ List.concat mu ++ [newline]).

(** [if (ic/2 < N_OUT_REGIONS) dump_o(regions[ic/2][i]) else dump_z(...)] for i < n *)
Definition dump_region {T} (dump_o : T -> list ascii) (clr : T) (n ir : nat) (regions : list (list T)) : res (list ascii) :=
  do l <- mapM (fun i => if (ir <? N_OUT_REGIONS)%nat then do row <- rd regions ir; do o <- rd row i; Ok (dump_o o) else Ok (dump_o clr)) (seq 0 n);
  Ok (List.concat l).
(** regionizer_test.cpp:221-242, one line *)
Definition dump_out_line (c : config) (t : rtest) (frame : Z) (ic : nat) : res (list ascii) :=
  do calo <- dump_region dump_had had0 (NCALO c) (ic / 2) (rt_calo t);
  do em <- dump_region dump_em em0 (NEMCALO c) (ic / 2) (rt_em t);
  do tk <- dump_region dump_tk tk0 (NTRACK c) (ic / 2) (rt_tk t);
  do mu <- dump_region dump_mu mu0 (NMU c) (ic / 2) (rt_mu t);
  Ok (printf "Frame %04d :" [frame] ++ calo ++ em ++ tk ++ mu ++ printf_nl "       %d" [1]).

(** the loops over tests and clocks; frame_in and frame_out are ints starting
    at 0 (line 96), and [test] counts from 1 *)
Definition dump_file (line : nat -> rtest -> Z -> nat -> res (list ascii)) (tests : list rtest) : res (list ascii) :=
  do (_, text) <- foldM (fun st p =>
      foldM (fun '(frame, text) ic => do frame <- i32 (frame + 1); do l <- line (S (fst p)) (snd p) frame ic; Ok (frame, text ++ l)) (seq 0 N_CLOCKS) st)
    (indexed tests) (0, []);
  Ok text.
Definition dump_in_file (c : config) : list rtest -> res (list ascii) := dump_file (fun test t => dump_in_line c test (rt_ins t)).
Definition dump_out_file (c : config) : list rtest -> res (list ascii) := dump_file (fun _ => dump_out_line c).

(** ** Pattern files of the MP7 build *)
(** regionizer_test.cpp:182-189: [dst[ri io is][ci io is] = src[is][io]] *)
Definition transpose {T} (ri ci : nat -> nat -> nat) (n m : nat) (src dst : list (list T)) : res (list (list T)) :=
  foldM (fun dst is => foldM (fun dst io =>
    do s <- rd src is; do x <- rd s io;
    do row <- rd dst (ri is io); do row <- wr row (ci is io) x; wr dst (ri is io) row) (seq 0 m) dst) (seq 0 n) dst.
(** the transposed arrays: lines 99-102 *)
Record rtrans := mkTrans { tr_calo : list (list HadCalo); tr_em : list (list EmCalo); tr_tk : list (list Tk); tr_mu : list (list Mu) }.
(** regionizer_test.cpp:182-189 (the loops write different arrays, so their
    interleaving does not matter) *)
Definition reg_transpose (c : config) (i : rins) (old : rtrans) : res rtrans :=
  do calo <- transpose (fun _ io => io) (fun is _ => is) N_IN_SECTORS NCALO_PER_SECTOR (ri_calo i) (tr_calo old);
  do em <- transpose (fun _ io => io) (fun is _ => is) N_IN_SECTORS NEMCALO_PER_SECTOR (ri_em i) (tr_em old);
  do tk <- transpose (fun _ io => (io / 2)%nat) (fun is io => (2 * is + io mod 2)%nat) N_IN_SECTORS NTRACK_PER_SECTOR (ri_tk i) (tr_tk old);
  do mu <- transpose (fun _ io => io) (fun is _ => is) N_MUON_SECTORS (NMU c) (ri_mu i) (tr_mu old);
  Ok (mkTrans calo em tk mu).

Definition mp7_zeros : list Z := repeat 0 MP7_NCHANN.
(** [if (ic < n) mp7_pack<..., offs>(rows[ic], data)] *)
Definition pack_if {T} (pack : nat -> list T -> list Z -> res (list Z)) (offs n ic : nat) (rows : list (list T)) (data : list Z) : res (list Z) :=
  if (ic <? n)%nat then do row <- rd rows ic; pack offs row data else Ok data.
(** regionizer_test.cpp:191-208: the words given to serMP7_in, serMP7_in_calo,
    serMP7_in_track and serMP7_in_mu at clock [ic] *)
Definition in_words (c : config) (t : rtrans) (ic : nat) : res (list Z * list Z * list Z * list Z) :=
  do w <- pack_if mp7_pack_had 0 NCALO_PER_SECTOR ic (tr_calo t) mp7_zeros;
  do w <- pack_if mp7_pack_em (2 * N_IN_SECTORS) NEMCALO_PER_SECTOR ic (tr_em t) w;
  do w <- pack_if mp7_pack_tk (4 * N_IN_SECTORS) (NTRACK_PER_SECTOR / 2) ic (tr_tk t) w;
  do w <- pack_if mp7_pack_mu (8 * N_IN_SECTORS) (NMU c) ic (tr_mu t) w;
  do a <- pack_if mp7_pack_had 0 NCALO_PER_SECTOR ic (tr_calo t) mp7_zeros;
  do b <- pack_if mp7_pack_tk 0 (NTRACK_PER_SECTOR / 2) ic (tr_tk t) mp7_zeros;
  do d <- pack_if mp7_pack_mu 0 (NMU c) ic (tr_mu t) mp7_zeros;
  Ok (w, a, b, d).
(** regionizer_test.cpp:245-262: the words given to serMP7_out, ..._calo,
    ..._track and ..._mu *)
Definition out_words (c : config) (t : rtest) (ic : nat) : res (list Z * list Z * list Z * list Z) :=
  do w <- pack_if mp7_pack_had 0 N_OUT_REGIONS ic (rt_calo t) mp7_zeros;
  do w <- pack_if mp7_pack_em (2 * NCALO c) N_OUT_REGIONS ic (rt_em t) w;
  do w <- pack_if mp7_pack_tk (2 * (NCALO c + NEMCALO c)) N_OUT_REGIONS ic (rt_tk t) w;
  do w <- pack_if mp7_pack_mu (2 * (NCALO c + NEMCALO c + NTRACK c)) N_OUT_REGIONS ic (rt_mu t) w;
  do a <- pack_if mp7_pack_had 0 N_OUT_REGIONS ic (rt_calo t) mp7_zeros;
  do b <- pack_if mp7_pack_tk 0 N_OUT_REGIONS ic (rt_tk t) mp7_zeros;
  do d <- pack_if mp7_pack_mu 0 N_OUT_REGIONS ic (rt_mu t) mp7_zeros;
  Ok (w, a, b, d).
(** the words of all the tests, in the order of the calls *)
Definition all_in_words (c : config) (tests : list rtest) (old : rtrans) : res (list (list Z * list Z * list Z * list Z)) :=
  do (l, _) <- foldM (fun '(l, tr) t => do tr <- reg_transpose c (rt_ins t) tr; do ws <- mapM (in_words c tr) (seq 0 (N_CLOCKS / 2)); Ok (l ++ ws, tr)) tests ([], old);
  Ok l.
Definition all_out_words (c : config) (tests : list rtest) : res (list (list Z * list Z * list Z * list Z)) :=
  do l <- mapM (fun t => mapM (out_words c t) (seq 0 (N_CLOCKS / 2))) tests; Ok (List.concat l).

Definition w_all (w : list Z * list Z * list Z * list Z) : list Z := fst (fst (fst w)).
Definition w_calo (w : list Z * list Z * list Z * list Z) : list Z := snd (fst (fst w)).
Definition w_tk (w : list Z * list Z * list Z * list Z) : list Z := snd (fst w).
Definition w_mu (w : list Z * list Z * list Z * list Z) : list Z := snd w.
(** the four serializers built with ("...", 2, 1): lines 103-110 *)
Definition reg_mux_files (ws : list (list Z * list Z * list Z * list Z)) : res (list (list line)) :=
  mapM (fun sel => do f <- mp7_session true 2 1 0 (map sel ws); Ok (snd f)) [w_all; w_calo; w_tk; w_mu].
(** the two built with ("...", 1, 0), each called twice: lines 111-112, 255, 258 *)
Definition reg_nomux_files (ws : list (list Z * list Z * list Z * list Z)) : res (list (list line)) :=
  mapM (fun sel => do f <- mp7_session true 1 0 0 (flat_map (fun w => [sel w; sel w]) ws); Ok (snd f)) [w_calo; w_tk].
(** mp7_input*.txt, mp7_output*.txt and mp7_output_*_nomux.txt; [old]: the
    transposed arrays before the first test *)
Definition reg_mp7_files (c : config) (tests : list rtest) (old : rtrans) : res (list (list line) * list (list line) * list (list line)) :=
  do wi <- all_in_words c tests old; do wo <- all_out_words c tests;
  do a <- reg_mux_files wi; do b <- reg_mux_files wo; do d <- reg_nomux_files wo; Ok (a, b, d).
