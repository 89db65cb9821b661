(** What regionizer/regionizer_test.cpp prints on the console.  The functions
    are those of RegTest.v with the text they print; text is a list of
    characters as in Console.v. *)
From Coq Require Import Ascii String.
From Verif Require Import Base Data PFHw TestUtils SerText Printf HumanRead Discrete Convert DiscreteIO EventLoop Serializer Regionizer RegTest RegFiles Console.
Local Open Scope string_scope.
Local Open Scope list_scope.
Local Open Scope Z_scope.

(** regionizer_test.cpp:55-66 *)
Definition reg_header (c : config) : list ascii :=
  let n := Z.of_nat in
  printf_nl " --- Configuration --- " [] ++
  printf_nl " Sectors: %d " [n N_IN_SECTORS] ++
  printf_nl "    max N(Calo), input:     %2d " [n NCALO_PER_SECTOR] ++
  printf_nl "    max N(Calo), eta slice: %2d " [n NCALO_PER_SECTOR_PER_ETA] ++
  printf_nl "    max N(EmCalo), input:     %2d " [n NEMCALO_PER_SECTOR] ++
  printf_nl "    max N(EmCalo), eta slice: %2d " [n NEMCALO_PER_SECTOR_PER_ETA] ++
  printf_nl "    max N(Track), input:     %2d " [n NTRACK_PER_SECTOR] ++
  printf_nl "    max N(Track), eta slice: %2d " [n NTRACK_PER_SECTOR_PER_ETA] ++
  printf_nl " Regions: %d (%d x %d )" [n N_OUT_REGIONS; n N_OUT_REGIONS_ETA; n N_OUT_REGIONS_PHI] ++
  printf_nl "    max N(Calo): %2d " [n (NCALO c)] ++
  printf_nl "    max N(EmCalo): %2d " [n (NEMCALO c)] ++
  printf_nl "    max N(Track): %2d " [n (NTRACK c)].

(** ** Filling the streams *)
(** regionizer_test.cpp:10-16 [fill_stream]; [inr]: it prints this and returns false *)
Definition fill_stream_say {T} (n step offset : nat) (name : string) (isector : nat) (data stream : list T) : res (list T + list ascii) :=
  match stream with
  | _ :: _ => Ok (inr (chars "ERROR: " ++ chars name ++ printf_nl " stream for sector %d is not empty" [Z.of_nat isector]))
  | [] => do s <- mapM (fun k => rd data (offset + step * k)) (seq 0 ((n - offset + step - 1) / step)); Ok (inl s)
  end.
(** lines 129-130, 133-134, 138-139, 151-152: both streams; [name], [nref]: the
    names in the messages; [inr]: main returns 3 *)
Definition fill_both_say {A} (n step offset k : nat) (name nref : string) (data : list (robj A)) (c : chan A) : res (chan A + list ascii) :=
  do s <- rd (ch_fib c) k; do f <- fill_stream_say n step offset name k data s;
  match f with
  | inr t => Ok (inr t)
  | inl f =>
    do fib <- wr (ch_fib c) k f;
    do s <- rd (ch_fibr c) k; do f <- fill_stream_say n step offset nref k data s;
    match f with
    | inr t => Ok (inr t)
    | inl f => do fibr <- wr (ch_fibr c) k f; Ok (inl (mkChan fib fibr (ch_reg c) (ch_regr c) (ch_static c)))
    end
  end.
(** regionizer_test.cpp:124-145, one sector *)
Definition reg_sector_say (c : config) (ev : event) (st : rstate + list ascii) (is : nat) : res (rstate + list ascii) :=
  match st with
  | inr t => Ok (inr t)
  | inl st =>
    do r <- rd (ev_regions ev) is;
    do calo <- convert_row fw_had had0 NCALO_PER_SECTOR (rg_calo r) (ri_calo (rs_ins st)) is;
    do row <- rd calo is;
    do _ <- foldM (fun _ i => do o <- rd row i; if h_pt o >=? 0 then Ok tt else UB AssertFail) (seq 0 NCALO_PER_SECTOR) tt;
    do cc <- fill_both_say NCALO_PER_SECTOR 1 0 is "calo stream" "calo ref stream" (map r_of_had row) (rs_calo st);
    match cc with inr t => Ok (inr t) | inl cc =>
    do em <- convert_row fw_em em0 NEMCALO_PER_SECTOR (rg_emcalo r) (ri_em (rs_ins st)) is;
    do row <- rd em is;
    do ce <- fill_both_say NEMCALO_PER_SECTOR 1 0 is "emcalo stream" "emcalo ref stream" (map r_of_em row) (rs_em st);
    match ce with inr t => Ok (inr t) | inl ce =>
    do tk <- convert_row fw_tk tk0 NTRACK_PER_SECTOR (rg_track r) (ri_tk (rs_ins st)) is;
    do row <- rd tk is;
    do ct <- foldM (fun ct i => match ct with inr t => Ok (inr t) | inl ct => fill_both_say NTRACK_PER_SECTOR 2 i (2 * is + i) "track stream " "track ref stream" (map r_of_tk row) ct end) (seq 0 2) (inl (rs_tk st));
    match ct with inr t => Ok (inr t) | inl ct =>
    do mu <- convert_row fw_mu mu0 (NMU c) (rg_muon r) (ri_mu12 (rs_ins st)) is;
    Ok (inl (mkRs (mkRins calo em tk mu (ri_mu (rs_ins st))) cc ce ct (rs_mu st) (rs_tests st)))
    end end end
  end.
(** regionizer_test.cpp:146-153 *)
Definition reg_muons_say (c : config) (st : rstate) : res (rstate + list ascii) :=
  let i := rs_ins st in
  do mu <- merge_muon_in 0 (NMU c) (map (map r_of_mu) (ri_mu12 i)) (map (map r_of_mu) (ri_mu i));
  let st1 := mkRs (mkRins (ri_calo i) (ri_em i) (ri_tk i) (ri_mu12 i) (map (map mu_of_r) mu)) (rs_calo st) (rs_em st) (rs_tk st) (rs_mu st) (rs_tests st) in
  foldM (fun st is =>
    match st with
    | inr t => Ok (inr t)
    | inl st =>
      do row <- rd mu is;
      do cm <- fill_both_say (NMU c) 1 0 is "mu stream" "mu ref stream" row (rs_mu st);
      match cm with inr t => Ok (inr t) | inl cm => Ok (inl (mkRs (rs_ins st) (rs_calo st) (rs_em st) (rs_tk st) cm (rs_tests st))) end
    end) (seq 0 N_MUON_SECTORS) (inl st1).

(** ** The comparison *)
(** one of the loops of lines 270-281 on region [ir]; the state: the text
    printed and [errors] (an int) *)
Definition mismatch_say {T} (equals : T -> T -> bool) (message : Z -> T -> T -> list ascii) (n ir : nat) (ref out : list T) (st : list ascii * Z) : res (list ascii * Z) :=
  do (bad, t) <- foldM (fun '(bad, t) i =>
      if bad : bool then Ok (true, t)
      else do x <- rd ref i; do y <- rd out i; do k <- i32 (Z.of_nat ir * 100 + Z.of_nat i); Ok (negb (equals x y), t ++ message k x y)) (seq 0 n) (false, fst st);
  if bad : bool then do e <- i32 (snd st + 1); Ok (t, e) else Ok (t, snd st).
(** regionizer_test.cpp:268-282 *)
Definition reg_compare_say (c : config) (st : rstate) : res (list ascii * Z) :=
  foldM (fun e ir =>
    do a <- rd (ch_regr (rs_calo st)) ir; do b <- rd (ch_reg (rs_calo st)) ir; do e <- mismatch_say had_equals (had_message "regionized hadcalo") (NCALO c) ir (map had_of_r a) (map had_of_r b) e;
    do a <- rd (ch_regr (rs_em st)) ir; do b <- rd (ch_reg (rs_em st)) ir; do e <- mismatch_say em_equals (em_message "regionized emcalo") (NEMCALO c) ir (map em_of_r a) (map em_of_r b) e;
    do a <- rd (ch_regr (rs_tk st)) ir; do b <- rd (ch_reg (rs_tk st)) ir; do e <- mismatch_say track_equals (track_message "regionized track") (NTRACK c) ir (map tk_of_r a) (map tk_of_r b) e;
    do a <- rd (ch_regr (rs_mu st)) ir; do b <- rd (ch_reg (rs_mu st)) ir; mismatch_say mu_equals (mu_message "regionized muon") (NMU c) ir (map mu_of_r a) (map mu_of_r b) e)
    (seq 0 N_OUT_REGIONS) ([], 0).
(** utils/test_utils.h:10-15 [count_nonzero] on HadCaloObj *)
Definition count_nonzero (l : list HadCalo) : Z := fold_left (fun n o => wrapU 32 (n + b2z (h_pt o >? 0))) l 0.
(** debug.dump_hadcalo(...) on the console *)
Definition dump_calo (l : list HadCalo) : res (list ascii) := on_console (hr_dump_hadcalo l).
(** regionizer_test.cpp:286-296 *)
Definition reg_dump (st : rstate) : res (list ascii) :=
  do a <- mapM (fun is => do row <- rd (ri_calo (rs_ins st)) is; do d <- dump_calo row;
      Ok (printf_nl "INPUT SECTOR %d (FOUND %u): " [Z.of_nat is; count_nonzero row] ++ d)) (seq 0 N_IN_SECTORS);
  do b <- mapM (fun ir => do r <- rd (ch_regr (rs_calo st)) ir; do o <- rd (ch_reg (rs_calo st)) ir;
      let ref := map had_of_r r in let out := map had_of_r o in
      do d1 <- dump_calo ref; do d2 <- dump_calo out;
      Ok (printf_nl "OUTPUT REGION %d (ETA %d PHI %d) (REF; FOUND %u): " [Z.of_nat ir; Z.of_nat (ir / N_OUT_REGIONS_PHI); Z.of_nat (ir mod N_OUT_REGIONS_PHI); count_nonzero ref] ++ d1 ++
          printf_nl "OUTPUT REGION %d (TEST): " [Z.of_nat ir] ++ d2)) (seq 0 N_OUT_REGIONS);
  Ok (List.concat a ++ List.concat b).
(** regionizer_test.cpp:265-301: the text and what main returns, if it returns *)
Definition reg_validate (c : config) (test : nat) (st : rstate) : res (list ascii * option Z) :=
  do (t, errors) <- reg_compare_say c st;
  if negb (errors =? 0) then do d <- reg_dump st; Ok (t ++ printf_nl "Error in computing test %d (%d)" [Z.of_nat test; errors] ++ d, Some 1)
  else Ok (t ++ printf_nl "Passed test %d" [Z.of_nat test], None).

(** ** main *)
(** regionizer_test.cpp:122-301 *)
Definition reg_body_say (c : config) (junk : nat -> nat -> nat -> robj (Z * bool)) (work : nat -> list (list (list (robj (Z * bool))))) (test : nat) (st : rstate * list ascii) (ev : event) : res (rstate * list ascii * option Z) :=
  let (st, text) := st in
  if negb (length (ev_regions ev) =? N_IN_SECTORS)%nat
  then Ok (st, text ++ printf_nl "ERROR: Mismatching number of input regions: %lu" [Z.of_nat (length (ev_regions ev))], Some 2) else
  do st1 <- foldM (reg_sector_say c ev) (seq 0 N_IN_SECTORS) (inl st);
  match st1 with inr t => Ok (st, text ++ t, Some 3) | inl st1 =>
  do st2 <- reg_muons_say c st1;
  match st2 with inr t => Ok (st, text ++ t, Some 3) | inl st2 =>
  do st3 <- reg_run c (junk test) (work test) st2;
  do (t, code) <- reg_validate c test st3;
  Ok (st3, text ++ t, code)
  end end.
(** the destructors of the serializers (utils/pattern_serializer.cpp:26-33), in
    the reverse order of regionizer_test.cpp:103-112; [wi], [wo]: the words
    given to them *)
Definition reg_saved (wi wo : list (list Z * list Z * list Z * list Z)) : res (list ascii) :=
  let twice (sel : list Z * list Z * list Z * list Z -> list Z) ws := flat_map (fun w => [sel w; sel w]) ws in
  do a <- mp7_count 1 0 (twice w_tk wo); do b <- mp7_count 1 0 (twice w_calo wo);
  do d <- mp7_count 2 1 (map w_mu wo); do e <- mp7_count 2 1 (map w_tk wo); do f <- mp7_count 2 1 (map w_calo wo); do g <- mp7_count 2 1 (map w_all wo);
  do h <- mp7_count 2 1 (map w_mu wi); do i <- mp7_count 2 1 (map w_tk wi); do j <- mp7_count 2 1 (map w_calo wi); do k <- mp7_count 2 1 (map w_all wi);
  Ok (saved a "MP7" "mp7_output_track_nomux.txt" ++ saved b "MP7" "mp7_output_calo_nomux.txt" ++
      saved d "MP7" "mp7_output_mu.txt" ++ saved e "MP7" "mp7_output_track.txt" ++ saved f "MP7" "mp7_output_calo.txt" ++ saved g "MP7" "mp7_output.txt" ++
      saved h "MP7" "mp7_input_mu.txt" ++ saved i "MP7" "mp7_input_track.txt" ++ saved j "MP7" "mp7_input_calo.txt" ++ saved k "MP7" "mp7_input.txt").
(** regionizer_test.cpp:48-305: the exit code, the tests made and the text.
    [mp7]: built with -DMP7; [old]: the transposed arrays before the first test *)
Definition reg_main_say (c : config) (mp7 : bool) (tail : res bool) (junk : nat -> nat -> nat -> robj (Z * bool)) (work : nat -> list (list (list (robj (Z * bool)))))
    (g : Z) (st0 : rstate) (old : rtrans) (bytes : option (list Z)) : res (Z * list rtest * list ascii) :=
  do s <- inputs_open g bytes;
  do ((st, text), code) <- event_loop tail (reg_body_say c junk work) REG_NTEST 1 (reg_start (rs_ins st0) (rs_calo st0) (rs_em st0) (rs_tk st0) (rs_mu st0), reg_header c) s;
  do t <- (if mp7 then do wi <- all_in_words c (rs_tests st) old; do wo <- all_out_words c (rs_tests st); reg_saved wi wo else Ok []);
  Ok (match code with Some x => x | None => 0 end, rs_tests st, text ++ t).
