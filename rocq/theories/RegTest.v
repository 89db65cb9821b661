(** Model of regionizer/regionizer_test.cpp (the regionizer test program): the
    exit code and the tests made.  The messages on the console are in RegConsole.v.
    The files it writes are in RegFiles.v. *)
From Verif Require Import Base Data PFHw TestUtils Discrete Convert DiscreteIO EventLoop Regionizer.

(** The objects in the representation of Regionizer.v, which the streams and
    the regions use here; [had_d] etc. are the payloads of cleared objects
    (firmware/data.h:63-65, 71-73, 81-83, 89-91). *)
Definition r_of_had (h : HadCalo) : robj (Z * bool) := mkR (h_pt h) (h_eta h) (h_phi h) (h_empt h, h_isem h).
Definition had_of_r (o : robj (Z * bool)) : HadCalo := mkHad (r_pt o) (r_eta o) (r_phi o) (fst (r_rest o)) (snd (r_rest o)).
Definition r_of_em (e : EmCalo) : robj Z := mkR (e_pt e) (e_eta e) (e_phi e) (e_pterr e).
Definition em_of_r (o : robj Z) : EmCalo := mkEm (r_pt o) (r_rest o) (r_eta o) (r_phi o).
Definition r_of_tk (t : Tk) : robj (Z * Z * bool) := mkR (t_pt t) (t_eta t) (t_phi t) (t_pterr t, t_z0 t, t_tight t).
Definition tk_of_r (o : robj (Z * Z * bool)) : Tk := mkTk (r_pt o) (fst (fst (r_rest o))) (r_eta o) (r_phi o) (snd (fst (r_rest o))) (snd (r_rest o)).
Definition r_of_mu (m : Mu) : robj Z := mkR (m_pt m) (m_eta m) (m_phi m) (m_pterr m).
Definition mu_of_r (o : robj Z) : Mu := mkMu (r_pt o) (r_rest o) (r_eta o) (r_phi o).
Definition had_d : Z * bool := (0, false).
Definition tk_d : Z * Z * bool := (0, 0, false).

(** regionizer_test.cpp:11-16 [fill_stream]; [None]: it returns false *)
Definition fill_stream {T} (n step offset : nat) (data stream : list T) : res (option (list T)) :=
  match stream with
  | _ :: _ => Ok None
  | [] => do s <- mapM (fun k => rd data (offset + step * k)) (seq 0 ((n - offset + step - 1) / step)); Ok (Some s)
  end.

(** regionizer_test.cpp:69-72 (and 75-78, 81-84, 88-91): two sets of streams,
    two sets of regions; and the static area of the reference function *)
Record chan (A : Type) := mkChan { ch_fib : list (list (robj A)); ch_fibr : list (list (robj A));
  ch_reg : list (list (robj A)); ch_regr : list (list (robj A)); ch_static : list (list (list (robj A))) }.
Arguments mkChan {A}. Arguments ch_fib {A}. Arguments ch_fibr {A}. Arguments ch_reg {A}. Arguments ch_regr {A}. Arguments ch_static {A}.
(** fill_stream on stream [k] of both sets: lines 129-130, 133-134, 138-139,
    151-152; [None]: main returns 3 *)
Definition fill_both {A} (n step offset k : nat) (data : list (robj A)) (c : chan A) : res (option (chan A)) :=
  do s <- rd (ch_fib c) k; do f <- fill_stream n step offset data s;
  match f with
  | None => Ok None
  | Some f =>
    do fib <- wr (ch_fib c) k f;
    do s <- rd (ch_fibr c) k; do f <- fill_stream n step offset data s;
    match f with
    | None => Ok None
    | Some f => do fibr <- wr (ch_fibr c) k f; Ok (Some (mkChan fib fibr (ch_reg c) (ch_regr c) (ch_static c)))
    end
  end.

(** the input arrays: lines 68, 74, 80, 86, 87 *)
Record rins := mkRins { ri_calo : list (list HadCalo); ri_em : list (list EmCalo); ri_tk : list (list Tk); ri_mu12 : list (list Mu); ri_mu : list (list Mu) }.
(** the regions found (calo_regions etc.) in one test, with its inputs *)
Record rtest := mkRtest { rt_ins : rins; rt_calo : list (list HadCalo); rt_em : list (list EmCalo); rt_tk : list (list Tk); rt_mu : list (list Mu) }.
Record rstate := mkRs { rs_ins : rins; rs_calo : chan (Z * bool); rs_em : chan Z; rs_tk : chan (Z * Z * bool); rs_mu : chan Z; rs_tests : list rtest }.

(** the row of a two-dimensional array is overwritten by a call of
    dpf2fw::convert *)
Definition convert_row {In Out} (conv : In -> Out) (clr : Out) (n : nat) (ins : list In) (arr : list (list Out)) (k : nat) : res (list (list Out)) :=
  do row <- rd arr k; do row <- convert_in conv clr n ins row; wr arr k row.

(** regionizer_test.cpp:124-145, one sector; [None]: main returns 3 *)
Definition reg_sector (c : config) (ev : event) (st : option rstate) (is : nat) : res (option rstate) :=
  match st with
  | None => Ok None
  | Some st =>
    do r <- rd (ev_regions ev) is;
    do calo <- convert_row fw_had had0 NCALO_PER_SECTOR (rg_calo r) (ri_calo (rs_ins st)) is;
    do row <- rd calo is;
    do _ <- foldM (fun _ i => do o <- rd row i; if h_pt o >=? 0 then Ok tt else UB AssertFail) (seq 0 NCALO_PER_SECTOR) tt;
    do cc <- fill_both NCALO_PER_SECTOR 1 0 is (map r_of_had row) (rs_calo st);
    match cc with None => Ok None | Some cc =>
    do em <- convert_row fw_em em0 NEMCALO_PER_SECTOR (rg_emcalo r) (ri_em (rs_ins st)) is;
    do row <- rd em is;
    do ce <- fill_both NEMCALO_PER_SECTOR 1 0 is (map r_of_em row) (rs_em st);
    match ce with None => Ok None | Some ce =>
    do tk <- convert_row fw_tk tk0 NTRACK_PER_SECTOR (rg_track r) (ri_tk (rs_ins st)) is;
    do row <- rd tk is;
    do ct <- foldM (fun ct i => match ct with None => Ok None | Some ct => fill_both NTRACK_PER_SECTOR 2 i (2 * is + i) (map r_of_tk row) ct end) (seq 0 2) (Some (rs_tk st));
    match ct with None => Ok None | Some ct =>
    do mu <- convert_row fw_mu mu0 (NMU c) (rg_muon r) (ri_mu12 (rs_ins st)) is;
    Ok (Some (mkRs (mkRins calo em tk mu (ri_mu (rs_ins st))) cc ce ct (rs_mu st) (rs_tests st)))
    end end end
  end.

(** regionizer_test.cpp:146-153 *)
Definition reg_muons (c : config) (st : rstate) : res (option rstate) :=
  let i := rs_ins st in
  do mu <- merge_muon_in 0 (NMU c) (map (map r_of_mu) (ri_mu12 i)) (map (map r_of_mu) (ri_mu i));
  let st1 := mkRs (mkRins (ri_calo i) (ri_em i) (ri_tk i) (ri_mu12 i) (map (map mu_of_r) mu)) (rs_calo st) (rs_em st) (rs_tk st) (rs_mu st) (rs_tests st) in
  foldM (fun st is =>
    match st with
    | None => Ok None
    | Some st =>
      do row <- rd mu is;
      do cm <- fill_both (NMU c) 1 0 is row (rs_mu st);
      match cm with None => Ok None | Some cm => Ok (Some (mkRs (rs_ins st) (rs_calo st) (rs_em st) (rs_tk st) cm (rs_tests st))) end
    end) (seq 0 N_MUON_SECTORS) (Some st1).

(** the reference function for both sets of streams, one after the other: lines
    214-219 *)
Definition twice {A} (f : list (list (list (robj A))) -> list (list (robj A)) -> list (list (robj A)) -> res (list (list (robj A)) * list (list (robj A)) * list (list (list (robj A))))) (c : chan A) : res (chan A) :=
  do (reg, fib, static) <- f (ch_static c) (ch_fib c) (ch_reg c);
  do (regr, fibr, static) <- f static (ch_fibr c) (ch_regr c);
  Ok (mkChan fib fibr reg regr static).
(** regionizer_test.cpp:211-219; [junk], [work]: the uninitialised memory of
    the firmware function in this test *)
Definition reg_run (c : config) (junk : nat -> nat -> robj (Z * bool)) (work : list (list (list (robj (Z * bool))))) (st : rstate) : res rstate :=
  let cc := rs_calo st in
  do (reg, fib) <- regionize_hadcalo c had_d junk work (ch_fib cc) (ch_reg cc);
  do (regr, fibr, static) <- regionize_hadcalo_ref c had_d (ch_static cc) (ch_fibr cc) (ch_regr cc);
  do ce <- twice (regionize_emcalo_ref c 0) (rs_em st);
  do ct <- twice (regionize_track_ref c tk_d) (rs_tk st);
  do cm <- twice (regionize_muon_ref 0 (NMU c)) (rs_mu st);
  Ok (mkRs (rs_ins st) (mkChan fib fibr reg regr static) ce ct cm
    (rs_tests st ++ [mkRtest (rs_ins st) (map (map had_of_r) reg) (map (map em_of_r) (ch_reg ce)) (map (map tk_of_r) (ch_reg ct)) (map (map mu_of_r) (ch_reg cm))])).

(** one of the comparison loops, which [break]s at the first mismatch: lines
    270-281; [errors] is an int *)
Definition mismatch {T} (equals : T -> T -> bool) (n : nat) (ref out : list T) (errors : Z) : res Z :=
  do bad <- foldM (fun (bad : bool) i => if bad then Ok true else do x <- rd ref i; do y <- rd out i; Ok (negb (equals x y))) (seq 0 n) false;
  if bad : bool then i32 (errors + 1) else Ok errors.
(** regionizer_test.cpp:268-282 *)
Definition reg_compare (c : config) (st : rstate) : res Z :=
  foldM (fun e ir =>
    do a <- rd (ch_regr (rs_calo st)) ir; do b <- rd (ch_reg (rs_calo st)) ir; do e <- mismatch had_equals (NCALO c) (map had_of_r a) (map had_of_r b) e;
    do a <- rd (ch_regr (rs_em st)) ir; do b <- rd (ch_reg (rs_em st)) ir; do e <- mismatch em_equals (NEMCALO c) (map em_of_r a) (map em_of_r b) e;
    do a <- rd (ch_regr (rs_tk st)) ir; do b <- rd (ch_reg (rs_tk st)) ir; do e <- mismatch track_equals (NTRACK c) (map tk_of_r a) (map tk_of_r b) e;
    do a <- rd (ch_regr (rs_mu st)) ir; do b <- rd (ch_reg (rs_mu st)) ir; mismatch mu_equals (NMU c) (map mu_of_r a) (map mu_of_r b) e)
    (seq 0 N_OUT_REGIONS) 0.

(** regionizer_test.cpp:122-301: the body of the loop; [junk], [work]: by test *)
Definition reg_body (c : config) (junk : nat -> nat -> nat -> robj (Z * bool)) (work : nat -> list (list (list (robj (Z * bool))))) (test : nat) (st : rstate) (ev : event) : res (rstate * option Z) :=
  if negb (length (ev_regions ev) =? N_IN_SECTORS)%nat then Ok (st, Some 2) else
  do st1 <- foldM (reg_sector c ev) (seq 0 N_IN_SECTORS) (Some st);
  match st1 with None => Ok (st, Some 3) | Some st1 =>
  do st2 <- reg_muons c st1;
  match st2 with None => Ok (st, Some 3) | Some st2 =>
  do st3 <- reg_run c (junk test) (work test) st2;
  do errors <- reg_compare c st3;
  Ok (st3, if errors =? 0 then None else Some 1)
  end end.

(** regionizer_test.cpp:9 *)
Definition REG_NTEST : nat := 50.
(** regionizer_test.cpp:48-305: the exit code and the tests made.  The streams
    start empty; [ins] and the regions of [st0] are uninitialised memory and
    the static areas of [st0] hold whatever default construction puts there. *)
Definition reg_start (ins : rins) (cc : chan (Z * bool)) (ce : chan Z) (ct : chan (Z * Z * bool)) (cm : chan Z) : rstate :=
  let empty {A} (n : nat) (c : chan A) := mkChan (repeat [] n) (repeat [] n) (ch_reg c) (ch_regr c) (ch_static c) in
  mkRs ins (empty N_IN_SECTORS cc) (empty N_IN_SECTORS ce) (empty (2 * N_IN_SECTORS)%nat ct) (empty N_MUON_SECTORS cm) [].
Definition reg_main (c : config) (tail : res bool) (junk : nat -> nat -> nat -> robj (Z * bool)) (work : nat -> list (list (list (robj (Z * bool)))))
    (g : Z) (st0 : rstate) (bytes : option (list Z)) : res (Z * list rtest) :=
  do s <- inputs_open g bytes;
  do (st, code) <- event_loop tail (reg_body c junk work) REG_NTEST 1 (reg_start (rs_ins st0) (rs_calo st0) (rs_em st0) (rs_tk st0) (rs_mu st0)) s;
  Ok (match code with Some x => x | None => 0 end, rs_tests st).
