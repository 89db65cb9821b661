(** Model of simple_fullpfalgo_test.cpp (the particle-flow test program) in its
    three builds.  The messages on the console are in Console.v.  The pattern
    serializers are separate objects, each called once per test with the words
    of that test: their files are the sessions of [pf_mp7_files] etc. over the
    tests that were run. *)
From Coq Require Import Ascii String.
From Verif Require Import Base Data PFHw PFRef Encoding TestUtils Discrete Convert DiscreteIO Serializer HumanRead RegionLoop.
Local Open Scope list_scope.

Inductive board := Plain | MP7 | CTP7.
(** sizes of data_in and data_out, simple_fullpfalgo_test.cpp:65, 84 *)
Definition in_size (b : board) : nat := match b with MP7 => MP7_NCHANN | CTP7 => CTP7_NCHANN_IN | Plain => 0 end.
Definition out_size (b : board) : nat := match b with MP7 => MP7_NCHANN | CTP7 => CTP7_NCHANN_OUT | Plain => 0 end.
(** simple_fullpfalgo_test.cpp:8 *)
Definition NTEST : nat := 500.

(** one test: inputs, words (none in the plain build) and outputs *)
Record pfrun := mkRun { pr_region : fwregion; pr_in : list Z; pr_out : list Z; pr_hw : pfout; pr_ref : pfout }.

(** simple_fullpfalgo_test.cpp:64-98.  [mh], [mr]: previous contents of the
    memory of the firmware and of the reference; [pho], [ne]: previous contents
    of outpho and outne.  MP7_TOP_FUNC and MP7_REF_FUNC are
    mp7wrapped_pfalgo3_full and pfalgo3_full_ref (config_hls_fullpfalgo_mp7.tcl,
    run_hls_fullpfalgo_ctp7.tcl:3-7). *)
Definition pf_run (b : board) (c : config) (mh mr : pfmem) (pho ne : list PFNe) (r : fwregion) : res pfrun :=
  let em := fw_emcalo r in let had := fw_calo r in let tk := fw_track r in let mu := fw_muon r in
  match b with
  | Plain =>
    do ref <- pfalgo3_full_ref mr (NSELCALO c) em had tk mu;
    do hw <- pfalgo3_full mh (NSELCALO c) em had tk mu;
    Ok (mkRun r [] [] hw ref)
  | _ =>
    do din <- mp7wrapped_pack_in MP7_NCHANN em had tk mu (repeat 0 (in_size b));
    do dout <- mp7wrapped_pfalgo3_full MP7_NCHANN (NEMCALO c) (NCALO c) (NTRACK c) (NMU c) (NSELCALO c) mh din (repeat 0 (out_size b));
    do (ch, pho1, ne1, mu1) <- mp7wrapped_unpack_out MP7_NCHANN (NTRACK c) (NMU c) dout pho ne;
    do ref <- pfalgo3_full_ref mr (NSELCALO c) em had tk mu;
    Ok (mkRun r din dout (mkOut ch pho1 ne1 mu1) ref)
  end.

(** one of the four comparison loops, simple_fullpfalgo_test.cpp:115-131; [errors] is an int *)
Definition mismatches {T} (equals : T -> T -> bool) (n : nat) (ref out : list T) (errors : Z) : res Z :=
  foldM (fun e i => do x <- rd ref i; do y <- rd out i; if equals x y then Ok e else i32 (e + 1)) (seq 0 n) errors.
(** simple_fullpfalgo_test.cpp:112-131 *)
Definition pf_compare (c : config) (ref out : pfout) : res Z :=
  do e <- mismatches pf_equals_ch (NTRACK c) (o_ch ref) (o_ch out) 0;
  do e <- mismatches pf_equals_ne (NEMCALO c) (o_pho ref) (o_pho out) e;
  do e <- mismatches pf_equals_ne (NSELCALO c) (o_ne ref) (o_ne out) e;
  mismatches pf_equals_ch (NMU c) (o_mu ref) (o_mu out) e.

(** the state kept between tests: the arrays outpho and outne, the tests done *)
Definition pfstate : Type := list PFNe * list PFNe * list pfrun.
(** simple_fullpfalgo_test.cpp:64-140; [validate]: MP7_VALIDATE or
    CTP7_VALIDATE (the plain build has no such switch) *)
Definition pf_body (b : board) (validate : bool) (c : config) (mh mr : nat -> pfmem) (test : nat) (st : pfstate) (r : fwregion) : res (pfstate * option Z) :=
  let '(pho, ne, runs) := st in
  do run <- pf_run b c (mh test) (mr test) pho ne r;
  let st1 := (o_pho (pr_hw run), o_ne (pr_hw run), runs ++ [run]) in
  if match b with Plain => true | _ => validate end then
    do errors <- pf_compare c (pr_ref run) (pr_hw run);
    Ok (st1, if errors =? 0 then None else Some 1)
  else Ok (st1, None).

(** simple_fullpfalgo_test.cpp:11-144: the exit code and the tests done.
    [bytes]: the contents of the input file; [arr], [pho], [ne]: the initial
    contents of the uninitialised arrays; [g]: of event_.genZ0. *)
Definition pf_main (b : board) (validate : bool) (c : config) (special : Z -> Z) (tail : res bool) (fuel : nat) (mh mr : nat -> pfmem)
    (g : Z) (arr : fwregion) (pho ne : list PFNe) (bytes : option (list Z)) : option (res (Z * list pfrun)) :=
  match inputs_open g bytes with
  | UB k => Some (UB k)
  | Ok s =>
    match region_loop c special tail fuel clear_arrays (pf_body b validate c mh mr) NTEST 1 (pho, ne, []) arr s with
    | None => None
    | Some (UB k) => Some (UB k)
    | Some (Ok ((_, _, runs), code)) => Some (Ok (match code with Some x => x | None => 0 end, runs))
    end
  end.

(** ** The files *)
(** simple_fullpfalgo_test.cpp:27-34, 79-81: mp7_{input,output}_patterns.txt,
    ..._magic.txt and ..._nomux.txt with HLS_pipeline_II = ii *)
Definition pf_mp7_files (ii : nat) (words : list (list Z)) : res (list line * list line * list line) :=
  do a <- mp7_session true ii (Z.of_nat ii - 1) 0 words;
  do m <- mp7_session true ii (- Z.of_nat ii + 1) 0 words;
  do n <- mp7_session true 1 0 0 words;
  Ok (snd a, snd m, snd n).
(** simple_fullpfalgo_test.cpp:36-37, 94: ctp7_{input,output}_patterns_nomux.txt *)
Definition pf_ctp7_file (nchann : nat) (words : list (list Z)) : res (list line) := ctp7_session true 1 (map (fun w => (w, nchann)) words).
(** simple_fullpfalgo_test.cpp:39, 101: human_readable_patterns.txt *)
Definition pf_hr_file (runs : list pfrun) : res (list ascii) :=
  hr_session true (map (fun t => mkHrev (fw_emcalo (pr_region t)) (fw_calo (pr_region t)) (fw_track (pr_region t)) (fw_muon (pr_region t)) (pr_hw t)) runs).
