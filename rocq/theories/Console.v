(** What the programs print on the console (standard output): the messages of
    utils/test_utils.cpp, of the input reader (utils/DiscretePFInputs_IO.h), of
    the pattern serializers and of simple_fullpfalgo_test.cpp.  Text is a list of
    characters; std::cout and stdout are one stream (sync_with_stdio is not
    switched off).  The conversion %s copies its argument, which is spliced in
    between two formats. *)
From Coq Require Import Ascii String.
From Verif Require Import Base Data PFHw PFRef Encoding TestUtils SerText Printf HumanRead Discrete Convert DiscreteIO Serializer RegionLoop PFTest.
Local Open Scope string_scope.
Local Open Scope list_scope.
Local Open Scope Z_scope.

(** ** utils/test_utils.cpp: what each comparison prints (its result is in TestUtils.v) *)
Definition at_slot (what : string) (rest : list ascii) : list ascii := chars "Mismatch at " ++ chars what ++ rest.
(** test_utils.cpp:11-14 *)
Definition had_message (what : string) (idx : Z) (r o : HadCalo) : list ascii :=
  if negb (had_equals r o)
  then at_slot what (printf_nl "[%d] ref vs test, hwPt % 7d % 7d   hwEmPt % 7d % 7d   hwEta %+7d %+7d   hwPhi %+7d %+7d   hwId %1d %1d"
         [idx; h_pt r; h_pt o; h_empt r; h_empt o; h_eta r; h_eta o; h_phi r; h_phi o; b2z (h_isem r); b2z (h_isem o)])
  else [].
(** test_utils.cpp:24-27 *)
Definition em_message (what : string) (idx : Z) (r o : EmCalo) : list ascii :=
  if negb (em_equals r o)
  then at_slot what (printf_nl "[%d] ref vs test, hwPt % 7d % 7d   hwPtErr % 7d % 7d   hwEta %+7d %+7d   hwPhi %+7d %+7d"
         [idx; e_pt r; e_pt o; e_pterr r; e_pterr o; e_eta r; e_eta o; e_phi r; e_phi o])
  else [].
(** test_utils.cpp:38-41 *)
Definition track_message (what : string) (idx : Z) (r o : Tk) : list ascii :=
  if negb (track_equals r o)
  then at_slot what (printf_nl "[%d] ref vs test, hwPt % 7d % 7d   hwPtErr % 7d % 7d   hwEta %+7d %+7d   hwPhi %+7d %+7d   hwZ0 %+7d %+7d"
         [idx; t_pt r; t_pt o; t_pterr r; t_pterr o; t_eta r; t_eta o; t_phi r; t_phi o; t_z0 r; t_z0 o])
  else [].
(** test_utils.cpp:51-54 *)
Definition mu_message (what : string) (idx : Z) (r o : Mu) : list ascii :=
  if negb (mu_equals r o)
  then at_slot what (printf_nl "[%d] ref vs test, hwPt % 7d % 7d   hwPtErr % 7d % 7d   hwEta %+7d %+7d   hwPhi %+7d %+7d"
         [idx; m_pt r; m_pt o; m_pterr r; m_pterr o; m_eta r; m_eta o; m_phi r; m_phi o])
  else [].
(** test_utils.cpp:65-72 *)
Definition ch_message (what : string) (idx : Z) (r o : PFCh) : list ascii :=
  if negb (pf_equals_ch r o)
  then at_slot what (printf_nl "[%d] ref vs test, hwPt % 7d % 7d   hwEta %+7d %+7d   hwPhi %+7d %+7d   hwId %1d %1d      hwZ0 %+7d %+7d   "
         [idx; c_pt r; c_pt o; c_eta r; c_eta o; c_phi r; c_phi o; c_id r; c_id o; c_z0 r; c_z0 o])
  else [].
(** test_utils.cpp:82-88 *)
Definition ne_message (what : string) (idx : Z) (r o : PFNe) : list ascii :=
  if negb (pf_equals_ne r o)
  then at_slot what (printf_nl "[%d] ref vs test, hwPt % 7d % 7d   hwEta %+7d %+7d   hwPhi %+7d %+7d   hwId %1d %1d "
         [idx; n_pt r; n_pt o; n_eta r; n_eta o; n_phi r; n_phi o; n_id r; n_id o])
  else [].

(** ** The validation of one test, simple_fullpfalgo_test.cpp:110-141 *)
(** text printed, errors, ntot, and the counter of the kind being compared (all int) *)
Definition tally : Type := list ascii * Z * Z * Z.
(** one of the four loops, simple_fullpfalgo_test.cpp:115-131 *)
Definition check_slots {T} (equals : T -> T -> bool) (message : Z -> T -> T -> list ascii) (pt : T -> Z) (n : nat) (ref out : list T) (st : tally) : res tally :=
  foldM (fun '(text, errors, ntot, nkind) i =>
    do x <- rd ref i; do y <- rd out i;
    let text := text ++ message (Z.of_nat i) x y in
    do errors <- (if negb (equals x y) then i32 (errors + 1) else Ok errors);
    if pt x >? 0 then do ntot <- i32 (ntot + 1); do nkind <- i32 (nkind + 1); Ok (text, errors, ntot, nkind)
    else Ok (text, errors, ntot, nkind)) (seq 0 n) st.
(** debugHR(...) of simple_fullpfalgo_test.cpp:40 writes to the console *)
Definition on_console (f : hr -> res hr) : res (list ascii) := do s <- f (hr_new true); Ok (hs_text s).
(** simple_fullpfalgo_test.cpp:110-141: the text and what main returns, if it returns *)
Definition pf_validate (c : config) (test : Z) (run : pfrun) : res (list ascii * option Z) :=
  let ref := pr_ref run in let hw := pr_hw run in let r := pr_region run in
  do (t, errors, ntot, nch) <- check_slots pf_equals_ch (ch_message "PF Charged") c_pt (NTRACK c) (o_ch ref) (o_ch hw) ([], 0, 0, 0);
  do (t, errors, ntot, npho) <- check_slots pf_equals_ne (ne_message "Photon") n_pt (NEMCALO c) (o_pho ref) (o_pho hw) (t, errors, ntot, 0);
  do (t, errors, ntot, nneu) <- check_slots pf_equals_ne (ne_message "PF Neutral") n_pt (NSELCALO c) (o_ne ref) (o_ne hw) (t, errors, ntot, 0);
  do (t, errors, ntot, nmu) <- check_slots pf_equals_ch (ch_message "PF Muon") c_pt (NMU c) (o_mu ref) (o_mu hw) (t, errors, ntot, 0);
  if negb (errors =? 0) then
    do d1 <- on_console (hr_dump_inputs (fw_emcalo r) (fw_calo r) (fw_track r) (fw_muon r));
    do d2 <- on_console (hr_dump_outputs ref);
    do d3 <- on_console (hr_dump_outputs hw);
    Ok (t ++ printf_nl "Error in computing test %d (%d)" [test; errors] ++ chars "Inputs: " ++ [newline] ++ d1 ++
        chars "Reference output: " ++ [newline] ++ d2 ++ chars "Current output: " ++ [newline] ++ d3, Some 1)
  else Ok (t ++ printf_nl "Passed test %d (%d, %d, %d, %d)" [test; ntot; nch; npho; nneu], None).

(** ** The input reader *)
(** DiscretePFInputs_IO.h:75 (%lu has up to twenty digits) *)
Definition beginning (e : event) : list ascii :=
  printf "Beginning of run %u, lumi %u, event " [ev_run e; ev_lumi e] ++ dec 20 (ev_event e) ++ chars " " ++ [newline].
(** DiscretePFInputs_IO.h:57; [s]: before iregion_++ *)
Definition read_region (s : inputs) (r : Region) : list ascii :=
  printf_nl "Read region %u with %lu tracks, %lu em calo, %lu had calo, %lu muons"
    [Z.of_nat (in_region s); Z.of_nat (length (rg_track r)); Z.of_nat (length (rg_emcalo r)); Z.of_nat (length (rg_calo r)); Z.of_nat (length (rg_muon r))].
(** DiscretePFInputs_IO.h:70-85: [next_region] with its text ([say]: printed so far) *)
Fixpoint next_region_say (tail : res bool) (fuel : nat) (say : list ascii) (s : inputs) : option (res (bool * inputs * list ascii)) :=
  match fuel with
  | O => None
  | S fuel' =>
    let reload := (ev_event (in_event s) =? 0) || (Z.of_nat (in_region s) =? Z.of_nat (length (ev_regions (in_event s)))) in
    let step1 : res (bool * inputs * list ascii) :=
      if reload then
        if f_eof (in_file s) then Ok (false, s, say) else
        do ((ok, ev), f) <- event_read tail (in_event s) (in_file s);
        if ok : bool then Ok (true, mkIn f ev 0, say ++ beginning ev) else Ok (false, mkIn f ev (in_region s), say)
      else Ok (true, s, say) in
    match step1 with
    | UB k => Some (UB k)
    | Ok (false, s1, say1) => Some (Ok (false, s1, say1))
    | Ok (true, s1, say1) =>
      match rd (ev_regions (in_event s1)) (in_region s1) with
      | UB k => Some (UB k)
      | Ok r =>
        if abs_gt_1p5 (rg_etac r)
        then next_region_say tail fuel' say1 (mkIn (in_file s1) (in_event s1) (Z.to_nat (wrapU 32 (Z.of_nat (in_region s1) + 1))))
        else Some (Ok (true, s1, say1))
      end
    end
  end.
(** DiscretePFInputs_IO.h:42-60: [next_region_fw] with its text *)
Definition next_region_fw_say (c : config) (special : Z -> Z) (tail : res bool) (fuel : nat) (out : fwregion) (s : inputs) : option (res (bool * fwregion * inputs * list ascii)) :=
  match next_region_say tail fuel [] s with
  | None => None
  | Some (UB k) => Some (UB k)
  | Some (Ok (false, s1, say)) => Some (Ok (false, out, s1, say))
  | Some (Ok (true, s1, say)) => Some (
      do r <- rd (ev_regions (in_event s1)) (in_region s1);
      do tk <- convert_in fw_tk tk0 (NTRACK c) (rg_track r) (fw_track out);
      do calo <- convert_in fw_had had0 (NCALO c) (rg_calo r) (fw_calo out);
      do em <- convert_in fw_em em0 (NEMCALO c) (rg_emcalo r) (fw_emcalo out);
      do mu <- convert_in fw_mu mu0 (NMU c) (rg_muon r) (fw_muon out);
      Ok (true, mkFw calo em tk mu (zpv special (ev_z0 (in_event s1))), mkIn (in_file s1) (in_event s1) (Z.to_nat (wrapU 32 (Z.of_nat (in_region s1) + 1))), say ++ read_region s1 r))
  end.

(** ** The pattern serializers *)
(** pattern_serializer.cpp:210, 221 *)
Definition ipattern_line (n : nat) : list ascii := printf_nl "ipattern = %u" [Z.of_nat n].
(** pattern_serializer.cpp:201-231: what one call prints.  First the line of
    line 210 (its test was already made by the caller), then the loop; the state
    is the text, ipattern_ and whether the loop has returned. *)
Definition ctp7_say (s : ctp7) : list ascii :=
  if negb (c_open s) || (1023 <? c_ipattern s)%nat || negb (c_nmux s =? 1)%nat then []
  else fst (fst (fold_left (fun '(text, n, returned) (_ : nat) =>
           if returned : bool then (text, n, true)
           else if (1023 <? n)%nat then (text ++ ipattern_line n, n, true) else (text ++ ipattern_line n, S n, false))
         (seq 0 5) (ipattern_line (c_ipattern s), S (c_ipattern s), false))).
(** pattern_serializer.cpp:26-33, 102-108, 192-199: the destructors *)
Definition saved (n : Z) (kind fname : string) : list ascii :=
  printf "Saved %u " [n] ++ chars kind ++ chars " patterns to " ++ chars fname ++ chars "." ++ [newline].
(** ipattern_ after one call per event *)
Definition mp7_count_links (nlinks nmux : nat) (nempty : Z) (events : list (list Z)) : res Z :=
  do (cfg, s0) <- mp7_open true nmux nempty nlinks; do s <- foldM (mp7_event cfg) events s0; Ok (s_ipattern s).
Definition mp7_count : nat -> Z -> list (list Z) -> res Z := mp7_count_links 0.
Definition ctp7_count (nchann : nat) (events : list (list Z)) : res Z :=
  do s0 <- ctp7_open true 1; do s <- foldM ctp7_event (map (fun w => (w, nchann)) events) s0; Ok (Z.of_nat (c_ipattern s)).
Definition hr_count (events : list hrev) : res Z := do s <- foldM hr_call events (hr_new true); Ok (hs_n s).
(** the objects of main are destroyed in the reverse order of
    simple_fullpfalgo_test.cpp:27-39 (debugHR prints nothing) *)
Definition pf_saved (b : board) (ii : nat) (runs : list pfrun) : res (list ascii) :=
  let i := map pr_in runs in let o := map pr_out runs in let e := Z.of_nat ii - 1 in let m := - Z.of_nat ii + 1 in
  do h <- hr_count (map (fun t => mkHrev (fw_emcalo (pr_region t)) (fw_calo (pr_region t)) (fw_track (pr_region t)) (fw_muon (pr_region t)) (pr_hw t)) runs);
  let th := saved h "human readable" "human_readable_patterns.txt" in
  match b with
  | Plain => Ok th
  | MP7 =>
    do n1 <- mp7_count 1 0 o; do n2 <- mp7_count 1 0 i; do n3 <- mp7_count ii m o; do n4 <- mp7_count ii m i; do n5 <- mp7_count ii e o; do n6 <- mp7_count ii e i;
    Ok (th ++ saved n1 "MP7" "mp7_output_patterns_nomux.txt" ++ saved n2 "MP7" "mp7_input_patterns_nomux.txt" ++
        saved n3 "MP7" "mp7_output_patterns_magic.txt" ++ saved n4 "MP7" "mp7_input_patterns_magic.txt" ++
        saved n5 "MP7" "mp7_output_patterns.txt" ++ saved n6 "MP7" "mp7_input_patterns.txt")
  | CTP7 =>
    do n1 <- ctp7_count (out_size CTP7) o; do n2 <- ctp7_count (in_size CTP7) i;
    Ok (th ++ saved n1 "CTP7" "ctp7_output_patterns_nomux.txt" ++ saved n2 "CTP7" "ctp7_input_patterns_nomux.txt")
  end.

(** ** main *)
(** the state: that of [pf_body], the two CTP7 serializers and the text *)
Definition saystate : Type := pfstate * ctp7 * ctp7 * list ascii.
(** simple_fullpfalgo_test.cpp:64-141 *)
Definition pf_body_say (b : board) (validate : bool) (c : config) (mh mr : nat -> pfmem) (test : nat) (st : saystate) (r : fwregion) : res (saystate * option Z) :=
  let '(pho, ne, runs, si, so, text) := st in
  do run <- pf_run b c (mh test) (mr test) pho ne r;
  let st1 := (o_pho (pr_hw run), o_ne (pr_hw run), runs ++ [run]) in
  do (si1, so1, t1) <- match b with
    | CTP7 => do si1 <- ctp7_event si (pr_in run, in_size CTP7); do so1 <- ctp7_event so (pr_out run, out_size CTP7); Ok (si1, so1, ctp7_say si ++ ctp7_say so)
    | _ => Ok (si, so, [])
    end;
  if match b with Plain => true | _ => validate end then
    do (t2, code) <- pf_validate c (Z.of_nat test) run;
    Ok (st1, si1, so1, text ++ t1 ++ t2, code)
  else Ok (st1, si1, so1, text ++ t1, None).
(** [region_loop] with the text of nextRegion handed to [hear] *)
Fixpoint region_loop_say {S} (c : config) (special : Z -> Z) (tail : res bool) (fuel : nat) (clear : fwregion -> fwregion) (hear : S -> list ascii -> S)
    (body : nat -> S -> fwregion -> res (S * option Z)) (n test : nat) (st : S) (arr : fwregion) (s : inputs) : option (res (S * option Z)) :=
  match n with
  | O => Some (Ok (st, None))
  | Datatypes.S n' =>
    match next_region_fw_say c special tail fuel (clear arr) s with
    | None => None
    | Some (UB k) => Some (UB k)
    | Some (Ok (false, _, _, say)) => Some (Ok (hear st say, None))
    | Some (Ok (true, arr1, s1, say)) =>
      match body test (hear st say) arr1 with
      | UB k => Some (UB k)
      | Ok (st1, Some code) => Some (Ok (st1, Some code))
      | Ok (st1, None) => region_loop_say c special tail fuel clear hear body n' (Datatypes.S test) st1 arr1 s1
      end
    end
  end.
(** simple_fullpfalgo_test.cpp:11-144: the exit code, the tests done and the text on the console *)
Definition pf_main_say (b : board) (validate : bool) (c : config) (ii : nat) (special : Z -> Z) (tail : res bool) (fuel : nat) (mh mr : nat -> pfmem)
    (g : Z) (arr : fwregion) (pho ne : list PFNe) (bytes : option (list Z)) : option (res (Z * list pfrun * list ascii)) :=
  match inputs_open g bytes with
  | UB k => Some (UB k)
  | Ok s =>
    match region_loop_say c special tail fuel clear_arrays (fun '(st, si, so, text) say => (st, si, so, text ++ say)) (pf_body_say b validate c mh mr)
            NTEST 1 (pho, ne, [], mkCtp7 true 1 0 [], mkCtp7 true 1 0 [], []) arr s with
    | None => None
    | Some (UB k) => Some (UB k)
    | Some (Ok ((_, _, runs, _, _, text), code)) =>
      Some (do t <- pf_saved b ii runs; Ok (match code with Some x => x | None => 0 end, runs, text ++ t))
    end
  end.
