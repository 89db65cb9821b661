(** C74, C75: what the comparison functions and the particle-flow test program
    print on the console. *)
From Coq Require Import Ascii String.
From Verif Require Import Base BaseFacts Data PFHw PFRef Encoding TestUtils SpecPF SerText Printf HumanRead SpecHR HRFacts Discrete Convert DiscreteIO SpecIO SpecOut RegionLoop PFTest SpecTest
  Serializer SpecSer Console SpecConsole ConsoleFacts ConsoleMain Props_PFTest.
Local Open Scope string_scope.
Local Open Scope list_scope.
Local Open Scope Z_scope.

(** ** C74 *)
(** The six comparison functions return whether the two objects are the same
    ([same_object]: all fields equal, or both empty).  They print nothing if they
    are, and otherwise one line that names the slot and gives every field of both
    objects, those of the reference first. *)
Theorem C74_mismatch_report : forall what idx, one_line what -> small idx ->
  (forall r o, had_ok r -> had_ok o -> had_equals r o = same_object (had_fields r) (had_fields o) /\
     (had_message what idx r o = [] <-> had_equals r o = true) /\ read_console (had_message what idx r o) = compare_rows what had_names idx (had_fields r) (had_fields o)) /\
  (forall r o, em_ok r -> em_ok o -> em_equals r o = same_object (em_fields r) (em_fields o) /\
     (em_message what idx r o = [] <-> em_equals r o = true) /\ read_console (em_message what idx r o) = compare_rows what em_names idx (em_fields r) (em_fields o)) /\
  (forall r o, tk_ok r -> tk_ok o -> track_equals r o = same_object (tk_fields r) (tk_fields o) /\
     (track_message what idx r o = [] <-> track_equals r o = true) /\ read_console (track_message what idx r o) = compare_rows what tk_names idx (tk_fields r) (tk_fields o)) /\
  (forall r o, mu_ok r -> mu_ok o -> mu_equals r o = same_object (mu_fields r) (mu_fields o) /\
     (mu_message what idx r o = [] <-> mu_equals r o = true) /\ read_console (mu_message what idx r o) = compare_rows what em_names idx (mu_fields r) (mu_fields o)) /\
  (forall r o, ch_ok r -> ch_ok o -> pf_equals_ch r o = same_object (ch_fields r) (ch_fields o) /\
     (ch_message what idx r o = [] <-> pf_equals_ch r o = true) /\ read_console (ch_message what idx r o) = compare_rows what ch_names idx (ch_fields r) (ch_fields o)) /\
  (forall r o, ne_ok r -> ne_ok o -> pf_equals_ne r o = same_object (ne_fields r) (ne_fields o) /\
     (ne_message what idx r o = [] <-> pf_equals_ne r o = true) /\ read_console (ne_message what idx r o) = compare_rows what ne_names idx (ne_fields r) (ne_fields o)).
Proof. exact messages_say. Qed.
Print Assumptions C74_mismatch_report.

Example C74_hyp : one_line "PF Charged" /\ small 7 /\ ch_ok (mkCh 20 (-3) 4 1 (-9)) /\ ch_ok (mkCh 20 (-3) 4 2 (-9)) /\
  read_console (ch_message "PF Charged" 7 (mkCh 20 (-3) 4 1 (-9)) (mkCh 20 (-3) 4 2 (-9))) =
    [(["Mismatch"; "at"; "PF"; "Charged"; "ref"; "vs"; "test,"; "hwPt"; "hwEta"; "hwPhi"; "hwId"; "hwZ0"], [7; 20; 20; -3; -3; 4; 4; 1; 2; -9; -9])] /\
  ch_message "PF Charged" 7 (mkCh 0 (-3) 4 1 (-9)) (mkCh 0 0 0 0 0) = [] /\ ch_message "PF Charged" 7 (mkCh 1 (-3) 4 1 (-9)) (mkCh 0 0 0 0 0) <> [].
Proof. split; [unfold one_line; cbn; intuition discriminate|]. split; [unfold small; lia|]. split; [repeat split; discriminate || reflexivity|]. split; [repeat split; discriminate || reflexivity|]. split; [vm_compute; reflexivity|]. split; [vm_compute; reflexivity|vm_compute; discriminate]. Qed.

(** ** C75 *)
(** Read line by line, the console of the program consists of: for each event
    its announcement; for each of its regions that is tested the sizes of the
    region, the pattern counters of the CTP7 serializers, and in the builds that
    compare the verdict of the test ([verdict_rows]: every mismatch and, if there
    is any, the inputs and both outputs in full); at the end one line per file
    with the number of its patterns.  Nothing else is printed, in this order. *)
Theorem C75_console : forall b validate c ii special mh mr g arr pho ne evs, build_ok b c -> cfg_fits c -> (forall t, mem_typed (mh t)) -> arrays_ok c arr ->
  length pho = NEMCALO c -> length ne = NSELCALO c -> Forall good_event evs -> (1 <= ii)%nat -> (MP7_NCHANN mod ii = 0)%nat ->
  exists N,
   (exists code runs text,
      (forall fuel, (N <= fuel)%nat -> pf_main b validate c special (Ok true) fuel mh mr g arr pho ne (Some (dump evs)) = Some (Ok (code, runs)) /\
         pf_main_say b validate c ii special (Ok true) fuel mh mr g arr pho ne (Some (dump evs)) = Some (Ok (code, runs, text))) /\
      outcome b validate c mh mr 1 (tested c special NTEST evs) runs code /\
      read_console text = console_rows b validate ii evs code runs) \/
   (exists k,
      (forall fuel, (N <= fuel)%nat -> pf_main b validate c special (Ok true) fuel mh mr g arr pho ne (Some (dump evs)) = Some (UB k) /\
         pf_main_say b validate c ii special (Ok true) fuel mh mr g arr pho ne (Some (dump evs)) = Some (UB k)) /\
      reaches_undefined b validate c mh mr 1 (tested c special NTEST evs) k).
Proof. exact main_says. Qed.
Print Assumptions C75_console.

Definition cx_main (b : board) (c : config) (ii : nat) (evs : list event) : option (list row) :=
  match pf_main_say b true c ii (fun x => x) (Ok true) 20 tx_mem tx_mem 0 (tx_arr c) (repeat (mkNe 0 0 0 0 9) (NEMCALO c)) (repeat (mkNe 0 0 0 0 9) (NSELCALO c)) (Some (dump evs)) with
  | Some (Ok (_, _, text)) => Some (read_console text)
  | _ => None
  end.
(** the other hypotheses are met by the inputs of [C57_hyp] *)
Example C75_hyp : cfg_fits cfg_default /\ cfg_fits cfg_TESTMP7 /\ cfg_fits cfg_TESTCTP7 /\ (1 <= 4)%nat /\ (MP7_NCHANN mod 4 = 0)%nat /\
  cx_main Plain cfg_default 4 [tx_event 7 tx_good; tx_event 8 tx_good] = Some
   [(["Beginning"; "of"; "run"; "lumi"; "event"], [1; 2; 7]); (["Read"; "region"; "with"; "tracks,"; "em"; "calo,"; "had"; "calo,"; "muons"], [0; 2; 1; 1; 1]); (["Passed"; "test"], [1; 4; 2; 1; 1]);
    (["Beginning"; "of"; "run"; "lumi"; "event"], [1; 2; 8]); (["Read"; "region"; "with"; "tracks,"; "em"; "calo,"; "had"; "calo,"; "muons"], [0; 2; 1; 1; 1]); (["Passed"; "test"], [2; 4; 2; 1; 1]);
    (["Saved"; "human"; "readable"; "patterns"; "to"; "human_readable_patterns.txt."], [2])] /\
  option_map (fun l => (length l, firstn 3 (skipn 4 l), last l ([], []))) (cx_main MP7 cfg_TESTMP7 4 [tx_event 7 tx_good; tx_event 8 tx_bad; tx_event 9 tx_good]) = Some
   (148%nat, [(["Read"; "region"; "with"; "tracks,"; "em"; "calo,"; "had"; "calo,"; "muons"], [0; 1; 2; 1; 0]);
              (["Mismatch"; "at"; "PF"; "Neutral"; "ref"; "vs"; "test,"; "hwPt"; "hwEta"; "hwPhi"; "hwId"], [0; 40; 0; 10; 0; 0; 0; 1; 0]); (["Error"; "in"; "computing"; "test"], [2; 1])],
    (["Saved"; "MP7"; "patterns"; "to"; "mp7_input_patterns.txt."], [8])).
Proof.
  assert (F : forall n : nat, (n < 100)%nat -> Z.of_nat n < 2 ^ 32) by (intros; lia).
  split; [repeat constructor; apply F, Nat.ltb_lt; reflexivity|]. split; [repeat constructor; apply F, Nat.ltb_lt; reflexivity|]. split; [repeat constructor; apply F, Nat.ltb_lt; reflexivity|].
  split; [lia|]. split; [reflexivity|]. split; vm_compute; reflexivity.
Qed.
