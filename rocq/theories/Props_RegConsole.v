(** C80: what the regionizer test program (regionizer/regionizer_test.cpp)
    prints on the console.  Texts are read back line by line by [read_console]
    (SpecConsole.v: words and integers); the rows expected are in
    SpecRegConsole.v.  [st0], [junk], [work], [old]: uninitialised memory. *)
From Coq Require Import Ascii String.
From Verif Require Import Base BaseFacts Data PFHw DiscreteIO SpecIO SpecRegion Regionizer RegTest SpecRegTest RegFiles SpecRegFiles SpecConsole RegConsole SpecRegConsole RegConsoleMain Props_RegTest.
Local Open Scope string_scope.
Local Open Scope list_scope.
Local Open Scope Z_scope.

(** A run that ends prints the configuration, then one line per event tested
    ("Passed test n") or the complaint that ends the run, then - in the MP7
    build - the number of patterns of each file: nothing else, whatever the
    dump and the memory; adding the text changes neither the exit code nor the
    tests made.  A run that does not end well prints nothing we claim. *)
Theorem C80_console : forall c mp7 junk work g st0 old evs, memory_ok c st0 -> (forall t, dims3 12 3 7 (work t)) -> Forall event_wf evs -> cfg_small c ->
  (mp7 = true -> out_fits c /\ trans_ok c old) ->
  match verdict (NCALO c) (firstn 50 evs) with
  | UB k => reg_main_say c mp7 (Ok true) junk work g st0 old (Some (dump evs)) = UB k
  | Ok code => exists tests text, reg_main c (Ok true) junk work g st0 (Some (dump evs)) = Ok (code, tests) /\
      reg_main_say c mp7 (Ok true) junk work g st0 old (Some (dump evs)) = Ok (code, tests, text) /\ read_console text = reg_console_rows c mp7 (firstn 50 evs)
  end.
Proof. exact c80_console. Qed.
Print Assumptions C80_console.
(** The comparison of a test, on any regions (not only those the firmware and
    the reference compute): it passes exactly when all regions hold the same
    objects, otherwise main returns 1; the console names the first differing
    slot of each kind in each region, with both objects field by field, and
    after a failure dumps the clusters of all sectors and regions. *)
Theorem C80_comparison : forall c test st, cfg_small c -> Z.of_nat test < 2 ^ 31 -> regions4_ok c (reference_regions st) -> regions4_ok c (tested_regions st) ->
  dims2 12 15 (ri_calo (rs_ins st)) -> Forall (Forall had_ok) (ri_calo (rs_ins st)) ->
  exists text verdict, reg_validate c test st = Ok (text, verdict) /\ (verdict = None <-> all_same (reference_regions st) (tested_regions st)) /\ (verdict <> None -> verdict = Some 1) /\
    read_console text = judgement_rows test (ri_calo (rs_ins st)) (reference_regions st) (tested_regions st).
Proof. exact c80_comparison. Qed.
Print Assumptions C80_comparison.

(** two tests and an event with eleven sectors, in the MP7 build *)
Definition cx_run := reg_main_say cfg_TESTMP7 true (Ok true) (fun _ _ _ => mkR 1 2 3 (4, true)) rx_work 0 (rx_st cfg_TESTMP7) (rx_trans cfg_TESTMP7) (Some (dump [rx_event 50; rx_event 60; rx_short; rx_event 70])).
Example C80_hyp : memory_ok cfg_TESTMP7 (rx_st cfg_TESTMP7) /\ (forall t, dims3 12 3 7 (rx_work t)) /\ Forall event_wf [rx_event 50; rx_event 60; rx_short; rx_event 70] /\ cfg_small cfg_TESTMP7 /\
  out_fits cfg_TESTMP7 /\ trans_ok cfg_TESTMP7 (rx_trans cfg_TESTMP7) /\ verdict (NCALO cfg_TESTMP7) [rx_event 50; rx_event 60; rx_short; rx_event 70] = Ok 2.
Proof.
  destruct C58_hyp as (A & _ & B & C & _ & D & E & _). split; [exact A|]. split; [exact B|]. split; [exact C|]. split; [repeat constructor|]. split; [exact D|]. split; [exact E|]. vm_compute. reflexivity.
Qed.
Example C80_run : exists tests text, cx_run = Ok (2, tests, text) /\ skipn 12 (read_console text) =
  [(["Passed"; "test"], [1]); (["Passed"; "test"], [2]); (["ERROR:"; "Mismatching"; "number"; "of"; "input"; "regions:"], [11])] ++
  map (fun f => (["Saved"; "MP7"; "patterns"; "to"; f], [72])) ["mp7_output_track_nomux.txt."; "mp7_output_calo_nomux.txt."; "mp7_output_mu.txt."; "mp7_output_track.txt."; "mp7_output_calo.txt."; "mp7_output.txt.";
     "mp7_input_mu.txt."; "mp7_input_track.txt."; "mp7_input_calo.txt."; "mp7_input.txt."].
Proof.
  destruct C80_hyp as (A & B & C & D & E & F & G). pose proof (C80_console cfg_TESTMP7 true (fun _ _ _ => mkR 1 2 3 (4, true)) rx_work 0 (rx_st cfg_TESTMP7) (rx_trans cfg_TESTMP7) _ A B C D (fun _ => conj E F)) as H.
  change (firstn 50 [rx_event 50; rx_event 60; rx_short; rx_event 70]) with [rx_event 50; rx_event 60; rx_short; rx_event 70] in H. rewrite G in H. destruct H as (tests & text & _ & H & R). exists tests, text. split; [exact H|]. rewrite R. vm_compute. reflexivity.
Qed.
Lemma map_repeat' {S T} (f : S -> T) x n : map f (repeat x n) = repeat (f x) n.
Proof. induction n; cbn; congruence. Qed.
(** regions that differ everywhere *)
Example C80_hyp_comparison : let st := rx_st cfg_TESTMP7 in regions4_ok cfg_TESTMP7 (reference_regions st) /\ regions4_ok cfg_TESTMP7 (tested_regions st) /\
  dims2 12 15 (ri_calo (rs_ins st)) /\ Forall (Forall had_ok) (ri_calo (rs_ins st)) /\ length (all_mismatches (reference_regions st) (tested_regions st)) = 72%nat /\
  nth 5 (all_mismatches (reference_regions st) (tested_regions st)) ([], []) =
    (["Mismatch"; "at"; "regionized"; "emcalo"; "ref"; "vs"; "test,"; "hwPt"; "hwPtErr"; "hwEta"; "hwPhi"], [100; 8; 9; 5; 5; 8; 9; 8; 9]).
Proof.
  assert (G : forall T (P : T -> Prop) n m x, P x -> Forall (Forall P) (rx_junk n m x)) by (intros T P n m x H; apply Forall_forall; intros a Ha; apply repeat_spec in Ha; subst; apply Forall_forall; intros y Hy; apply repeat_spec in Hy; subst; exact H).
  assert (M : forall S T (f : S -> T) n m x, map (map f) (rx_junk n m x) = rx_junk n m (f x)) by (intros S T f n m x; unfold rx_junk; rewrite map_repeat', map_repeat'; reflexivity).
  cbv zeta. unfold regions4_ok, reference_regions, tested_regions, rx_st, rx_chan. cbn [rp_calo rp_em rp_tk rp_mu rs_calo rs_em rs_tk rs_mu ch_reg ch_regr rs_ins ri_calo]. rewrite !M.
  split; [|split; [|split; [apply rx_dims|split; [apply G; repeat split; cbn; lia|split; vm_compute; reflexivity]]]].
  - repeat match goal with |- _ /\ _ => split end; try apply rx_dims; apply G; repeat split; cbn; lia.
  - repeat match goal with |- _ /\ _ => split end; try apply rx_dims; apply G; repeat split; cbn; lia.
Qed.
