(** C58, C59, C60: the regionizer test program (regionizer/regionizer_test.cpp):
    its exit code, the text files and the pattern files it writes.  [st0]: the
    arrays before the first test and [junk], [work]: the uninitialised memory of
    the firmware in each test (any contents); [Ok true]: nextEvent's missing
    return statement yields true (C48). *)
From Coq Require Import Ascii String.
From Verif Require Import Base BaseFacts Data Discrete Convert DiscreteIO SpecIO SpecRegion Regionizer RegTest SpecRegTest RegTestRun RegFiles SpecRegFiles RegTestFinal.
Local Open Scope list_scope.
Local Open Scope Z_scope.

(** ** C58 *)
(** The exit code is the one [verdict] gives for the first 50 events, or the
    run is undefined when it says so; the tests made are those of the events
    before the first one without twelve sectors ([test_of]). *)
Theorem C58_exit_code_partial : forall c junk work g st0 evs, memory_ok c st0 -> (forall t, dims3 12 3 7 (work t)) -> Forall event_wf evs ->
  match verdict (NCALO c) (firstn 50 evs) with
  | UB k => reg_main c (Ok true) junk work g st0 (Some (dump evs)) = UB k
  | Ok code => exists tests, reg_main c (Ok true) junk work g st0 (Some (dump evs)) = Ok (code, tests) /\ Forall2 (test_of c) (leading (firstn 50 evs)) tests
  end.
Proof. exact c58_main. Qed.
Print Assumptions C58_exit_code_partial.
(** With room for seven clusters per region (as in the TESTMP7 configuration)
    it passes on every dump of twelve-sector events without negative cluster
    pt. *)
Theorem C58_passes_partial : forall c junk work g st0 evs, memory_ok c st0 -> (forall t, dims3 12 3 7 (work t)) -> Forall event_wf evs -> (7 <= NCALO c)%nat ->
  Forall (fun e => twelve e = true /\ negative_calo e = false) evs ->
  exists tests, reg_main c (Ok true) junk work g st0 (Some (dump evs)) = Ok (0, tests) /\ Forall2 (test_of c) (firstn 50 evs) tests.
Proof. exact c58_passes. Qed.
Print Assumptions C58_passes_partial.
(** The codes that announce a mismatch (1) and a stream not emptied (3) are
    never returned. *)
Theorem C58_never_fails_on_mismatch : forall c junk work g st0 evs code tests, memory_ok c st0 -> (forall t, dims3 12 3 7 (work t)) -> Forall event_wf evs ->
  reg_main c (Ok true) junk work g st0 (Some (dump evs)) = Ok (code, tests) -> code <> 1 /\ code <> 3.
Proof. exact c58_never13. Qed.
Print Assumptions C58_never_fails_on_mismatch.
(** In a configuration with room for fewer than seven clusters, such as the one
    the scripts select (-DMP7 without -DTESTMP7: the default of data.h), the
    first test reads outside an array. *)
Theorem C58_default_configuration_refuted : forall c junk work g st0 e evs, memory_ok c st0 -> (forall t, dims3 12 3 7 (work t)) -> Forall event_wf (e :: evs) ->
  (NCALO c < 7)%nat -> twelve e = true -> negative_calo e = false -> reg_main c (Ok true) junk work g st0 (Some (dump (e :: evs))) = UB OutOfBounds.
Proof. exact c58_small. Qed.
Print Assumptions C58_default_configuration_refuted.
(** What a standard compiler may make of the missing return statement. *)
Theorem C58_no_return_statement_refuted : forall c junk work g st0 e evs, event_wf e ->
  reg_main c (UB MissingReturn) junk work g st0 (Some (dump (e :: evs))) = UB MissingReturn.
Proof. exact c58_missing. Qed.
Print Assumptions C58_no_return_statement_refuted.

(** ** C59 *)
(** dump_out.txt lists the objects of every region of every test, twice. *)
Theorem C59_dump_out_content : forall c junk work g st0 evs code tests, memory_ok c st0 -> (forall t, dims3 12 3 7 (work t)) -> Forall event_wf evs ->
  reg_main c (Ok true) junk work g st0 (Some (dump evs)) = Ok (code, tests) -> exists text, dump_out_file c tests = Ok text /\ read_frames text = out_table tests.
Proof. exact c59_out_run. Qed.
Print Assumptions C59_dump_out_content.
(** dump_in.txt: see [in_table]. *)
Theorem C59_dump_in_content : forall c junk work g st0 evs code tests, memory_ok c st0 -> (forall t, dims3 12 3 7 (work t)) -> Forall event_wf evs ->
  reg_main c (Ok true) junk work g st0 (Some (dump evs)) = Ok (code, tests) -> exists text, dump_in_file c tests = Ok text /\ read_frames text = in_table c tests.
Proof. exact c59_in_run. Qed.
Print Assumptions C59_dump_in_content.
(** Two runs with the same dump_out.txt found the same regions. *)
Theorem C59_dump_out_determines_regions : forall c junk junk' work work' g g' st st' evs evs' code code' tests tests',
  memory_ok c st -> (forall t, dims3 12 3 7 (work t)) -> Forall event_wf evs -> reg_main c (Ok true) junk work g st (Some (dump evs)) = Ok (code, tests) ->
  memory_ok c st' -> (forall t, dims3 12 3 7 (work' t)) -> Forall event_wf evs' -> reg_main c (Ok true) junk' work' g' st' (Some (dump evs')) = Ok (code', tests') ->
  dump_out_file c tests = dump_out_file c tests' -> map regions_shown tests = map regions_shown tests'.
Proof. exact two_out. Qed.
Print Assumptions C59_dump_out_determines_regions.
(** Two runs have the same dump_in.txt exactly when they had the same clusters
    and muons and the same first ten tracks of every sector: the other ten
    tracks of a sector leave no trace. *)
Theorem C59_dump_in_shows_ten_tracks_partial : forall c junk junk' work work' g g' st st' evs evs' code code' tests tests',
  memory_ok c st -> (forall t, dims3 12 3 7 (work t)) -> Forall event_wf evs -> reg_main c (Ok true) junk work g st (Some (dump evs)) = Ok (code, tests) ->
  memory_ok c st' -> (forall t, dims3 12 3 7 (work' t)) -> Forall event_wf evs' -> reg_main c (Ok true) junk' work' g' st' (Some (dump evs')) = Ok (code', tests') ->
  (NMU c <= 18)%nat -> dump_in_file c tests = dump_in_file c tests' <-> map inputs_shown tests = map inputs_shown tests'.
Proof. exact two_in. Qed.
Print Assumptions C59_dump_in_shows_ten_tracks_partial.

(** ** C60 *)
(** The pattern files hold the words of every clock of every test. *)
Theorem C60_pattern_files : forall c junk work g st0 evs code tests old, memory_ok c st0 -> (forall t, dims3 12 3 7 (work t)) -> Forall event_wf evs -> trans_ok c old -> out_fits c ->
  reg_main c (Ok true) junk work g st0 (Some (dump evs)) = Ok (code, tests) ->
  reg_mp7_files c tests old = Ok (mux_files (in_stream c tests), mux_files (out_stream tests), nomux_files (out_stream tests)).
Proof. exact c60_run. Qed.
Print Assumptions C60_pattern_files.
(** They determine all the inputs and all the regions (also the qualities and
    the tracks that the text files omit). *)
Theorem C60_pattern_files_determine_objects : forall c junk junk' work work' g g' st st' evs evs' code code' tests tests',
  memory_ok c st -> (forall t, dims3 12 3 7 (work t)) -> Forall event_wf evs -> reg_main c (Ok true) junk work g st (Some (dump evs)) = Ok (code, tests) ->
  memory_ok c st' -> (forall t, dims3 12 3 7 (work' t)) -> Forall event_wf evs' -> reg_main c (Ok true) junk' work' g' st' (Some (dump evs')) = Ok (code', tests') ->
  forall old old', trans_ok c old -> trans_ok c old' -> out_fits c -> (NMU c <= 18)%nat -> reg_mp7_files c tests old = reg_mp7_files c tests' old' ->
  map input_objects tests = map input_objects tests' /\ map region_objects tests = map region_objects tests'.
Proof. exact two_mp7. Qed.
Print Assumptions C60_pattern_files_determine_objects.

(** ** Concrete cases *)
Definition rx_tk (pt eta phi : Z) : PTk := mkPTk (mkITk 1 2 3 true 7 100 6 0) pt 1 10 eta phi false false false.
Definition rx_clu (pt eta phi : Z) : Clu := mkClu pt 10 3 eta phi 0 true false.
(** eleven tracks per sector; [n] is the pt of the last *)
Definition rx_region (n : Z) : Region := mkRegion 0 3212836864 1065353216 0 1077936128 0 0 [rx_clu 300 50 50; rx_clu 200 (-20) 3] [rx_clu 400 100 0] (repeat (rx_tk 100 20 1) 10 ++ [rx_tk n 30 2]) [mkDMu 160 (-105) (-10) 0 true].
Definition rx_event (n : Z) : event := mkEv 1 2 3 1084227584 0 0 0 0 0 (repeat (rx_region n) 12).
Definition rx_short : event := mkEv 1 2 3 1084227584 0 0 0 0 0 (repeat (rx_region 5) 11).
Definition rx_junk {T} (n m : nat) (x : T) : list (list T) := repeat (repeat x m) n.
Definition rx_chan {A} (d : A) (nsec slots n : nat) : chan A := mkChan [] [] (rx_junk 18 n (mkR 9 9 9 d)) (rx_junk 18 n (mkR 8 8 8 d)) (repeat (rx_junk 3 slots (mkR 7 7 7 d)) nsec).
Definition rx_st (c : config) : rstate :=
  mkRs (mkRins (rx_junk 12 15 (mkHad 1 1 1 1 true)) (rx_junk 12 12 (mkEm 1 1 1 1)) (rx_junk 12 20 (mkTk 1 1 1 1 1 true)) (rx_junk 12 (NMU c) (mkMu 1 1 1 1)) (rx_junk 4 (NMU c) (mkMu 1 1 1 1)))
    (rx_chan had_d 12 7 (NCALO c)) (rx_chan 5 12 7 (NEMCALO c)) (rx_chan tk_d 12 9 (NTRACK c)) (rx_chan 5 4 (NMU c) (NMU c)) [].
Definition rx_work (t : nat) : list (list (list (robj (Z * bool)))) := repeat (rx_junk 3 7 (mkR 3 3 3 had_d)) 12.
Definition rx_main (c : config) (evs : list event) : res (Z * list rtest) := reg_main c (Ok true) (fun _ _ _ => mkR 1 2 3 (4, true)) rx_work 0 (rx_st c) (Some (dump evs)).
Definition rx_code (r : res (Z * list rtest)) : option (Z * nat) := match r with Ok (code, tests) => Some (code, length tests) | UB _ => None end.
Lemma rx_dims {T} n m (x : T) : dims2 n m (rx_junk n m x).
Proof. split; [apply repeat_length|]. intros row H. apply repeat_spec in H. subst. apply repeat_length. Qed.
Lemma rx_dims3 {T} n m k (x : T) : dims3 n m k (repeat (rx_junk m k x) n).
Proof. split; [apply repeat_length|]. intros p H. apply repeat_spec in H. subst. apply rx_dims. Qed.
Lemma rx_mem c : memory_ok c (rx_st c).
Proof. unfold memory_ok, ins_ok, chan_ok, rx_st, rx_chan. cbn [rs_ins rs_calo rs_em rs_tk rs_mu ri_calo ri_em ri_tk ri_mu12 ri_mu ch_reg ch_regr ch_static]. repeat match goal with |- _ /\ _ => split end; first [apply rx_dims|apply rx_dims3]. Qed.
Definition rx_trans (c : config) : rtrans := mkTrans (rx_junk 15 12 had0) (rx_junk 12 12 em0) (rx_junk 10 24 tk0) (rx_junk (NMU c) 4 mu0).
Lemma rx_wf n : inS 16 n -> event_wf (rx_event n) /\ event_wf rx_short.
Proof.
  intros Hn. assert (RW : forall n, inS 16 n -> region_wf (rx_region n)).
  { clear. intros n Hn. unfold inS in Hn. change (2 ^ (16 - 1)) with 32768 in Hn.
    split; [repeat constructor; cbn [rx_region rg_etac rg_etamin rg_etamax rg_phic rg_phihw rg_etax rg_phix]; lia|].
    repeat split; cbn [rx_region rg_calo rg_emcalo rg_track rg_muon repeat app]; repeat (apply Forall_cons; [repeat split; discriminate || reflexivity || (cbn; lia)|]); try constructor; unfold fits; cbn; lia. }
  assert (W : forall m k, (m <= 12)%nat -> inS 16 k -> event_wf (mkEv 1 2 3 1084227584 0 0 0 0 0 (repeat (rx_region k) m))).
  { intros m k Hm Hk. split; [unfold inU; cbn; lia|]. split; [unfold inU; cbn; lia|]. split; [unfold inU; cbn; lia|]. split; [repeat constructor; cbn; lia|].
    split; [apply Forall_forall; intros r Hr; apply repeat_spec in Hr; subst; apply RW; exact Hk|unfold fits; cbn [ev_regions]; rewrite repeat_length; cbn; lia]. }
  split; apply W; (lia || exact Hn || (unfold inS; lia)).
Qed.
(** the hypotheses of the theorems above are met; three ends of a run *)
Example C58_hyp : memory_ok cfg_TESTMP7 (rx_st cfg_TESTMP7) /\ memory_ok cfg_default (rx_st cfg_default) /\ (forall t, dims3 12 3 7 (rx_work t)) /\ Forall event_wf [rx_event 50; rx_event 60; rx_short; rx_event 70] /\
  Forall (fun e => twelve e = true /\ negative_calo e = false) [rx_event 50; rx_event 60] /\ out_fits cfg_TESTMP7 /\ trans_ok cfg_TESTMP7 (rx_trans cfg_TESTMP7) /\
  rx_code (rx_main cfg_TESTMP7 [rx_event 50; rx_event 60]) = Some (0, 2%nat) /\ rx_code (rx_main cfg_TESTMP7 [rx_event 50; rx_event 60; rx_short; rx_event 70]) = Some (2, 2%nat) /\
  rx_main cfg_default [rx_event 50] = UB OutOfBounds.
Proof.
  split; [apply rx_mem|]. split; [apply rx_mem|]. split; [intros t; apply rx_dims3|]. split; [repeat (apply Forall_cons; [first [apply (rx_wf 5); unfold inS; lia|apply rx_wf; unfold inS; lia]|]); constructor|].
  split; [repeat constructor|]. split; [unfold out_fits; cbn; lia|]. split; [unfold trans_ok, rx_trans; cbn [tr_calo tr_em tr_tk tr_mu]; repeat match goal with |- _ /\ _ => split end; apply rx_dims|].
  split; [vm_compute; reflexivity|]. split; vm_compute; reflexivity.
Qed.
Lemma rx_work_ok t : dims3 12 3 7 (rx_work t).
Proof. apply rx_dims3. Qed.
Definition rx_view (r : res (Z * list rtest)) : option (Z * list Z) := match r with Ok (code, tests) => Some (code, map (fun t => t_pt (nth 10 (nth 0 (ri_tk (rt_ins t)) []) tk0)) tests) | UB _ => None end.
Definition rx_inputs (r : res (Z * list rtest)) := match r with Ok (_, tests) => map inputs_shown tests | UB _ => [] end.
Lemma rx_same c evs evs' code code' t t' : (NMU c <= 18)%nat -> Forall event_wf evs -> Forall event_wf evs' -> rx_main c evs = Ok (code, t) -> rx_main c evs' = Ok (code', t') ->
  rx_inputs (rx_main c evs) = rx_inputs (rx_main c evs') -> exists text, dump_in_file c t = Ok text /\ dump_in_file c t' = Ok text.
Proof.
  intros HN W1 W2 E1 E2 A. rewrite E1, E2 in A. cbn [rx_inputs] in A. unfold rx_main in E1, E2. destruct (C59_dump_in_content c _ rx_work 0 (rx_st c) _ _ _ (rx_mem _) rx_work_ok W1 E1) as (text & T & _). exists text. split; [exact T|].
  pose proof (C59_dump_in_shows_ten_tracks_partial c _ _ rx_work rx_work 0 0 (rx_st c) (rx_st c) _ _ _ _ _ _ (rx_mem _) rx_work_ok W1 E1 (rx_mem _) rx_work_ok W2 E2 HN) as [_ B]. rewrite <- T. symmetry. apply B. exact A.
Qed.
Lemma rx_viewed r code l : rx_view r = Some (code, l) -> exists tests, r = Ok (code, tests) /\ map (fun t => t_pt (nth 10 (nth 0 (ri_tk (rt_ins t)) []) tk0)) tests = l.
Proof. destruct r as [[c t]|k]; [|discriminate]. intros [= -> <-]. eauto. Qed.
(** C59: two dumps that differ in the eleventh track of a sector give the same
    dump_in.txt. *)
Theorem C59_dump_in_omits_tracks_refuted : exists tests tests' text, rx_main cfg_TESTMP7 [rx_event 50] = Ok (0, tests) /\ rx_main cfg_TESTMP7 [rx_event 60] = Ok (0, tests') /\
  dump_in_file cfg_TESTMP7 tests = Ok text /\ dump_in_file cfg_TESTMP7 tests' = Ok text /\
  map (fun t => t_pt (nth 10 (nth 0 (ri_tk (rt_ins t)) []) tk0)) tests = [50] /\ map (fun t => t_pt (nth 10 (nth 0 (ri_tk (rt_ins t)) []) tk0)) tests' = [60].
Proof.
  assert (A1 : rx_view (rx_main cfg_TESTMP7 [rx_event 50]) = Some (0, [50])) by (vm_compute; reflexivity). assert (A2 : rx_view (rx_main cfg_TESTMP7 [rx_event 60]) = Some (0, [60])) by (vm_compute; reflexivity).
  assert (A3 : rx_inputs (rx_main cfg_TESTMP7 [rx_event 50]) = rx_inputs (rx_main cfg_TESTMP7 [rx_event 60])) by (vm_compute; reflexivity).
  destruct (rx_viewed _ _ _ A1) as (t & E1 & V1). destruct (rx_viewed _ _ _ A2) as (t' & E2 & V2).
  assert (W : forall n, inS 16 n -> Forall event_wf [rx_event n]) by (intros n Hn; apply Forall_cons; [apply (rx_wf n Hn)|constructor]).
  destruct (rx_same cfg_TESTMP7 [rx_event 50] [rx_event 60] 0 0 t t' ltac:(cbn; lia) (W 50 ltac:(unfold inS; lia)) (W 60 ltac:(unfold inS; lia)) E1 E2 A3) as (text & T1 & T2).
  exists t, t', text. do 5 (split; [assumption|]). assumption.
Qed.
Print Assumptions C59_dump_in_omits_tracks_refuted.
