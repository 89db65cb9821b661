(** The regionizer test program from the dump to the files. *)
From Coq Require Import Ascii String.
From Verif Require Import Base BaseFacts Data Discrete Convert DiscreteIO SpecIO EventLoop EventLoopFacts Regionizer SpecRegion RegTest SpecRegTest RegTestRun RegTestOk RegFiles SpecRegFiles RegFilesProofs RegFilesInj RegPackProofs.

Lemma leading_twelve evs : Forall (fun e => twelve e = true) (leading evs).
Proof. induction evs as [|e evs IH]; cbn [leading]; [constructor|]. destruct (twelve e) eqn:E; constructor; assumption. Qed.
Lemma leading_len evs : (length (leading evs) <= length evs)%nat.
Proof. induction evs as [|e evs IH]; cbn [leading length]; [lia|]. destruct (twelve e); cbn [length]; lia. Qed.
Lemma tests_facts c evs tests : Forall2 (test_of c) (leading (firstn 50 evs)) tests -> Forall (test_sized c) tests /\ Forall test_ok tests /\ (length tests <= 50)%nat.
Proof.
  intros H. pose proof (leading_twelve (firstn 50 evs)) as T. pose proof (leading_len (firstn 50 evs)) as L. pose proof (firstn_le_length 50 evs) as L2. assert (L3 : length (leading (firstn 50 evs)) = length tests) by (clear -H; induction H; cbn [length]; congruence).
  split; [|split; [|lia]]; clear L L2 L3; induction H; try constructor; inversion_clear T; eauto using test_of_sized, test_of_ok.
Qed.
Lemma run_facts c junk work g st0 evs code tests : memory_ok c st0 -> (forall t, dims3 12 3 7 (work t)) -> Forall event_wf evs ->
  reg_main c (Ok true) junk work g st0 (Some (dump evs)) = Ok (code, tests) -> Forall2 (test_of c) (leading (firstn 50 evs)) tests /\ (code = 0 \/ code = 2).
Proof.
  intros HM HW HE R. pose proof (c58_main c junk work g st0 evs HM HW HE) as G. destruct (verdict (NCALO c) (firstn 50 evs)) as [x|k] eqn:V; [|rewrite R in G; discriminate G].
  destruct G as (tests' & E & F). rewrite R in E. injection E as -> ->. split; [exact F|apply (verdict_codes _ _ _ V)].
Qed.
Lemma few50 tests : (length tests <= 50)%nat -> few_tests tests.
Proof. unfold few_tests. lia. Qed.

Lemma c58_never13 c junk work g st0 evs code tests : memory_ok c st0 -> (forall t, dims3 12 3 7 (work t)) -> Forall event_wf evs ->
  reg_main c (Ok true) junk work g st0 (Some (dump evs)) = Ok (code, tests) -> code <> 1 /\ code <> 3.
Proof. intros HM HW HE R. destruct (run_facts _ _ _ _ _ _ _ _ HM HW HE R) as [_ [->| ->]]; split; discriminate. Qed.
Lemma c58_passes c junk work g st0 evs : memory_ok c st0 -> (forall t, dims3 12 3 7 (work t)) -> Forall event_wf evs -> (7 <= NCALO c)%nat ->
  Forall (fun e => twelve e = true /\ negative_calo e = false) evs ->
  exists tests, reg_main c (Ok true) junk work g st0 (Some (dump evs)) = Ok (0, tests) /\ Forall2 (test_of c) (firstn 50 evs) tests.
Proof.
  intros HM HW HE HN HA. pose proof (c58_main c junk work g st0 evs HM HW HE) as G.
  assert (HA' : Forall (fun e => twelve e = true /\ negative_calo e = false) (firstn 50 evs)) by (rewrite <- (firstn_skipn 50 evs) in HA; apply Forall_app in HA; tauto).
  destruct (verdict_pass (NCALO c) (firstn 50 evs) HN HA') as [E1 E2]. rewrite E1, E2 in G. exact G.
Qed.
Lemma c58_small c junk work g st0 e evs : memory_ok c st0 -> (forall t, dims3 12 3 7 (work t)) -> Forall event_wf (e :: evs) -> (NCALO c < 7)%nat ->
  twelve e = true -> negative_calo e = false -> reg_main c (Ok true) junk work g st0 (Some (dump (e :: evs))) = UB OutOfBounds.
Proof.
  intros HM HW HE HN H1 H2. pose proof (c58_main c junk work g st0 (e :: evs) HM HW HE) as G. change (firstn 50 (e :: evs)) with (e :: firstn 49 evs) in G. cbn [verdict] in G.
  rewrite H1, H2 in G. cbn [negb] in G. destruct (Nat.ltb_spec (NCALO c) 7); [exact G|lia].
Qed.
Lemma c58_missing c junk work g st0 e evs : event_wf e -> reg_main c (UB MissingReturn) junk work g st0 (Some (dump (e :: evs))) = UB MissingReturn.
Proof. intros HE. unfold reg_main. rewrite open_file. cbn [bind]. change REG_NTEST with (S 49). rewrite (event_loop_missing _ e evs) by (exact HE || reflexivity). reflexivity. Qed.

Lemma c59_out_run c junk work g st0 evs code tests : memory_ok c st0 -> (forall t, dims3 12 3 7 (work t)) -> Forall event_wf evs ->
  reg_main c (Ok true) junk work g st0 (Some (dump evs)) = Ok (code, tests) -> exists text, dump_out_file c tests = Ok text /\ read_frames text = out_table tests.
Proof. intros HM HW HE R. destruct (run_facts _ _ _ _ _ _ _ _ HM HW HE R) as [F _]. destruct (tests_facts _ _ _ F) as (S & K & L). apply c59_out; [apply few50; exact L|assumption..]. Qed.
Lemma c59_in_run c junk work g st0 evs code tests : memory_ok c st0 -> (forall t, dims3 12 3 7 (work t)) -> Forall event_wf evs ->
  reg_main c (Ok true) junk work g st0 (Some (dump evs)) = Ok (code, tests) -> exists text, dump_in_file c tests = Ok text /\ read_frames text = in_table c tests.
Proof. intros HM HW HE R. destruct (run_facts _ _ _ _ _ _ _ _ HM HW HE R) as [F _]. destruct (tests_facts _ _ _ F) as (S & K & L). apply c59_in; [apply few50; exact L|assumption..]. Qed.
Lemma c60_run c junk work g st0 evs code tests old : memory_ok c st0 -> (forall t, dims3 12 3 7 (work t)) -> Forall event_wf evs -> trans_ok c old -> out_fits c ->
  reg_main c (Ok true) junk work g st0 (Some (dump evs)) = Ok (code, tests) ->
  reg_mp7_files c tests old = Ok (mux_files (in_stream c tests), mux_files (out_stream tests), nomux_files (out_stream tests)).
Proof. intros HM HW HE HO HF R. destruct (run_facts _ _ _ _ _ _ _ _ HM HW HE R) as [F _]. destruct (tests_facts _ _ _ F) as (S & K & L). apply c60_files; assumption. Qed.
Lemma cons_eq {A} (x y : A) l m : x :: l = y :: m -> x = y /\ l = m.
Proof. intros [= -> ->]. auto. Qed.
Lemma three_eq {A B C} (a a' : A) (b b' : B) (d d' : C) : Ok (a, b, d) = Ok (a', b', d') -> a = a' /\ b = b'.
Proof. intros [= -> -> _]. auto. Qed.
Section two.
Context (c : config) (junk junk' : nat -> nat -> nat -> robj (Z * bool)) (work work' : nat -> list (list (list (robj (Z * bool))))) (g g' : Z) (st st' : rstate) (evs evs' : list event) (code code' : Z) (tests tests' : list rtest).
Hypothesis (HM : memory_ok c st) (HW : forall t, dims3 12 3 7 (work t)) (HE : Forall event_wf evs) (R : reg_main c (Ok true) junk work g st (Some (dump evs)) = Ok (code, tests)).
Hypothesis (HM' : memory_ok c st') (HW' : forall t, dims3 12 3 7 (work' t)) (HE' : Forall event_wf evs') (R' : reg_main c (Ok true) junk' work' g' st' (Some (dump evs')) = Ok (code', tests')).
Lemma two_out : dump_out_file c tests = dump_out_file c tests' -> map regions_shown tests = map regions_shown tests'.
Proof.
  destruct (run_facts _ _ _ _ _ _ _ _ HM HW HE R) as [F _]. destruct (tests_facts _ _ _ F) as (S & K & L). destruct (run_facts _ _ _ _ _ _ _ _ HM' HW' HE' R') as [F' _]. destruct (tests_facts _ _ _ F') as (S' & K' & L').
  apply c59_out_determines; auto using few50.
Qed.
Lemma two_in : (NMU c <= 18)%nat -> dump_in_file c tests = dump_in_file c tests' <-> map inputs_shown tests = map inputs_shown tests'.
Proof.
  intros HN. destruct (run_facts _ _ _ _ _ _ _ _ HM HW HE R) as [F _]. destruct (tests_facts _ _ _ F) as (S & K & L). destruct (run_facts _ _ _ _ _ _ _ _ HM' HW' HE' R') as [F' _]. destruct (tests_facts _ _ _ F') as (S' & K' & L').
  split; [apply c59_in_determines; auto using few50|]. intros E. apply c59_in_blind. clear -S S' E. revert tests' S' E. induction S as [|t l Ht S IH]; intros [|t' l'] S' E; try discriminate; constructor; inversion_clear S'; cbn [map] in E; apply cons_eq in E as [E1 E2].
  - split; [exact Ht|]. split; assumption.
  - apply IH; assumption.
Qed.
Lemma two_mp7 old old' : trans_ok c old -> trans_ok c old' -> out_fits c -> (NMU c <= 18)%nat -> reg_mp7_files c tests old = reg_mp7_files c tests' old' ->
  map input_objects tests = map input_objects tests' /\ map region_objects tests = map region_objects tests'.
Proof.
  intros O O' HF HN E. rewrite (c60_run _ _ _ _ _ _ _ _ _ HM HW HE O HF R), (c60_run _ _ _ _ _ _ _ _ _ HM' HW' HE' O' HF R') in E. apply three_eq in E as [E1 E2].
  destruct (run_facts _ _ _ _ _ _ _ _ HM HW HE R) as [F _]. destruct (tests_facts _ _ _ F) as (S & K & L). destruct (run_facts _ _ _ _ _ _ _ _ HM' HW' HE' R') as [F' _]. destruct (tests_facts _ _ _ F') as (S' & K' & L').
  split; [apply (c60_in_determines c); auto; rewrite E1; reflexivity|apply (c60_out_determines c); auto; rewrite E2; reflexivity].
Qed.
End two.
