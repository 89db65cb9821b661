(** C61, C62: the test program of the histogramming vertex finder
    (vertexing/bram_hist_vtx_test.cpp): its exit code, its error count and the
    files it writes.  [arr], [tmp], [old]: uninitialised arrays (any contents);
    [Ok true]: nextEvent's missing return statement yields true (C48). *)
From Coq Require Import Ascii String.
From Verif Require Import Base BaseFacts Data Discrete Convert DiscreteIO SpecIO SpecTest SpecRegion SpecRegTest SpecRegFiles Bhv SpecBhv BhvTest SpecBhvTest BhvTestProofs BhvFileProofs.
Local Open Scope list_scope.
Local Open Scope Z_scope.

(** ** C61 *)
(** No run on a dump is undefined, whatever the pt of the tracks; the program
    tests the events before the first one without twelve sectors, at most 250;
    each test is a faithful record ([btest_of]); the errors counted are the tests
    in which firmware and reference disagree; the exit code says only whether
    some event had not twelve sectors. *)
Theorem C61_run : forall g arr tmp evs, dims2 24 18 arr -> length tmp = 36%nat -> Forall event_wf evs -> exists tests,
  bhv_main (Ok true) g arr tmp (Some (dump evs)) = Ok (if forallb twelve (firstn 250 evs) then 0 else 2, disagreements tests, tests) /\
  Forall2 btest_of (leading (firstn 250 evs)) tests.
Proof. exact c61_run. Qed.
Print Assumptions C61_run.
(** Without negative track pt it counts no error, and every vertex is the right
    one. *)
Theorem C61_no_errors_partial : forall g arr tmp evs, dims2 24 18 arr -> length tmp = 36%nat -> Forall event_wf evs -> Forall no_negative_track evs -> exists code tests,
  bhv_main (Ok true) g arr tmp (Some (dump evs)) = Ok (code, 0, tests) /\ Forall right_vertex tests.
Proof. exact c61_right. Qed.
Print Assumptions C61_no_errors_partial.
(** What a standard compiler may make of the missing return statement. *)
Theorem C61_no_return_statement_refuted : forall g arr tmp e evs, event_wf e -> bhv_main (UB MissingReturn) g arr tmp (Some (dump (e :: evs))) = UB MissingReturn.
Proof. exact c61_missing. Qed.
Print Assumptions C61_no_return_statement_refuted.

(** ** C62 *)
(** bhv_dump_in.txt and bhv_dump_out.txt: see [bhv_in_table], [bhv_out_table]. *)
Theorem C62_text_files : forall g arr tmp evs code nerr tests, dims2 24 18 arr -> length tmp = 36%nat -> Forall event_wf evs ->
  bhv_main (Ok true) g arr tmp (Some (dump evs)) = Ok (code, nerr, tests) ->
  (exists text, bhv_in_file tests = Ok text /\ read_frames text = bhv_in_table tests) /\ (exists text, bhv_out_file tests = Ok text /\ read_frames text = bhv_out_table tests).
Proof. exact c62_texts. Qed.
Print Assumptions C62_text_files.
(** The four pattern files: see [bhv_files]. *)
Theorem C62_pattern_files : forall g arr tmp old evs code nerr tests, dims2 24 18 arr -> length tmp = 36%nat -> dims2 18 24 old -> Forall event_wf evs ->
  bhv_main (Ok true) g arr tmp (Some (dump evs)) = Ok (code, nerr, tests) -> bhv_mp7_files tests old = Ok (bhv_files tests).
Proof. exact c62_patterns. Qed.
Print Assumptions C62_pattern_files.
(** Runs with the same pattern files made the same tests: same tracks,
    histograms and vertices. *)
Theorem C62_pattern_files_determine_tests : forall g g' arr arr' tmp tmp' old old' evs evs' code code' nerr nerr' tests tests',
  dims2 24 18 arr -> length tmp = 36%nat -> dims2 18 24 old -> Forall event_wf evs -> bhv_main (Ok true) g arr tmp (Some (dump evs)) = Ok (code, nerr, tests) ->
  dims2 24 18 arr' -> length tmp' = 36%nat -> dims2 18 24 old' -> Forall event_wf evs' -> bhv_main (Ok true) g' arr' tmp' (Some (dump evs')) = Ok (code', nerr', tests') ->
  bhv_mp7_files tests old = bhv_mp7_files tests' old' -> tests = tests'.
Proof. exact c62_two. Qed.
Print Assumptions C62_pattern_files_determine_tests.

(** ** Concrete cases *)
Definition bx_tk (pt z0 : Z) : PTk := mkPTk (mkITk 1 2 3 true z0 100 6 0) pt 1 10 20 1 false false false.
(** two tracks dealt to the same row, a third to the other; [pt] is the pt of the last *)
Definition bx_region (pt : Z) : Region := mkRegion 0 3212836864 1065353216 0 1077936128 0 0 [] [] [bx_tk 200 0; bx_tk 30 100; bx_tk pt 100] [].
Definition bx_event (n : nat) (pt : Z) : event := mkEv 1 2 3 1084227584 0 0 0 0 0 (repeat (bx_region pt) n).
Definition bx_row : list Tk := repeat (mkTk 9 9 9 9 9 true) 18.
Definition bx_arr : list (list Tk) := repeat bx_row 24.
Definition bx_main (evs : list event) : res (Z * Z * list btest) := bhv_main (Ok true) 0 bx_arr (bx_row ++ bx_row) (Some (dump evs)).
Definition bx_view (r : res (Z * Z * list btest)) : option (Z * Z * list (Z * Z * Z * (Z * Z * Z))) := match r with Ok (code, nerr, tests) => Some (code, nerr, map (fun t => (bt_hw t, bt_ref t)) tests) | UB _ => None end.
Lemma bx_dims {T} n m (x : T) : dims2 n m (repeat (repeat x m) n).
Proof. split; [apply repeat_length|]. intros row H. apply repeat_spec in H. subst. apply repeat_length. Qed.
Lemma bx_wf n pt : (n <= 12)%nat -> inS 16 pt -> event_wf (bx_event n pt).
Proof.
  intros Hm Hk. assert (RW : region_wf (bx_region pt)).
  { unfold inS in Hk. change (2 ^ (16 - 1)) with 32768 in Hk. split; [repeat constructor; cbn [bx_region rg_etac rg_etamin rg_etamax rg_phic rg_phihw rg_etax rg_phix]; lia|].
    repeat split; cbn [bx_region rg_calo rg_emcalo rg_track rg_muon]; repeat (apply Forall_cons; [repeat split; discriminate || reflexivity || (cbn; lia)|]); try constructor; unfold fits; cbn; lia. }
  split; [unfold inU; cbn; lia|]. split; [unfold inU; cbn; lia|]. split; [unfold inU; cbn; lia|]. split; [repeat constructor; cbn; lia|].
  split; [apply Forall_forall; intros r Hr; apply repeat_spec in Hr; subst; exact RW|unfold fits; cbn [ev_regions bx_event]; rewrite repeat_length; cbn; lia].
Qed.
(** the hypotheses are met; a run that ends early *)
Example C61_hyp : dims2 24 18 bx_arr /\ length (bx_row ++ bx_row) = 36%nat /\ Forall event_wf [bx_event 12 50; bx_event 11 50; bx_event 12 60] /\ Forall no_negative_track [bx_event 12 50; bx_event 11 50; bx_event 12 60] /\
  bx_view (bx_main [bx_event 12 50; bx_event 11 50; bx_event 12 60]) = Some (2, 0, [(36, 1200, 4, (36, 1200, 4))]).
Proof.
  split; [apply bx_dims|]. split; [reflexivity|]. split; [repeat (apply Forall_cons; [apply bx_wf; [lia|unfold inS; lia]|]); constructor|].
  split; [|vm_compute; reflexivity].
  assert (N : forall n pt, 0 <= pt -> no_negative_track (bx_event n pt)) by (intros n pt H; unfold no_negative_track; apply Forall_forall; intros r Hr; apply repeat_spec in Hr; subst; repeat constructor; cbn; lia).
  do 3 (apply Forall_cons; [apply N; lia|]). constructor.
Qed.
Lemma bx_viewed r code nerr l : bx_view r = Some (code, nerr, l) -> exists tests, r = Ok (code, nerr, tests) /\ map (fun t => (bt_hw t, bt_ref t)) tests = l.
Proof. destruct r as [[[c e] t]|k]; [|discriminate]. intros [= -> -> <-]. eauto. Qed.
(** C61: the program counts two errors and exits with 0. *)
Theorem C61_exit_code_hides_errors_refuted : exists tests, Forall event_wf [bx_event 12 (-2); bx_event 12 50; bx_event 12 (-2)] /\
  bx_main [bx_event 12 (-2); bx_event 12 50; bx_event 12 (-2)] = Ok (0, 2, tests) /\ map agrees tests = [false; true; false].
Proof.
  assert (V : exists l, bx_view (bx_main [bx_event 12 (-2); bx_event 12 50; bx_event 12 (-2)]) = Some (0, 2, l) /\ map (fun '(h, r) => let '(b, s, z) := h in let '(b', s', z') := r in (b =? b') && (s =? s') && (z =? z')) l = [false; true; false]) by (eexists; split; vm_compute; reflexivity).
  destruct V as (l & V & A). destruct (bx_viewed _ _ _ _ V) as (tests & E & M). exists tests. split; [repeat (apply Forall_cons; [apply bx_wf; [lia|unfold inS; lia]|]); constructor|]. split; [exact E|].
  rewrite <- M, map_map in A. rewrite <- A. apply map_ext. intros t. unfold agrees. destruct (bt_hw t) as [[? ?] ?], (bt_ref t) as [[? ?] ?]. reflexivity.
Qed.
Print Assumptions C61_exit_code_hides_errors_refuted.
