(** C93: the pattern files of the vertex-finder and regionizer tests replay. *)
From Coq Require Import Ascii String.
From Verif Require Import Base BaseFacts Data PFHw Encoding Serializer SpecSer SerProofs SerText SerTextFacts Discrete Convert DiscreteIO SpecIO Regionizer SpecRegion RegTest RegFiles SpecRegTest SpecRegFiles
  Bhv SpecBhv BhvTest SpecBhvTest SpecRegMove SpecReplay SpecReplay2 Replay2Proofs Props_RegTest Props_BhvTest.
Local Open Scope string_scope.
Local Open Scope list_scope.
Local Open Scope Z_scope.

(** The four files that the test of the vertex finder writes, read back
    character by character, contain for every test the tracks it was given,
    and the firmware's vertex, sum and histograms for these tracks. *)
Theorem C93_vertex_files_replay : forall board g arr tmp old evs code nerr tests, dims2 24 18 arr -> length tmp = 36%nat -> dims2 18 24 old -> Forall event_wf evs ->
  bhv_main (Ok true) g arr tmp (Some (dump evs)) = Ok (code, nerr, tests) -> ~ In newline (chars board) ->
  exists f1 f2 f3 f4 l1 l2 l3 l4, bhv_mp7_files tests old = Ok (f1, f2, f3, f4) /\
    mp7_read (mp7_text board (links 2 0) f1) = Some l1 /\ mp7_read (mp7_text board (links 1 0) f2) = Some l2 /\
    mp7_read (mp7_text board (links 1 3) f3) = Some l3 /\ mp7_read (mp7_text board (links 1 0) f4) = Some l4 /\
    map (@List.length _) [l1; l2; l3; l4] = [36 * List.length tests; 36 * List.length tests; 36 * List.length tests; 36 * List.length tests]%nat /\
    forall i, (i < List.length tests)%nat -> vertex_replays l1 l2 l3 l4 i.
Proof. exact c93_vertex. Qed.
Print Assumptions C93_vertex_files_replay.
(** Likewise the files with all objects that the test of the regionizers
    writes: the regionizers turn the input file into the output file. *)
Theorem C93_regionizer_files_replay : forall board c junk work g st0 evs code tests old, memory_ok c st0 -> (forall t, dims3 12 3 7 (work t)) -> Forall event_wf evs -> trans_ok c old -> out_fits c -> (NMU c <= 18)%nat ->
  reg_main c (Ok true) junk work g st0 (Some (dump evs)) = Ok (code, tests) -> ~ In newline (chars board) ->
  exists fin fout ins outs both lin lout, reg_mp7_files c tests old = Ok (fin :: ins, fout :: outs, both) /\
    mp7_read (mp7_text board (links 2 0) fin) = Some lin /\ mp7_read (mp7_text board (links 2 0) fout) = Some lout /\
    map (@List.length _) [lin; lout] = [36 * List.length tests; 36 * List.length tests]%nat /\
    forall i, (i < List.length tests)%nat -> regions_replay c lin lout i.
Proof. exact c93_regions. Qed.
Print Assumptions C93_regionizer_files_replay.

(** Both programs run to completion on dumps with full events. *)
Example C93_hyp : dims2 24 18 bx_arr /\ List.length (bx_row ++ bx_row) = 36%nat /\ dims2 18 24 (repeat (repeat tk0 24) 18) /\ Forall event_wf [bx_event 12 50; bx_event 12 60] /\ (exists tests, bx_main [bx_event 12 50; bx_event 12 60] = Ok (0, 0, tests) /\ List.length tests = 2%nat) /\
  ~ In newline (chars "MP7_L1PF") /\
  memory_ok cfg_TESTMP7 (rx_st cfg_TESTMP7) /\ (forall t, dims3 12 3 7 (rx_work t)) /\ Forall event_wf [rx_event 50; rx_event 60] /\ trans_ok cfg_TESTMP7 (rx_trans cfg_TESTMP7) /\ out_fits cfg_TESTMP7 /\ (NMU cfg_TESTMP7 <= 18)%nat /\
  (exists tests, rx_main cfg_TESTMP7 [rx_event 50; rx_event 60] = Ok (0, tests) /\ List.length tests = 2%nat).
Proof.
  split; [apply bx_dims|]. split; [reflexivity|]. split; [apply bx_dims|]. split; [repeat (apply Forall_cons; [apply bx_wf; [lia|unfold inS; lia]|]); constructor|].
  split. { assert (V : exists l, bx_view (bx_main [bx_event 12 50; bx_event 12 60]) = Some (0, 0, l) /\ List.length l = 2%nat) by (eexists; split; vm_compute; reflexivity).
    destruct V as (l & V & L). destruct (bx_viewed _ _ _ _ V) as (tests & E & M). exists tests. split; [exact E|]. rewrite <- L, <- M. symmetry. apply map_length. }
  split; [intros H; cbn in H; repeat destruct H as [H|H]; try discriminate H; exact H|].
  destruct C58_hyp as (M & _ & W & _ & _ & HF & HT & V & _). split; [exact M|]. split; [exact W|]. split; [repeat (apply Forall_cons; [apply rx_wf; unfold inS; lia|]); constructor|].
  split; [exact HT|]. split; [exact HF|]. split; [cbn; lia|].
  destruct (rx_main cfg_TESTMP7 [rx_event 50; rx_event 60]) as [[code tests]|k]; [|discriminate V]. cbn [rx_code] in V. injection V as -> L. exists tests. split; [reflexivity|exact L].
Qed.
