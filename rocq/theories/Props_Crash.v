(** C95: the pattern files of a program that is stopped at any point. *)
From Coq Require Import Ascii String.
From Verif Require Import Base BaseFacts Data PFHw Serializer SpecSer SerText SpecHR HumanRead HRProofs Regionizer SpecRegion RegTest RegFiles SpecRegTest SpecRegFiles Discrete DiscreteIO SpecIO Bhv BhvTest SpecBhvTest SpecCrash CrashProofs Props_Ser Props_HR Props_RegTest.
Local Open Scope list_scope.
Local Open Scope Z_scope.

(** The program was to write [events]; it was stopped after the first [k], and
    only the characters [p] reached the disk.  Every complete line is the line of
    the whole history's file with that number: the frame number and the words of
    the layout in the header comment of pattern_serializer.h.  An unfinished last
    line is dropped by the reader. *)
Theorem C95_mp7 : forall board nmux nempty nlinks events k before closed p, mux_ok nmux nempty nlinks -> Forall event_ok events -> few nempty events -> ~ In newline (chars board) ->
  mp7_session true nmux nempty nlinks (firstn k events) = Ok (before, closed) -> begins p (mp7_text board (links nmux nlinks) before) ->
  exists lines, mp7_read p = Some lines /\ length lines = (lines_in p - 3)%nat /\
    forall f l, nth_error lines f = Some l -> l = frame nmux (links nmux nlinks) (pattern (Z.abs_nat nempty) (nempty <? 0) events) f.
Proof. exact c95_mp7. Qed.
Print Assumptions C95_mp7.
(** So no word on disk is lost: word [j] of event [i] is in line [f], under link
    [w], as soon as line [f] is complete. *)
Theorem C95_mp7_words : forall board nmux nempty nlinks events k before closed p, mux_ok nmux nempty nlinks -> Forall event_ok events -> few nempty events -> ~ In newline (chars board) ->
  mp7_session true nmux nempty nlinks (firstn k events) = Ok (before, closed) -> begins p (mp7_text board (links nmux nlinks) before) ->
  forall i j, (i < length events)%nat -> (j < MP7_NCHANN)%nat ->
  let q := (i * (Z.abs_nat nempty + 1))%nat in
  let f := (q / nmux * nmux + j mod nmux)%nat in
  let w := (q mod nmux * (MP7_NCHANN / nmux) + j / nmux)%nat in
  (w < links nmux nlinks)%nat -> (f + 3 < lines_in p)%nat ->
  exists lines l, mp7_read p = Some lines /\ nth_error lines f = Some l /\ fst l = Z.of_nat f /\ nth w (snd l) 0 = nth j (nth i events []) 0.
Proof. exact c95_mp7_event. Qed.
Print Assumptions C95_mp7_words.
(** Stopped while the destructor flushes: the leading lines of the file it would
    have left, which continues what was there before. *)
Theorem C95_mp7_closing : forall board nmux nempty nlinks events before closed p, mux_ok nmux nempty nlinks -> Forall event_ok events -> few nempty events -> ~ In newline (chars board) ->
  mp7_session true nmux nempty nlinks events = Ok (before, closed) -> begins p (mp7_text board (links nmux nlinks) closed) ->
  mp7_read p = Some (firstn (lines_in p - 3) closed) /\ begins (mp7_text board (links nmux nlinks) before) (mp7_text board (links nmux nlinks) closed).
Proof. exact c95_mp7_closing. Qed.
Print Assumptions C95_mp7_closing.
Theorem C95_ctp7 : forall isInput nmax calls k ls p, Z.of_nat nmax < 2 ^ 32 -> Forall (fun p => (snd p <= length (fst p))%nat /\ Forall (inU 32) (fst p)) calls ->
  ctp7_session true 1 (firstn k calls) = Ok ls -> begins p (ctp7_text isInput nmax ls) ->
  ctp7_read p = Some (map (ctp7_line calls) (seq 0 (lines_in p - 3))) /\ (lines_in p - 3 <= 1024)%nat.
Proof. exact c95_ctp7. Qed.
Print Assumptions C95_ctp7.
Theorem C95_human_readable : forall c events k text p, cfg_fits c -> Forall (hrev_sized c) events -> Forall hrev_ok events -> Z.of_nat (length events) < 2 ^ 32 ->
  hr_session true (firstn k events) = Ok text -> begins p text -> read_table p = firstn (lines_in p) (table events).
Proof. exact c95_hr. Qed.
Print Assumptions C95_human_readable.
(** The text dumps of the regionizer and vertex-finder tests, stopped after [k]
    tests. *)
Theorem C95_regionizer_input_dump : forall c junk work g st0 evs code tests k text p, memory_ok c st0 -> (forall t, dims3 12 3 7 (work t)) -> Forall event_wf evs ->
  reg_main c (Ok true) junk work g st0 (Some (dump evs)) = Ok (code, tests) ->
  dump_in_file c (firstn k tests) = Ok text -> begins p text -> read_frames p = firstn (lines_in p) (in_table c tests).
Proof. exact c95_reg_in. Qed.
Print Assumptions C95_regionizer_input_dump.
Theorem C95_regionizer_output_dump : forall c junk work g st0 evs code tests k text p, memory_ok c st0 -> (forall t, dims3 12 3 7 (work t)) -> Forall event_wf evs ->
  reg_main c (Ok true) junk work g st0 (Some (dump evs)) = Ok (code, tests) ->
  dump_out_file c (firstn k tests) = Ok text -> begins p text -> read_frames p = firstn (lines_in p) (out_table tests).
Proof. exact c95_reg_out. Qed.
Print Assumptions C95_regionizer_output_dump.
Theorem C95_vertex_input_dump : forall g arr tmp evs code nerr tests k text p, dims2 24 18 arr -> length tmp = 36%nat -> Forall event_wf evs -> bhv_main (Ok true) g arr tmp (Some (dump evs)) = Ok (code, nerr, tests) ->
  bhv_in_file (firstn k tests) = Ok text -> begins p text -> read_frames p = firstn (lines_in p) (bhv_in_table tests).
Proof. exact c95_bhv_in. Qed.
Print Assumptions C95_vertex_input_dump.
Theorem C95_vertex_output_dump : forall g arr tmp evs code nerr tests k text p, dims2 24 18 arr -> length tmp = 36%nat -> Forall event_wf evs -> bhv_main (Ok true) g arr tmp (Some (dump evs)) = Ok (code, nerr, tests) ->
  bhv_out_file (firstn k tests) = Ok text -> begins p text -> read_frames p = firstn (lines_in p) (bhv_out_table tests).
Proof. exact c95_bhv_out. Qed.
Print Assumptions C95_vertex_output_dump.

(** A concrete case: five events multiplexed by four, stopped after the fourth
    with the last ten characters not on disk: three of the four complete lines
    are there, and word 2 of event 1 is in the last of them.  A human-readable
    file cut in its third line. *)
Definition kx_events : list (list Z) := map sx_event [1; 2; 3; 4; 5].
Example C95_hyp : mux_ok 4 0 MP7_NCHANN /\ Forall event_ok kx_events /\ few 0 kx_events /\ ~ In newline (chars "L1PF") /\
  (exists before closed p lines, mp7_session true 4 0 MP7_NCHANN (firstn 4 kx_events) = Ok (before, closed) /\ length before = 4%nat /\
    begins p (mp7_text "L1PF" (links 4 MP7_NCHANN) before) /\ lines_in p = 6%nat /\ mp7_read p = Some lines /\ length lines = 3%nat /\ nth 36 (snd (nth 2 lines (0, []))) 0 = 2002) /\
  (exists text p, hr_session true (firstn 1 [hx_event; hx_event]) = Ok text /\ begins p text /\ lines_in p = 2%nat /\ read_table p = firstn 2 (table [hx_event; hx_event])).
Proof.
  split; [split; [lia|]; split; [reflexivity|]; split; [apply Nat.leb_le; reflexivity|reflexivity]|].
  split; [unfold kx_events; repeat (apply Forall_cons; [apply sx_event_ok; lia|]); constructor|]. split; [vm_compute; reflexivity|]. split; [vm_compute; intuition discriminate|]. split.
  - destruct (mp7_session true 4 0 MP7_NCHANN (firstn 4 kx_events)) as [[before closed]|u] eqn:E; [|exfalso; vm_compute in E; discriminate E].
    assert (EB : before = match mp7_session true 4 0 MP7_NCHANN (firstn 4 kx_events) with Ok (b, _) => b | _ => [] end) by (rewrite E; reflexivity).
    set (t := mp7_text "L1PF" (links 4 MP7_NCHANN) before). set (p := firstn (List.length t - 10) t).
    exists before, closed, p, (match mp7_read p with Some l => l | None => [] end).
    split; [reflexivity|]. split; [rewrite EB; vm_compute; reflexivity|]. split; [exists (skipn (List.length t - 10) t); symmetry; apply firstn_skipn|].
    unfold p, t. clear p t. rewrite EB. clear E EB. split; [vm_compute; reflexivity|]. split; [vm_compute; reflexivity|]. split; vm_compute; reflexivity.
  - destruct (hr_session true (firstn 1 [hx_event; hx_event])) as [t|u] eqn:E; [|exfalso; vm_compute in E; discriminate E]. exists t, (firstn 150 t).
    assert (EB : t = match hr_session true (firstn 1 [hx_event; hx_event]) with Ok b => b | _ => [] end) by (rewrite E; reflexivity).
    split; [reflexivity|]. split; [exists (skipn 150 t); symmetry; apply firstn_skipn|]. rewrite EB. clear E EB. split; vm_compute; reflexivity.
Qed.
