(** C43-C46: the pattern files. *)
From Coq Require Import Ascii String.
From Verif Require Import Base Data Serializer SpecSer SerText SpecSerFile SerTextFacts SerProofs SerRecover SerFinal SpecSerColumns SerColumns.
Local Open Scope list_scope.

(** ** C43 *)
(** Link w of clock f carries the word the header comment of
    pattern_serializer.h prescribes ([frame], [muxed]); lines are numbered
    0, 1, 2, ... *)
Theorem C43_mux_layout : forall nmux nempty nlinks events, mux_ok nmux nempty nlinks -> Forall event_ok events -> few nempty events ->
  let pat := pattern (Z.abs_nat nempty) (nempty <? 0) events in
  let complete := (nmux * (npatterns (Z.abs_nat nempty) events / nmux))%nat in
  exists closed, mp7_session true nmux nempty nlinks events = Ok (map (frame nmux (links nmux nlinks) pat) (seq 0 complete), closed).
Proof. exact c43_layout. Qed.
Print Assumptions C43_mux_layout.
Theorem C43_without_muxing : forall nlinks events, (links 1 nlinks <= MP7_NCHANN)%nat -> Forall event_ok events -> few 0 events ->
  let file := map (fun i => (Z.of_nat i, firstn (links 1 nlinks) (nth i events []))) (seq 0 (length events)) in
  mp7_session true 1 0 nlinks events = Ok (file, file).
Proof. exact c43_nomux. Qed.
Print Assumptions C43_without_muxing.
(** however many events: the 32-bit frame number counts on from 0 *)
Theorem C43_without_muxing_unbounded : forall nlinks events, (links 1 nlinks <= MP7_NCHANN)%nat -> Forall event_ok events ->
  let file := map (fun i => (Z.of_nat i mod 2 ^ 32, firstn (links 1 nlinks) (nth i events []))) (seq 0 (length events)) in
  mp7_session true 1 0 nlinks events = Ok (file, file).
Proof. exact c43_wraps. Qed.
Print Assumptions C43_without_muxing_unbounded.
Theorem C43_other_mux_factors_rejected : forall named nmux nempty nlinks events, Z.abs nempty < 2 ^ 31 -> nmux = 0%nat \/ (MP7_NCHANN mod nmux <> 0)%nat ->
  mp7_session named nmux nempty nlinks events = UB (if (nmux =? 0)%nat then DivByZero else AssertFail).
Proof. exact c43_constructor. Qed.
Print Assumptions C43_other_mux_factors_rejected.
Theorem C43_unnamed_writes_nothing : forall nmux nempty nlinks events, mux_ok nmux nempty nlinks -> exists l, mp7_session false nmux nempty nlinks events = Ok (l, []).
Proof. exact session_unnamed. Qed.
Print Assumptions C43_unnamed_writes_nothing.

(** event k carries 1000 k + j in word j *)
Definition sx_event (k : Z) : list Z := map (fun j => 1000 * k + Z.of_nat j) (seq 0 MP7_NCHANN).
Lemma sx_event_ok k : 0 <= k < 1000 -> event_ok (sx_event k).
Proof.
  intros H. split; [reflexivity|]. apply Forall_forall. intros x Hx. apply in_map_iff in Hx. destruct Hx as (j & <- & Hj). apply in_seq in Hj.
  change MP7_NCHANN with 144%nat in Hj. unfold inU. lia.
Qed.
Example C43_hyp : mux_ok 4 0 MP7_NCHANN /\ Forall event_ok (map sx_event [1; 2; 3; 4; 5]) /\ few 0 (map sx_event [1; 2; 3; 4; 5]) /\
  exists lines closed f3, mp7_session true 4 0 MP7_NCHANN (map sx_event [1; 2; 3; 4; 5]) = Ok (lines, closed) /\ length lines = 4%nat /\ nth_error lines 3 = Some (3, f3) /\
    firstn 3 f3 = [1003; 1007; 1011] /\ firstn 2 (skipn 36 f3) = [2003; 2007] /\ firstn 1 (skipn 143 f3) = [4143].
Proof.
  split; [split; [lia|]; split; [reflexivity|]; split; [cbn; lia|lia]|].
  split; [cbn [map]; repeat (apply Forall_cons; [apply sx_event_ok; lia|]); constructor|]. split; [vm_compute; reflexivity|].
  eexists _, _, _. split; [vm_compute; reflexivity|]. split; [reflexivity|]. split; [reflexivity|]. repeat split.
Qed.

(** ** C44 *)
(** Full statement: on destruction the incomplete group is flushed with the
    missing events as zeros and frame numbers continuing the sequence.  The
    words are right; the numbers are right exactly when the group is complete
    or misses exactly one pattern. *)
Theorem C44_flush_on_close_partial : forall nmux nempty nlinks events, mux_ok nmux nempty nlinks -> Forall event_ok events -> few nempty events ->
  let pat := pattern (Z.abs_nat nempty) (nempty <? 0) events in
  let n := npatterns (Z.abs_nat nempty) events in
  exists before closed, mp7_session true nmux nempty nlinks events = Ok (before, closed) /\
    map snd closed = map (clock nmux (links nmux nlinks) pat) (seq 0 (nmux * ((n + nmux - 1) / nmux))) /\
    (closed = map (frame nmux (links nmux nlinks) pat) (seq 0 (nmux * ((n + nmux - 1) / nmux))) <-> (n mod nmux = 0 \/ n mod nmux = nmux - 1)%nat).
Proof. exact c44_words. Qed.
Print Assumptions C44_flush_on_close_partial.
(** the full statement is false of the code: *)
Theorem C44_numbering_refuted : ~ (forall nmux nempty nlinks events, mux_ok nmux nempty nlinks -> Forall event_ok events -> few nempty events ->
  exists before closed, mp7_session true nmux nempty nlinks events = Ok (before, closed) /\ map fst closed = map Z.of_nat (seq 0 (length closed))).
Proof. exact c44_refuted. Qed.
Print Assumptions C44_numbering_refuted.
Example C44_hyp : exists before closed, mp7_session true 4 0 0 (map sx_event [7]) = Ok (before, closed) /\ before = [] /\
  map fst closed = [4294967294; 4294967295; 0; 1] /\ firstn 2 (snd (nth 1 closed (0, []))) = [7001; 7005].
Proof. eexists _, _. split; [vm_compute; reflexivity|]. repeat split. Qed.

(** ** C45 *)
(** Exact condition for the file to determine the events. *)
Theorem C45_recoverable_iff : forall board nmux nempty nlinks, mux_ok nmux nempty nlinks -> ~ In newline (chars board) -> Z.of_nat (nmux * (Z.abs_nat nempty + 1)) < 2 ^ 32 ->
  (recoverable board nmux nempty nlinks <-> (reach nmux (Z.abs_nat nempty) * (MP7_NCHANN / nmux) <= links nmux nlinks)%nat).
Proof. exact c45_iff. Qed.
Print Assumptions C45_recoverable_iff.
Theorem C45_testbench_settings : forall board nmux nempty, (1 <= nmux)%nat -> (MP7_NCHANN mod nmux = 0)%nat -> Z.abs nempty = Z.of_nat nmux - 1 -> ~ In newline (chars board) ->
  recoverable board nmux nempty 0.
Proof. exact c45_testbench. Qed.
Print Assumptions C45_testbench_settings.
Theorem C45_all_links : forall board nmux nempty, (1 <= nmux)%nat -> (MP7_NCHANN mod nmux = 0)%nat -> Z.abs nempty < 2 ^ 24 -> ~ In newline (chars board) ->
  recoverable board nmux nempty MP7_NCHANN.
Proof. exact c45_all_links. Qed.
Print Assumptions C45_all_links.
(** what the property excludes: the default number of links without fillers loses data *)
Theorem C45_default_links_without_fillers_lose_data : forall board nmux, (2 <= nmux)%nat -> (MP7_NCHANN mod nmux = 0)%nat -> ~ In newline (chars board) -> ~ recoverable board nmux 0 0.
Proof. exact c45_default_refuted. Qed.
Print Assumptions C45_default_links_without_fillers_lose_data.
(** the reader used by [recoverable] gets every line back from the characters *)
Theorem C45_text_reads_back : forall board nlinks ls, nonl (chars board) -> Z.of_nat nlinks < 2 ^ 32 -> Forall line_ok ls -> mp7_read (mp7_text board nlinks ls) = Some ls.
Proof. exact mp7_read_text. Qed.
Print Assumptions C45_text_reads_back.
(** three heading lines; those of a file with at most 100 links name quad,
    channel and link number above the column of each link, and every line of
    data has its words in these columns *)
Theorem C45_columns : forall board nlinks ls, nonl (chars board) -> (nlinks <= 100)%nat -> Forall line_ok ls -> Forall (fun l => fst l < 10000) ls ->
  exists quad link rows, split_lines [] (mp7_text board nlinks ls) = (chars "Board " ++ chars board) :: quad :: link :: rows /\ mp7_headings nlinks quad link /\ Forall2 mp7_columns ls rows.
Proof. exact c45_columns. Qed.
Print Assumptions C45_columns.
Example C45_hyp : ~ In newline (chars "Board MP7_L1PF") /\ mux_ok 4 (-3) 0 /\ reach 4 3 = 1%nat /\ links 4 0 = 36%nat /\ reach 6 1 = 5%nat /\
  string_of_list_ascii (mp7_line_text (12, [255; 3735928559])) = ("Frame 0012 : 1v000000ff 1vdeadbeef" ++ String newline "")%string /\
  string_of_list_ascii (mp7_line_text (12345, [])) = ("Frame 12345 :" ++ String newline "")%string.
Proof.
  split; [vm_compute; intuition discriminate|]. split; [split; [lia|]; split; [reflexivity|]; split; [apply Nat.leb_le; reflexivity|reflexivity]|]. repeat split.
Qed.

(** ** C46 *)
Theorem C46_memory_image : forall calls, Forall (fun p => (snd p <= length (fst p))%nat) (firstn 171 calls) ->
  ctp7_session true 1 calls = Ok (map (ctp7_line calls) (seq 0 (Nat.min 1024 (6 * length calls)))).
Proof. exact ctp7_session_ok. Qed.
Print Assumptions C46_memory_image.
Theorem C46_excess_dropped : forall calls more, (171 <= length calls)%nat -> Forall (fun p => (snd p <= length (fst p))%nat) (firstn 171 calls) ->
  ctp7_session true 1 (calls ++ more) = ctp7_session true 1 calls.
Proof. exact c46_drop. Qed.
Print Assumptions C46_excess_dropped.
Theorem C46_text_reads_back : forall isInput nmax calls ls, Z.of_nat nmax < 2 ^ 32 -> Forall (fun p => (snd p <= length (fst p))%nat /\ Forall (inU 32) (fst p)) calls ->
  ctp7_session true 1 calls = Ok ls -> ctp7_read (ctp7_text isInput nmax ls) = Some (map (ctp7_line calls) (seq 0 (Nat.min 1024 (6 * length calls)))).
Proof. exact ctp7_text_back. Qed.
Print Assumptions C46_text_reads_back.
Theorem C46_other_settings_write_nothing : forall named nmux calls, nmux <> 0%nat -> named = false \/ nmux <> 1%nat -> ctp7_session named nmux calls = Ok [].
Proof. exact ctp7_nothing. Qed.
Print Assumptions C46_other_settings_write_nothing.
(** the heading of a CTP7 file names the links in order *)
Theorem C46_columns : forall isInput nmax ls, (nmax <= 100)%nat -> (forall l : line, In l ls -> 0 <= fst l < 2 ^ 20 /\ Forall (inU 32) (snd l)) ->
  exists head rows, split_lines [] (ctp7_text isInput nmax ls) = repeat "="%char 120 :: head :: repeat "="%char 120 :: rows /\ ctp7_headings isInput nmax head /\ length rows = length ls.
Proof. exact c46_columns. Qed.
Print Assumptions C46_columns.
Example C46_hyp_columns : Forall line_ok [(12, [255; 3735928559]); (13, [])] /\ Forall (fun l : line => fst l < 10000) [(12, [255; 3735928559]); (13, [])] /\
  map string_of_list_ascii (split_lines [] (mp7_text "MP7_L1PF" 6 [(12, [255; 3735928559])])) =
    ["Board MP7_L1PF"; " Quad/Chan :    q00c0      q00c1      q00c2      q00c3      q01c0      q01c1      "; "      Link :     00         01         02         03         04         05         "; "Frame 0012 : 1v000000ff 1vdeadbeef"]%string /\
  string_of_list_ascii (nth 1 (split_lines [] (ctp7_text false 3 [])) []) = "Output LINK_00 LINK_01 LINK_02 "%string.
Proof. split; [repeat constructor; cbn; lia|]. split; [repeat constructor|]. split; reflexivity. Qed.
Example C46_hyp : Forall (fun p => (snd p <= length (fst p))%nat) (firstn 171 (repeat (sx_event 3, 2%nat) 180)) /\
  exists ls, ctp7_session true 1 (repeat (sx_event 3, 2%nat) 180) = Ok ls /\ length ls = 1024%nat /\ firstn 2 (skipn 1020 ls) = [(1020, [3000; 3001]); (1021, [0; 0])] /\
    string_of_list_ascii (ctp7_line_text (nth 1020 ls (0, []))) = ("0x003fc 0x00000bb8 0x00000bb9" ++ String newline "")%string.
Proof.
  split; [apply Forall_forall; intros p Hp; cbn [firstn repeat] in Hp; assert (E : p = (sx_event 3, 2%nat)) by (repeat (destruct Hp as [<-|Hp]; [reflexivity|]); destruct Hp); subst; cbn; lia|].
  eexists. split; [vm_compute; reflexivity|]. repeat split.
Qed.
