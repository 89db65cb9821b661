(** C81: what the test program of the histogramming vertex finder
    (vertexing/bram_hist_vtx_test.cpp) prints on the console.  Texts are read
    back line by line by [read_console] (SpecConsole.v: words and integers); the
    rows expected are in SpecBhvConsole.v.  [arr], [tmp], [old]: uninitialised
    memory; [special]: the conversion of an infinite or NaN position; [ratio]
    and [resolution]: the text printf makes of the quotients in the summary, of
    which we only ask that it is one word. *)
From Coq Require Import Ascii String QArith Qabs.
From Verif Require Import Base BaseFacts Data SpecHR DiscreteIO SpecIO SpecRegion SpecRegTest Regionizer Bhv BhvTest SpecBhvTest SpecConsole BhvConsole SpecBhvConsole BhvConsoleProofs Props_BhvTest.
Local Open Scope string_scope.
Local Open Scope list_scope.
Local Open Scope Z_scope.

(** A run on any dump prints one line per test - positions, slices and sums of
    the simulated, full, reference and firmware vertex, and their differences -
    then the summary (how many of them are within 5 mm of each other, the number
    of errors) or the complaint about the first event without twelve sectors,
    then the number of patterns of each file: nothing else.  Printing changes
    neither the exit code nor the tests made. *)
Theorem C81_console : forall special ratio resolution g arr tmp old evs,
  (forall b, inS 10 (special b)) -> (forall a b, one_label (ratio a b)) -> (forall a b, one_label (resolution a b)) ->
  dims2 24 18 arr -> length tmp = 36%nat -> dims2 18 24 old -> Forall event_wf evs ->
  exists tests text, let code := if forallb twelve (firstn 250 evs) then 0 else 2 in
  bhv_main (Ok true) g arr tmp (Some (dump evs)) = Ok (code, disagreements tests, tests) /\
  bhv_main_say special ratio resolution (Ok true) g arr tmp old (Some (dump evs)) = Ok (code, disagreements tests, tests, text) /\
  read_console text = bhv_console_rows (zround special) ratio resolution (firstn 250 evs) tests.
Proof. intros special ratio resolution g arr tmp old evs HS HR HV. exact (c81_console special HS ratio resolution HR HV g arr tmp old evs). Qed.
Print Assumptions C81_console.
(** The positions of the simulated and the full vertex are the nearest multiple
    of half a millimetre, up to the error of the float product, for every finite
    float within 25.5 cm of the centre. *)
Theorem C81_rounding : forall special b, inU 32 b -> f32_finite b -> ((20 # 1) * f32_abs b <= 511 # 1)%Q ->
  exists t, zround special b = (if 2 ^ 31 <=? b then - t else t) /\ 0 <= t <= 511 /\ (Qabs (inject_Z t - (20 # 1) * f32_abs b) <= (1 # 2) + (1 # 32768))%Q.
Proof. exact c81_rounding. Qed.
Print Assumptions C81_rounding.

(** 5 cm and -1.37 cm *)
Example C81_hyp_rounding : inU 32 1084227584 /\ f32_finite 1084227584 /\ ((20 # 1) * f32_abs 1084227584 <= 511 # 1)%Q /\ zround (fun _ => 0) 1084227584 = 100 /\
  inU 32 3215940649 /\ f32_finite 3215940649 /\ ((20 # 1) * f32_abs 3215940649 <= 511 # 1)%Q /\ zround (fun _ => 0) 3215940649 = -27.
Proof. unfold inU, f32_finite. repeat match goal with |- _ /\ _ => split end; vm_compute; try reflexivity; discriminate. Qed.
(** a test, then an event with eleven sectors *)
Definition cb_label (a b : Z) : list ascii := list_ascii_of_string "0.500".
Definition cb_old : list (list Tk) := repeat (repeat (mkTk 9 9 9 9 9 true) 24) 18.
Definition cb_run evs := bhv_main_say (fun _ => 0) cb_label cb_label (Ok true) 0 bx_arr (bx_row ++ bx_row) cb_old (Some (dump evs)).
Example C81_hyp : (forall b : Z, inS 10 0) /\ (forall a b, one_label (cb_label a b)) /\ dims2 24 18 bx_arr /\ length (bx_row ++ bx_row) = 36%nat /\ dims2 18 24 cb_old /\
  Forall event_wf [bx_event 12 50; bx_event 12 (-2); bx_event 11 50].
Proof.
  split; [intros _; vm_compute; split; [discriminate|reflexivity]|]. split; [intros a b; split; [intros H; repeat (destruct H as [H|H]; [discriminate|]); exact H|exists "0.500"; reflexivity]|].
  split; [apply bx_dims|]. split; [reflexivity|]. split; [apply bx_dims|]. repeat (apply Forall_cons; [apply bx_wf; [lia|unfold inS; lia]|]). constructor.
Qed.
Definition cb_saved (n : Z) : list row := map (fun f => (["Saved"; "MP7"; "patterns"; "to"; f], [n])) ["mp7_output_debug.txt."; "mp7_output.txt."; "mp7_input_debug.txt."; "mp7_input.txt."].
Definition cb_rows (r : res (Z * Z * list btest * list ascii)) : option (Z * Z * list row) := match r with Ok (code, nerr, _, text) => Some (code, nerr, read_console text) | UB _ => None end.
Definition cb_words : list string := ["GEN"; "PV"; "CMSSW"; "PV"; "bin"; ":"; "REF"; "bin"; "ptsum"; "diff"; ":"; "HW"; "bin"; "ptsum"; "diff"; ":"; "MATCH"].
Example C81_run : cb_rows (cb_run [bx_event 12 50; bx_event 11 50]) =
  Some (2, 0, [(cb_words, [0; 100; 48; 4; 36; 1200; 4; 4; 36; 1200; 4; 0]); (["ERROR:"; "Mismatching"; "number"; "of"; "input"; "regions:"], [11])] ++ cb_saved 36).
Proof. vm_compute. reflexivity. Qed.
(** two tests of which one disagrees (C61: a track of negative momentum): the
    summary counts it *)
Example C81_run_summary : cb_rows (cb_run [bx_event 12 50; bx_event 12 (-2)]) =
  Some (0, 1, [(cb_words, [0; 100; 48; 4; 36; 1200; 4; 4; 36; 1200; 4; 0]); (cb_words, [0; 100; 48; 4; 36; 1200; 4; 100; 48; 6312; 100; 96]);
    (["Good"; "matches:"; "CMSSW"; "="; "0.500"; "REF"; "="; "0.500"; "REF"; "vs"; "CMSSW:"; "="; "0.500"; "."; "ERRORS:"], [0; 2; 2; 2; 0; 2; 1]);
    (["Resolution:"; "CMSSW:"; "0.500"; "mm"; "REF"; "0.500"; "mm"], [])] ++ cb_saved 72).
Proof. vm_compute. reflexivity. Qed.
