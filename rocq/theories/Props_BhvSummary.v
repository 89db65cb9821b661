(** C88: the summary printed by the test program of the histogramming vertex
    finder (vertexing/bram_hist_vtx_test.cpp:126-128). *)
From Coq Require Import QArith Qabs Ascii String.
From Verif Require Import Base Data SpecIO SpecRegion SpecRegTest Regionizer Bhv BhvTest SpecBhvTest SpecConsole BhvConsole SpecBhvConsole SpecVtxConsole BhvSummary SpecBhvSummary BhvSummaryProofs Props_BhvTest Props_BhvConsole.
Local Open Scope string_scope.
Local Open Scope list_scope.
Local Open Scope Z_scope.

(** When every event has its twelve sectors the console ends with how many of
    the tests have the simulated and the full vertex, the reference and the
    simulated vertex, and the reference and the full vertex within 5 mm, each
    followed by the fraction of the tests, then by half the root of the mean
    square of the distances (in half millimetres, so: in millimetres) of the
    first two; [nan] and [nan'] are the texts of a
    quotient of zeros. *)
Theorem C88_summary : forall special nan nan' g arr tmp old evs,
  (forall b, inS 10 (special b)) -> one_label nan -> one_label nan' -> dims2 24 18 arr -> length tmp = 36%nat -> dims2 18 24 old -> Forall event_wf evs -> forallb twelve (firstn 250 evs) = true ->
  exists tests text w1 w2 w3 w4 w5, bhv_main_say special (ratio3 nan) (resolution3 nan') (Ok true) g arr tmp old (Some (dump evs)) = Ok (0, disagreements tests, tests, text) /\
    let l := combine (firstn 250 evs) tests in let n := Z.of_nat (length l) in let pv := zround special in
    let cmssw := count (gen_z pv) (cmssw_z pv) l in let ref := count ref_z (gen_z pv) l in let both := count ref_z (cmssw_z pv) l in
    In (["Good"; "matches:"; "CMSSW"; "="; w1; "REF"; "="; w2; "REF"; "vs"; "CMSSW:"; "="; w3; "."; "ERRORS:"], [cmssw; n; ref; n; both; n; disagreements tests]) (read_console text) /\
    In (["Resolution:"; "CMSSW:"; w4; "mm"; "REF"; w5; "mm"], []) (read_console text) /\
    shows_quotient (label nan) w1 cmssw n /\ shows_quotient (label nan) w2 ref n /\ shows_quotient (label nan) w3 both n /\
    shows_half_root (label nan') w4 (squares (gen_z pv) (cmssw_z pv) l) cmssw /\ shows_half_root (label nan') w5 (squares ref_z (gen_z pv) l) ref.
Proof. exact c88. Qed.
Print Assumptions C88_summary.

Definition nan_text : list ascii := list_ascii_of_string "-nan".
(** quotients and roots; two events, one off by 4 (2 mm) and one further *)
Example C88_hyp : one_label nan_text /\ Forall event_wf [bx_event 12 50; bx_event 12 (-2)] /\ forallb twelve (firstn 250 [bx_event 12 50; bx_event 12 (-2)]) = true /\
  map (fun p => string_of_list_ascii (ratio3 nan_text (fst p) (snd p))) [(2, 3); (249, 250); (0, 7); (1, 1); (0, 0)] = ["0.667"; "0.996"; "0.000"; "1.000"; "-nan"] /\
  map (fun p => string_of_list_ascii (resolution3 nan_text (fst p) (snd p))) [(32, 2); (5, 3); (0, 7); (100, 1); (0, 0)] = ["2.000"; "0.645"; "0.000"; "5.000"; "-nan"].
Proof.
  split; [split; [intros H; repeat (destruct H as [H|H]; [discriminate|]); exact H|exists "-nan"; reflexivity]|].
  split; [repeat (apply Forall_cons; [apply bx_wf; [lia|unfold inS; lia]|]); constructor|]. split; [vm_compute; reflexivity|]. split; vm_compute; reflexivity.
Qed.
Example C88_run : match bhv_main_say (fun _ => 0) (ratio3 nan_text) (resolution3 nan_text) (Ok true) 0 bx_arr (bx_row ++ bx_row) cb_old (Some (dump [bx_event 12 50; bx_event 12 (-2)])) with
  | Ok (_, _, _, text) => firstn 2 (skipn 2 (read_console text)) | UB _ => [] end =
  [(["Good"; "matches:"; "CMSSW"; "="; "0.000"; "REF"; "="; "1.000"; "REF"; "vs"; "CMSSW:"; "="; "0.000"; "."; "ERRORS:"], [0; 2; 2; 2; 0; 2; 1]);
   (["Resolution:"; "CMSSW:"; "-nan"; "mm"; "REF"; "2.000"; "mm"], [])].
Proof. vm_compute. reflexivity. Qed.
