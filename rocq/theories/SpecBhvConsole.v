(** Specification of the console of the test program of the histogramming
    vertex finder: the rows the reader of SpecConsole should find. *)
From Coq Require Import Ascii String.
From Verif Require Import Base Data SerText SpecHR Discrete DiscreteIO SpecRegion SpecRegTest BhvTest SpecBhvTest SpecConsole.
Local Open Scope string_scope.
Local Open Scope list_scope.
Local Open Scope Z_scope.

(** A test: its event and what was recorded; [pv b] is the position in mm/2 of
    the vertex whose z in cm is the binary32 number [b]. *)
Section rows.
Variable pv : Z -> Z.
Definition pass : Type := event * btest.
Definition gen_z (p : pass) : Z := pv (ev_genz0 (fst p)).
Definition cmssw_z (p : pass) : Z := pv (ev_z0 (fst p)).
Definition ref_z (p : pass) : Z := snd (bt_ref (snd p)).
Definition hw_z (p : pass) : Z := snd (bt_hw (snd p)).
(** the slice of a position, 0 outside the range *)
Definition slice_of (z : Z) : Z := if (-288 <=? z) && (z <=? 287) then (z + 288) / 8 else 0.
Definition pass_row (p : pass) : row :=
  let '(b_ref, s_ref, _) := bt_ref (snd p) in let '(b_hw, s_hw, _) := bt_hw (snd p) in
  (["GEN"; "PV"; "CMSSW"; "PV"; "bin"; ":"; "REF"; "bin"; "ptsum"; "diff"; ":"; "HW"; "bin"; "ptsum"; "diff"; ":"; "MATCH"],
   [gen_z p; cmssw_z p; slice_of (cmssw_z p); ref_z p; b_ref; s_ref; ref_z p - gen_z p; hw_z p; b_hw; s_hw; hw_z p - gen_z p; hw_z p - ref_z p]).
(** positions within 10 of each other (5 mm): how many tests, and the sum of the squared distances *)
Definition near (f g : pass -> Z) (l : list pass) : list pass := filter (fun p => Z.abs (f p - g p) <=? 10) l.
Definition count (f g : pass -> Z) (l : list pass) : Z := Z.of_nat (length (near f g l)).
Definition squares (f g : pass -> Z) (l : list pass) : Z := fold_right Z.add 0 (map (fun p => (f p - g p) ^ 2) (near f g l)).
(** a text that reads as one word, not an integer, and that word *)
Definition one_label (text : list ascii) : Prop := ~ In newline text /\ exists w, read_row (map tidy text) = ([w], []).
Definition label (text : list ascii) : string := hd "" (fst (read_row (map tidy text))).
Section summary.
Variables ratio resolution : Z -> Z -> list ascii.
Definition summary_rows (l : list pass) : list row :=
  let n := Z.of_nat (length l) in
  let cmssw := count gen_z cmssw_z l in let ref := count ref_z gen_z l in let both := count ref_z cmssw_z l in
  [(["Good"; "matches:"; "CMSSW"; "="; label (ratio cmssw n); "REF"; "="; label (ratio ref n); "REF"; "vs"; "CMSSW:"; "="; label (ratio both n); "."; "ERRORS:"],
    [cmssw; n; ref; n; both; n; disagreements (map snd l)]);
   (["Resolution:"; "CMSSW:"; label (resolution (squares gen_z cmssw_z l) cmssw); "mm"; "REF"; label (resolution (squares ref_z gen_z l) ref); "mm"], [])].
(** one row per test; then the summary or the complaint about the first event
    without twelve sectors; then the files, 36 patterns per test *)
Definition bhv_console_rows (evs : list event) (tests : list btest) : list row :=
  let l := combine (leading evs) tests in
  map pass_row l ++
  match find (fun e => negb (twelve e)) evs with
  | Some e => [(["ERROR:"; "Mismatching"; "number"; "of"; "input"; "regions:"], [Z.of_nat (length (ev_regions e))])]
  | None => summary_rows l
  end ++
  map (fun f => saved_row ["MP7"] f (36 * length tests)) ["mp7_output_debug.txt."; "mp7_output.txt."; "mp7_input_debug.txt."; "mp7_input.txt."].
End summary.
End rows.
