(** Specification of the console output: a reader that knows nothing about the
    formats (brackets and slashes are blanks; the rest is the reader of SpecHR), and the rows
    it should find. *)
From Coq Require Import Ascii String.
From Verif Require Import Base Data PFHw Encoding SerText HumanRead SpecHR Discrete DiscreteIO SpecIO SpecOut RegionLoop PFTest SpecTest.
Local Open Scope string_scope.
Local Open Scope list_scope.
Local Open Scope Z_scope.

Definition tidy (c : ascii) : ascii := if existsb (Ascii.eqb c) (list_ascii_of_string "()[]/") then " "%char else c.
Definition read_console (text : list ascii) : list row := read_table (map tidy text).

(** ** The comparison functions *)
(** the fields each of them compares, and their names on the console *)
Definition had_fields (o : HadCalo) : list Z := [h_pt o; h_empt o; h_eta o; h_phi o; if h_isem o then 1 else 0].
Definition em_fields (o : EmCalo) : list Z := [e_pt o; e_pterr o; e_eta o; e_phi o].
Definition tk_fields (o : Tk) : list Z := [t_pt o; t_pterr o; t_eta o; t_phi o; t_z0 o].
Definition mu_fields (o : Mu) : list Z := [m_pt o; m_pterr o; m_eta o; m_phi o].
Definition ch_fields (o : PFCh) : list Z := [c_pt o; c_eta o; c_phi o; c_id o; c_z0 o].
Definition ne_fields (o : PFNe) : list Z := [n_pt o; n_eta o; n_phi o; n_id o].
Definition had_names := ["hwPt"; "hwEmPt"; "hwEta"; "hwPhi"; "hwId"].
Definition em_names := ["hwPt"; "hwPtErr"; "hwEta"; "hwPhi"].
Definition tk_names := ["hwPt"; "hwPtErr"; "hwEta"; "hwPhi"; "hwZ0"].
Definition ch_names := ["hwPt"; "hwEta"; "hwPhi"; "hwId"; "hwZ0"].
Definition ne_names := ["hwPt"; "hwEta"; "hwPhi"; "hwId"].
(** each field of the reference followed by that of the tested object *)
Definition side_by_side (r o : list Z) : list Z := flat_map (fun p => [fst p; snd p]) (combine r o).
Definition mismatch_row (what : string) (names : list string) (idx : Z) (r o : list Z) : row :=
  let w := read_row (map tidy (list_ascii_of_string what)) in
  (["Mismatch"; "at"] ++ fst w ++ ["ref"; "vs"; "test,"] ++ names, snd w ++ idx :: side_by_side r o).
(** the same object: all fields (the first is hwPt) are equal, or both slots are empty *)
Definition same_object (r o : list Z) : bool := (if list_eq_dec Z.eq_dec r o then true else false) || ((hd 0 r =? 0) && (hd 0 o =? 0)).
(** the rows printed about two objects with fields [r] and [o] *)
Definition compare_rows (what : string) (names : list string) (idx : Z) (r o : list Z) : list row :=
  if same_object r o then [] else [mismatch_row what names idx r o].
(** a name without line breaks *)
Definition one_line (what : string) : Prop := ~ In newline (list_ascii_of_string what).

(** ** One test *)
Definition input_rows (r : fwregion) : list row := mapi had_row (fw_calo r) ++ mapi em_row (fw_emcalo r) ++ mapi tk_row (fw_track r) ++ mapi mu_row (fw_muon r).
Definition output_rows (o : pfout) : list row := mapi ch_row (o_ch o) ++ mapi (ne_row "photon") (o_pho o) ++ mapi (ne_row "neutral") (o_ne o) ++ mapi pfmu_row (o_mu o).
(** all mismatches, slot by slot *)
Definition slot_rows {T} (what : string) (names : list string) (fields : T -> list Z) (ref out : list T) : list row :=
  List.concat (mapi (fun i p => compare_rows what names (Z.of_nat i) (fields (fst p)) (fields (snd p))) (combine ref out)).
Definition test_mismatches (ref hw : pfout) : list row :=
  slot_rows "PF Charged" ch_names ch_fields (o_ch ref) (o_ch hw) ++ slot_rows "Photon" ne_names ne_fields (o_pho ref) (o_pho hw) ++
  slot_rows "PF Neutral" ne_names ne_fields (o_ne ref) (o_ne hw) ++ slot_rows "PF Muon" ch_names ch_fields (o_mu ref) (o_mu hw).
(** objects of the reference with pt > 0 *)
Definition nonzero {T} (pt : T -> Z) (l : list T) : Z := Z.of_nat (length (filter (fun x => 0 <? pt x) l)).
Definition verdict_rows (test : nat) (run : pfrun) : list row :=
  let ref := pr_ref run in let bad := test_mismatches ref (pr_hw run) in
  bad ++ match bad with
  | [] => let ch := nonzero c_pt (o_ch ref) in let pho := nonzero n_pt (o_pho ref) in let ne := nonzero n_pt (o_ne ref) in let mu := nonzero c_pt (o_mu ref) in
          [(["Passed"; "test"], [Z.of_nat test; ch + pho + ne + mu; ch; pho; ne])]
  | _ => [(["Error"; "in"; "computing"; "test"], [Z.of_nat test; Z.of_nat (length bad)])] ++
         [(["Inputs:"], [])] ++ input_rows (pr_region run) ++ [(["Reference"; "output:"], [])] ++ output_rows ref ++ [(["Current"; "output:"], [])] ++ output_rows (pr_hw run)
  end.
(** each CTP7 serializer counts the six patterns of a test as it writes them, up to 1024 *)
Definition pattern_rows (test : nat) : list row := map (fun n => (["ipattern"; "="], [Z.of_nat n])) (filter (fun n => (n <=? 1024)%nat) (seq (6 * (test - 1)) 6)).
Definition test_rows (b : board) (validate : bool) (test : nat) (run : pfrun) : list row :=
  match b with CTP7 => pattern_rows test ++ pattern_rows test | _ => [] end ++ (if compares b validate then verdict_rows test run else []).

(** ** The input reader *)
Inductive news := Begin (e : event) | Found (e : event) (i : nat) (r : Region).
Definition news_row (x : news) : row :=
  match x with
  | Begin e => (["Beginning"; "of"; "run"; "lumi"; "event"], [ev_run e; ev_lumi e; ev_event e])
  | Found _ i r => (["Read"; "region"; "with"; "tracks,"; "em"; "calo,"; "had"; "calo,"; "muons"],
                  map Z.of_nat [i; length (rg_track r); length (rg_emcalo r); length (rg_calo r); length (rg_muon r)])
  end.
(** an event, then those of its regions that are used ([event_regions]) with their positions *)
Definition event_news (e : event) : list news :=
  Begin e :: List.concat (mapi (fun i r => if barrel r then [Found e i r] else []) (if ev_event e =? 0 then firstn 1 (ev_regions e) else ev_regions e)).

(** ** The whole console *)
(** [test]: number of the next test.  After a failed test and after the last test allowed nothing more is read. *)
Fixpoint story (b : board) (validate : bool) (code : Z) (test : nat) (l : list news) (runs : list pfrun) : list row :=
  match l with
  | [] => []
  | Begin e :: l => news_row (Begin e) :: story b validate code test l runs
  | Found e i r :: l =>
    match runs with
    | [] => []
    | run :: runs => news_row (Found e i r) :: test_rows b validate test run ++
        (if (match runs with [] => code =? 1 | _ => false end) || (test =? NTEST)%nat then [] else story b validate code (S test) l runs)
    end
  end.
Definition saved_row (kind : list string) (file : string) (n : nat) : row := (["Saved"] ++ kind ++ ["patterns"; "to"; file], [Z.of_nat n]).
Definition saved_rows (b : board) (ii n : nat) : list row :=
  saved_row ["human"; "readable"] "human_readable_patterns.txt." n ::
  match b with
  | Plain => []
  | MP7 => [saved_row ["MP7"] "mp7_output_patterns_nomux.txt." n; saved_row ["MP7"] "mp7_input_patterns_nomux.txt." n;
            saved_row ["MP7"] "mp7_output_patterns_magic.txt." (ii * n); saved_row ["MP7"] "mp7_input_patterns_magic.txt." (ii * n);
            saved_row ["MP7"] "mp7_output_patterns.txt." (ii * n); saved_row ["MP7"] "mp7_input_patterns.txt." (ii * n)]
  | CTP7 => [saved_row ["CTP7"] "ctp7_output_patterns_nomux.txt." (Nat.min 1024 (6 * n)); saved_row ["CTP7"] "ctp7_input_patterns_nomux.txt." (Nat.min 1024 (6 * n))]
  end.
Definition console_rows (b : board) (validate : bool) (ii : nat) (evs : list event) (code : Z) (runs : list pfrun) : list row :=
  story b validate code 1 (flat_map event_news evs) runs ++ saved_rows b ii (length runs).
