(** Specification of the console of the regionizer test program: the rows the
    reader of SpecConsole should find. *)
From Coq Require Import Ascii String.
From Verif Require Import Base Data PFHw SpecHR Discrete DiscreteIO SpecRegion Regionizer RegTest SpecRegTest SpecConsole.
Local Open Scope string_scope.
Local Open Scope list_scope.
Local Open Scope Z_scope.

(** ** The whole console *)
Definition size_row (kind : string) (what : list string) (n : Z) : row := (["max"; "N"; kind] ++ what, [n]).
Definition header_rows (c : config) : list row :=
  [(["---"; "Configuration"; "---"], []); (["Sectors:"], [12]);
   size_row "Calo" [","; "input:"] 15; size_row "Calo" [","; "eta"; "slice:"] 7;
   size_row "EmCalo" [","; "input:"] 12; size_row "EmCalo" [","; "eta"; "slice:"] 7;
   size_row "Track" [","; "input:"] 20; size_row "Track" [","; "eta"; "slice:"] 9;
   (["Regions:"; "x"], [18; 3; 6]);
   size_row "Calo" [":"] (Z.of_nat (NCALO c)); size_row "EmCalo" [":"] (Z.of_nat (NEMCALO c)); size_row "Track" [":"] (Z.of_nat (NTRACK c))].
Definition passed_row (test : nat) : row := (["Passed"; "test"], [Z.of_nat test]).
(** one row per event: a test passed, or the complaint about the number of
    sectors, after which nothing is read *)
Fixpoint events_rows (test : nat) (evs : list event) : list row :=
  match evs with
  | [] => []
  | e :: evs =>
    if twelve e then passed_row test :: events_rows (S test) evs
    else [(["ERROR:"; "Mismatching"; "number"; "of"; "input"; "regions:"], [Z.of_nat (length (ev_regions e))])]
  end.
(** 36 patterns per test in every file of the MP7 build *)
Definition reg_saved_rows (mp7 : bool) (ntests : nat) : list row :=
  if mp7 then map (fun f => saved_row ["MP7"] f (36 * ntests))
    ["mp7_output_track_nomux.txt."; "mp7_output_calo_nomux.txt."; "mp7_output_mu.txt."; "mp7_output_track.txt."; "mp7_output_calo.txt."; "mp7_output.txt.";
     "mp7_input_mu.txt."; "mp7_input_track.txt."; "mp7_input_calo.txt."; "mp7_input.txt."]
  else [].
Definition reg_console_rows (c : config) (mp7 : bool) (evs : list event) : list row :=
  header_rows c ++ events_rows 1 evs ++ reg_saved_rows mp7 (length (leading evs)).

(** ** The comparison with the reference regions *)
(** the regions of one side, as arrays of objects *)
Record regions4 := mkR4 { rp_calo : list (list HadCalo); rp_em : list (list EmCalo); rp_tk : list (list Tk); rp_mu : list (list Mu) }.
Definition tested_regions (st : rstate) : regions4 :=
  mkR4 (map (map had_of_r) (ch_reg (rs_calo st))) (map (map em_of_r) (ch_reg (rs_em st))) (map (map tk_of_r) (ch_reg (rs_tk st))) (map (map mu_of_r) (ch_reg (rs_mu st))).
Definition reference_regions (st : rstate) : regions4 :=
  mkR4 (map (map had_of_r) (ch_regr (rs_calo st))) (map (map em_of_r) (ch_regr (rs_em st))) (map (map tk_of_r) (ch_regr (rs_tk st))) (map (map mu_of_r) (ch_regr (rs_mu st))).
(** sizes and ranges of the declared types *)
Definition regions4_ok (c : config) (p : regions4) : Prop :=
  dims2 18 (NCALO c) (rp_calo p) /\ dims2 18 (NEMCALO c) (rp_em p) /\ dims2 18 (NTRACK c) (rp_tk p) /\ dims2 18 (NMU c) (rp_mu p) /\
  Forall (Forall had_ok) (rp_calo p) /\ Forall (Forall em_ok) (rp_em p) /\ Forall (Forall tk_ok) (rp_tk p) /\ Forall (Forall mu_ok) (rp_mu p).
(** the first differing slot of region [ir]; slots are numbered 100 ir + i *)
Definition first_row {T} (what : string) (names : list string) (fields : T -> list Z) (ir : nat) (ref out : list T) : list row :=
  firstn 1 (List.concat (mapi (fun i p => compare_rows what names (Z.of_nat (100 * ir + i)) (fields (fst p)) (fields (snd p))) (combine ref out))).
Definition region_mismatches (ref out : regions4) (ir : nat) : list row :=
  first_row "regionized hadcalo" had_names had_fields ir (nth ir (rp_calo ref) []) (nth ir (rp_calo out) []) ++
  first_row "regionized emcalo" em_names em_fields ir (nth ir (rp_em ref) []) (nth ir (rp_em out) []) ++
  first_row "regionized track" tk_names tk_fields ir (nth ir (rp_tk ref) []) (nth ir (rp_tk out) []) ++
  first_row "regionized muon" em_names mu_fields ir (nth ir (rp_mu ref) []) (nth ir (rp_mu out) []).
Definition all_mismatches (ref out : regions4) : list row := flat_map (region_mismatches ref out) (seq 0 18).
(** the clusters of all sectors and regions, after a failure *)
Definition failure_rows (calo_in : list (list HadCalo)) (ref out : regions4) : list row :=
  List.concat (mapi (fun is row => (["INPUT"; "SECTOR"; "FOUND"; ":"], [Z.of_nat is; nonzero h_pt row]) :: mapi had_row row) calo_in) ++
  flat_map (fun ir => (["OUTPUT"; "REGION"; "ETA"; "PHI"; "REF;"; "FOUND"; ":"], [Z.of_nat ir; Z.of_nat (ir / 6); Z.of_nat (ir mod 6); nonzero h_pt (nth ir (rp_calo ref) [])]) ::
      mapi had_row (nth ir (rp_calo ref) []) ++ (["OUTPUT"; "REGION"; "TEST"; ":"], [Z.of_nat ir]) :: mapi had_row (nth ir (rp_calo out) [])) (seq 0 18).
Definition judgement_rows (test : nat) (calo_in : list (list HadCalo)) (ref out : regions4) : list row :=
  let bad := all_mismatches ref out in
  bad ++ match bad with
  | [] => [passed_row test]
  | _ => (["Error"; "in"; "computing"; "test"], [Z.of_nat test; Z.of_nat (length bad)]) :: failure_rows calo_in ref out
  end.
(** what the comparison decides: the two sides hold the same objects *)
Definition same_regions {T} (fields : T -> list Z) (ref out : list (list T)) : Prop := Forall2 (Forall2 (fun x y => same_object (fields x) (fields y) = true)) ref out.
Definition all_same (ref out : regions4) : Prop :=
  same_regions had_fields (rp_calo ref) (rp_calo out) /\ same_regions em_fields (rp_em ref) (rp_em out) /\ same_regions tk_fields (rp_tk ref) (rp_tk out) /\ same_regions mu_fields (rp_mu ref) (rp_mu out).
(** sizes that fit the int fields of the messages *)
Definition cfg_small (c : config) : Prop := Forall (fun n => Z.of_nat n < 2 ^ 30) [NCALO c; NEMCALO c; NTRACK c; NMU c].
