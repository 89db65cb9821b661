(** C56: the human-readable pattern file. *)
From Coq Require Import Ascii String.
From Verif Require Import Base Data PFHw SerText Printf HumanRead SpecHR HRProofs Witness.
Local Open Scope string_scope.
Local Open Scope list_scope.
Local Open Scope Z_scope.

(** Reading the file, without knowledge of its formats, gives the table of all
    objects of all events, labelled, indexed and in order. *)
Theorem C56_table : forall c events, cfg_fits c -> Forall (hrev_sized c) events -> Forall hrev_ok events -> Z.of_nat (length events) < 2 ^ 32 ->
  exists text, hr_session true events = Ok text /\ read_table text = table events.
Proof. exact table_text. Qed.
Print Assumptions C56_table.
(** So the text determines every event up to the fields that are not printed. *)
Theorem C56_text_determines_events : forall c evs evs', cfg_fits c -> Forall (hrev_sized c) evs -> Forall (hrev_sized c) evs' -> Forall hrev_ok evs -> Forall hrev_ok evs' ->
  Z.of_nat (length evs) < 2 ^ 32 -> Z.of_nat (length evs') < 2 ^ 32 -> hr_session true evs = hr_session true evs' -> map printed evs = map printed evs'.
Proof. exact text_determines. Qed.
Print Assumptions C56_text_determines_events.
(** An unnamed serializer ignores its calls; dumping through it is undefined. *)
Theorem C56_unnamed : forall events, hr_session false events = Ok [].
Proof. exact session_unnamed. Qed.
Print Assumptions C56_unnamed.
Theorem C56_unnamed_dump_refuted : exists em had tk mu, hr_dump_inputs em had tk mu (hr_new false) = UB NullDeref.
Proof. exact (ex_intro _ [] (ex_intro _ [had0] (ex_intro _ [] (ex_intro _ [] eq_refl)))). Qed.
Print Assumptions C56_unnamed_dump_refuted.

Definition hx_cfg : config := mkCfg 4 3 2 2 2.
Definition hx_event : hrev := mkHrev ev_em ev_had ev_tk ev_mu ev_out.
Example C56_hyp : cfg_fits hx_cfg /\ Forall (hrev_sized hx_cfg) [hx_event; hx_event] /\ Forall hrev_ok [hx_event; hx_event] /\
  (exists text, hr_session true [hx_event; hx_event] = Ok text /\ nth_error (read_table text) 23 = Some (["Frame"], [1]) /\
    nth_error (read_table text) 8 = Some (["track"; "hwPt"; "hwPtErr"; "hwEta"; "hwPhi"; "hwZ0"], [2; 150; 15; -100; -100; 0])) /\
  string_of_list_ascii (tk_line 2 (mkTk 150 15 (-100) (-100) 0 false)) =
    ("   track   2, hwPt     150   hwPtErr      15    hwEta    -100   hwPhi    -100     hwZ0      +0" ++ String newline "")%string.
Proof.
  assert (O : hrev_ok hx_event) by (repeat split; try (repeat constructor; unfold inS, inU, PID_Charged, PID_Electron, PID_Muon, PID_Photon, PID_Neutral; cbn; lia)).
  split; [repeat constructor|]. split; [repeat constructor|]. split; [repeat (apply Forall_cons; [exact O|]); constructor|].
  split; [eexists; split; [vm_compute; reflexivity|split; vm_compute; reflexivity]|]. vm_compute. reflexivity.
Qed.
