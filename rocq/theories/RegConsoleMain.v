(** The console of the regionizer test program: the whole run. *)
From Coq Require Import Ascii String.
From Verif Require Import Base BaseFacts Data PFHw TestUtils SerText SerTextFacts Printf HumanRead SpecHR HRFacts HRProofs MapiFacts Discrete Convert DiscreteIO SpecIO EventLoop EventLoopFacts Encoding SpecEnc Serializer SpecSer
  Regionizer SpecRegion RegTest SpecRegTest RegTestRun RegFiles SpecRegFiles RegTestFinal RegPackProofs Console SpecConsole ConsoleFacts ConsoleProofs ConsoleMain RegConsole SpecRegConsole RegConsoleProofs.
Local Open Scope string_scope.
Local Open Scope list_scope.
Local Open Scope Z_scope.

(** ** The configuration *)
Section header_lines.
Variables (a b d : Z).
Hypothesis (Ha : small a) (Hb : small b) (Hd : small d).
Lemma l_conf : says (printf_nl " --- Configuration --- " []) [(["---"; "Configuration"; "---"], [])].
Proof. unfold printf_nl. apply says_line; [line_nonl|console_row]. Qed.
Lemma l_sectors : says (printf_nl " Sectors: %d " [a]) [(["Sectors:"], [a])].
Proof. unfold printf_nl. apply says_line; [line_nonl|console_row]. Qed.
Lemma l_calo_in : says (printf_nl "    max N(Calo), input:     %2d " [a]) [size_row "Calo" [","; "input:"] a].
Proof. unfold printf_nl. apply says_line; [line_nonl|console_row]. Qed.
Lemma l_calo_eta : says (printf_nl "    max N(Calo), eta slice: %2d " [a]) [size_row "Calo" [","; "eta"; "slice:"] a].
Proof. unfold printf_nl. apply says_line; [line_nonl|console_row]. Qed.
Lemma l_em_in : says (printf_nl "    max N(EmCalo), input:     %2d " [a]) [size_row "EmCalo" [","; "input:"] a].
Proof. unfold printf_nl. apply says_line; [line_nonl|console_row]. Qed.
Lemma l_em_eta : says (printf_nl "    max N(EmCalo), eta slice: %2d " [a]) [size_row "EmCalo" [","; "eta"; "slice:"] a].
Proof. unfold printf_nl. apply says_line; [line_nonl|console_row]. Qed.
Lemma l_tk_in : says (printf_nl "    max N(Track), input:     %2d " [a]) [size_row "Track" [","; "input:"] a].
Proof. unfold printf_nl. apply says_line; [line_nonl|console_row]. Qed.
Lemma l_tk_eta : says (printf_nl "    max N(Track), eta slice: %2d " [a]) [size_row "Track" [","; "eta"; "slice:"] a].
Proof. unfold printf_nl. apply says_line; [line_nonl|console_row]. Qed.
Lemma l_regions : says (printf_nl " Regions: %d (%d x %d )" [a; b; d]) [(["Regions:"; "x"], [a; b; d])].
Proof. unfold printf_nl. apply says_line; [line_nonl|console_row]. Qed.
Lemma l_calo : says (printf_nl "    max N(Calo): %2d " [a]) [size_row "Calo" [":"] a].
Proof. unfold printf_nl. apply says_line; [line_nonl|console_row]. Qed.
Lemma l_em : says (printf_nl "    max N(EmCalo): %2d " [a]) [size_row "EmCalo" [":"] a].
Proof. unfold printf_nl. apply says_line; [line_nonl|console_row]. Qed.
Lemma l_tk : says (printf_nl "    max N(Track): %2d " [a]) [size_row "Track" [":"] a].
Proof. unfold printf_nl. apply says_line; [line_nonl|console_row]. Qed.
Lemma l_mismatch : says (printf_nl "ERROR: Mismatching number of input regions: %lu" [a]) [(["ERROR:"; "Mismatching"; "number"; "of"; "input"; "regions:"], [a])].
Proof. unfold printf_nl. apply says_line; [line_nonl|console_row]. Qed.
End header_lines.
Lemma header_says c : cfg_small c -> says (reg_header c) (header_rows c).
Proof.
  unfold cfg_small. rewrite !Forall_cons_iff. intros (F1 & F2 & F3 & F4 & _). unfold reg_header, header_rows. cbv zeta.
  apply says_cons; [exact l_conf|]. apply says_cons; [apply (l_sectors 12); unfold small; lia|].
  apply says_cons; [apply (l_calo_in 15); unfold small; lia|]. apply says_cons; [apply (l_calo_eta 7); unfold small; lia|].
  apply says_cons; [apply (l_em_in 12); unfold small; lia|]. apply says_cons; [apply (l_em_eta 7); unfold small; lia|].
  apply says_cons; [apply (l_tk_in 20); unfold small; lia|]. apply says_cons; [apply (l_tk_eta 9); unfold small; lia|].
  apply says_cons; [apply (l_regions 18 3 6); unfold small; lia|].
  apply says_cons; [apply l_calo; unfold small; lia|]. apply says_cons; [apply l_em; unfold small; lia|]. apply l_tk; unfold small; lia.
Qed.

(** ** The events *)
Lemma walk_says c junk work evs : cfg_small c -> (forall t, dims3 12 3 7 (work t)) -> Forall event_wf evs -> forall test st text, ready c st -> Z.of_nat (test + length evs) < 2 ^ 31 ->
  match verdict (NCALO c) evs with
  | UB k => event_walk (reg_body_say c junk work) test (st, text) (map event_kept evs) = UB k
  | Ok code => exists st1 tests t, event_walk (reg_body_say c junk work) test (st, text) (map event_kept evs) = Ok (st1, text ++ t, if code =? 0 then None else Some code) /\
      event_walk (reg_body c junk work) test st (map event_kept evs) = Ok (st1, if code =? 0 then None else Some code) /\
      rs_tests st1 = rs_tests st ++ tests /\ Forall2 (test_of c) (leading evs) tests /\ says t (events_rows test evs)
  end.
Proof.
  intros HC HW. induction evs as [|e evs IH]; intros HE test st text HR HT.
  { cbn [verdict map event_walk leading events_rows]. exists st, [], []. rewrite !app_nil_r. split; [reflexivity|]. split; [reflexivity|]. split; [reflexivity|]. split; [constructor|exact says_nil]. }
  inversion HE as [|? ? He Hes]; subst. cbn [verdict leading map event_walk events_rows]. cbn [length] in HT. destruct (twelve e) eqn:E12; cbn [negb].
  2:{ rewrite <- kept_twelve in E12. unfold twelve in E12. unfold reg_body, reg_body_say. change N_IN_SECTORS with 12%nat. rewrite E12. cbn [negb bind].
      exists st, [], (printf_nl "ERROR: Mismatching number of input regions: %lu" [Z.of_nat (length (ev_regions (event_kept e)))]). split; [reflexivity|]. split; [reflexivity|]. rewrite app_nil_r. split; [reflexivity|]. split; [constructor|].
      replace (length (ev_regions (event_kept e))) with (length (ev_regions e)) by (cbn [event_kept ev_regions]; rewrite map_length; reflexivity).
      apply l_mismatch. destruct He as (_ & _ & _ & _ & _ & Hf). unfold fits in Hf. unfold small. lia. }
  pose proof (body_ok c junk work test st (event_kept e) HW HR ltac:(rewrite kept_twelve; exact E12) (kept_fits e He)) as B. rewrite kept_negative in B.
  assert (L12 : length (ev_regions (event_kept e)) = 12%nat) by (rewrite <- kept_twelve in E12; apply Nat.eqb_eq; exact E12).
  pose proof (body_erase c junk work test st (event_kept e) text HC L12) as X.
  destruct (negative_calo e); [rewrite B in X; rewrite X; reflexivity|]. destruct (NCALO c <? 7)%nat; [rewrite B in X; rewrite X; reflexivity|].
  destruct B as (st1 & t & B & HR1 & ET & HT1). rewrite B in X. rewrite B, X. cbn [bind].
  specialize (IH Hes (S test) st1 (text ++ passed_line test) HR1 ltac:(lia)). destruct (verdict (NCALO c) evs) as [code|k]; [|exact IH]. destruct IH as (st2 & tests & u & E1 & E2 & E3 & F2 & SU).
  exists st2, (t :: tests), (passed_line test ++ u). rewrite E1, E2, app_assoc. split; [reflexivity|]. split; [reflexivity|]. rewrite E3, ET, <- app_assoc. split; [reflexivity|].
  split; [constructor; [apply kept_test; exact HT1|exact F2]|]. apply says_cons; [apply passed_says; lia|exact SU].
Qed.

(** ** The files *)
Lemma saved_4 c tests old : Forall (test_sized c) tests -> (length tests <= 50)%nat -> out_fits c -> trans_ok c old ->
  exists t, (do wi <- all_in_words c tests old; do wo <- all_out_words c tests; reg_saved wi wo) = Ok t /\ says t (reg_saved_rows true (length tests)).
Proof.
  intros HS HL HF HO. rewrite (all_in_ok c tests old HS HO), (all_out_ok c tests HS HF). cbn [bind].
  pose proof (in_stream_ok c tests HS) as WI. pose proof (out_stream_ok c tests HS HF) as WO.
  assert (LI : length (in_stream c tests) = (18 * length tests)%nat) by apply stream_len. assert (LO : length (out_stream tests) = (18 * length tests)%nat) by apply stream_len.
  revert WI WO LI LO. generalize (in_stream c tests) (out_stream tests). intros wi wo WI WO LI LO.
  assert (M2 : (MP7_NCHANN mod 2 = 0)%nat) by reflexivity. assert (M1 : (MP7_NCHANN mod 1 = 0)%nat) by reflexivity.
  assert (G : forall sel ws, Forall event4_ok ws -> length ws = (18 * length tests)%nat -> (forall w, event4_ok w -> event_ok (sel w)) ->
    mp7_count 2 1 (map sel ws) = Ok (Z.of_nat (36 * length tests)) /\ mp7_count 1 0 (flat_map (fun w => [sel w; sel w]) ws) = Ok (Z.of_nat (36 * length tests))).
  { intros sel ws W L S. assert (E : Forall event_ok (map sel ws)) by (apply Forall_forall; intros x Hx; apply in_map_iff in Hx as (w & <- & Hw); apply S; eapply Forall_forall; eassumption).
    split; [rewrite (mp7_counts 2 1 _) by (assumption || (rewrite map_length; lia) || lia); rewrite map_length, L; do 2 f_equal; lia|].
    rewrite doubled_map. assert (E2 : Forall event_ok (flat_map (fun x => [x; x]) (map sel ws))) by (apply Forall_forall; intros x Hx; apply in_flat_map in Hx as (y & Hy & [->|[->|[]]]); eapply Forall_forall; eassumption).
    rewrite (mp7_counts 1 0 _) by (assumption || (rewrite len_doubled, map_length; lia) || lia). rewrite len_doubled, map_length, L. do 2 f_equal. lia. }
  unfold reg_saved. cbv zeta.
  rewrite (proj2 (G w_tk wo WO LO ltac:(intros w Hw; apply Hw))), (proj2 (G w_calo wo WO LO ltac:(intros w Hw; apply Hw))). cbn [bind].
  rewrite (proj1 (G w_mu wo WO LO ltac:(intros w Hw; apply Hw))), (proj1 (G w_tk wo WO LO ltac:(intros w Hw; apply Hw))), (proj1 (G w_calo wo WO LO ltac:(intros w Hw; apply Hw))), (proj1 (G w_all wo WO LO ltac:(intros w Hw; apply Hw))). cbn [bind].
  rewrite (proj1 (G w_mu wi WI LI ltac:(intros w Hw; apply Hw))), (proj1 (G w_tk wi WI LI ltac:(intros w Hw; apply Hw))), (proj1 (G w_calo wi WI LI ltac:(intros w Hw; apply Hw))), (proj1 (G w_all wi WI LI ltac:(intros w Hw; apply Hw))). cbn [bind].
  eexists. split; [reflexivity|]. unfold reg_saved_rows. cbn [map]. assert (Hm : (36 * length tests <= 1800)%nat) by lia. set (m := (36 * length tests)%nat) in *. clearbody m.
  repeat (apply says_cons; [apply saved_says; [unfold small; lia|no_newline|no_newline|reflexivity]|]). apply saved_says; [unfold small; lia|no_newline|no_newline|reflexivity].
Qed.

(** ** main *)
Lemma c80_console c mp7 junk work g st0 old evs : memory_ok c st0 -> (forall t, dims3 12 3 7 (work t)) -> Forall event_wf evs -> cfg_small c -> (mp7 = true -> out_fits c /\ trans_ok c old) ->
  match verdict (NCALO c) (firstn 50 evs) with
  | UB k => reg_main_say c mp7 (Ok true) junk work g st0 old (Some (dump evs)) = UB k
  | Ok code => exists tests text, reg_main c (Ok true) junk work g st0 (Some (dump evs)) = Ok (code, tests) /\
      reg_main_say c mp7 (Ok true) junk work g st0 old (Some (dump evs)) = Ok (code, tests, text) /\ read_console text = reg_console_rows c mp7 (firstn 50 evs)
  end.
Proof.
  intros HM HW HE HC HP. unfold reg_main, reg_main_say. rewrite open_file. cbn [bind]. rewrite !(event_loop_walk _ evs) by (exact HE || reflexivity). change REG_NTEST with 50%nat.
  assert (HF : Forall event_wf (firstn 50 evs)). { apply Forall_forall. intros x Hx. apply (proj1 (Forall_forall _ _) HE). rewrite <- (firstn_skipn 50 evs). apply in_or_app. now left. }
  pose proof (firstn_le_length 50 evs) as L50.
  pose proof (walk_says c junk work (firstn 50 evs) HC HW HF 1 _ (reg_header c) (start_ready c st0 HM) ltac:(lia)) as G.
  destruct (verdict (NCALO c) (firstn 50 evs)) as [code|k]; [|rewrite G; reflexivity]. destruct G as (st1 & tests & t & -> & -> & ET & F & SU). cbn [bind]. rewrite ET. cbn [reg_start rs_tests app].
  assert (EC : match (if code =? 0 then None else Some code) with Some x => x | None => 0 end = code) by (destruct (Z.eqb_spec code 0); [lia|reflexivity]). rewrite EC.
  destruct (tests_facts c evs tests F) as (TS & _ & TL). assert (LL : length (leading (firstn 50 evs)) = length tests) by (clear -F; induction F; cbn [length]; congruence).
  assert (P : exists u, (if mp7 then do wi <- all_in_words c tests old; do wo <- all_out_words c tests; reg_saved wi wo else Ok []) = Ok u /\ says u (reg_saved_rows mp7 (length tests))).
  { destruct mp7; [destruct (HP eq_refl) as (H1 & H2); apply saved_4; assumption|]. exists []. split; [reflexivity|exact says_nil]. }
  destruct P as (u & EU & SV). rewrite EU. cbn [bind]. exists tests, ((reg_header c ++ t) ++ u). split; [reflexivity|]. split; [reflexivity|].
  apply says_read. unfold reg_console_rows. rewrite LL, <- app_assoc. apply says_app; [apply header_says; exact HC|]. apply says_app; assumption.
Qed.

(** ** The comparison *)
Lemma mapi_nil {A} (P : A -> Prop) (l : list A) : forall (f : nat -> A -> list row), (forall i x, f i x = [] <-> P x) -> List.concat (mapi f l) = [] <-> Forall P l.
Proof.
  induction l as [|x l IH]; intros f H; [split; [constructor|reflexivity]|]. rewrite mapi_cons. cbn [List.concat]. rewrite Forall_cons_iff, <- (H 0%nat x), <- (IH (fun i => f (S i)) (fun i y => H (S i) y)).
  split; [intros E; apply app_eq_nil in E; exact E|intros [-> ->]; reflexivity].
Qed.
Lemma forall_combine {S T} (P : S -> T -> Prop) l : forall l', length l = length l' -> Forall (fun p => P (fst p) (snd p)) (combine l l') <-> Forall2 P l l'.
Proof.
  induction l as [|x l IH]; intros [|y l'] H; try discriminate; [split; constructor|]. cbn [combine]. rewrite Forall_cons_iff. cbn [fst snd]. rewrite IH by (cbn in H; lia). split; [intros [A B]; constructor; assumption|inversion 1; auto].
Qed.
Lemma first_nil {T} what names (fields : T -> list Z) ir ref out : length ref = length out -> first_row what names fields ir ref out = [] <-> Forall2 (fun x y => same_object (fields x) (fields y) = true) ref out.
Proof.
  intros HL. unfold first_row. rewrite <- (forall_combine _ _ _ HL), <- (mapi_nil _ _ (fun i p => compare_rows what names (Z.of_nat (100 * ir + i)) (fields (fst p)) (fields (snd p)))).
  - destruct (List.concat _); split; intros H; (reflexivity || discriminate H).
  - intros i p. unfold compare_rows. destruct (same_object _ _); split; intros H; (reflexivity || discriminate H).
Qed.
Lemma forall2_seq {A B} (P : A -> B -> Prop) (da : A) (db : B) n l : forall l', length l = n -> length l' = n -> Forall2 P l l' <-> (forall i, (i < n)%nat -> P (nth i l da) (nth i l' db)).
Proof.
  revert l. induction n as [|n IH]; intros [|x l] [|y l'] H H'; try discriminate; [split; [intros _ i Hi; lia|constructor]|]. split.
  - inversion 1; subst. intros [|i] Hi; [assumption|]. cbn [nth]. apply (proj1 (IH l l' ltac:(cbn in H; lia) ltac:(cbn in H'; lia))); [assumption|lia].
  - intros G. constructor; [exact (G 0%nat ltac:(lia))|]. apply IH; [cbn in H; lia|cbn in H'; lia|]. intros i Hi. exact (G (S i) ltac:(lia)).
Qed.
Lemma flat_nil {A} (f : A -> list row) l : flat_map f l = [] <-> Forall (fun x => f x = []) l.
Proof. induction l as [|x l IH]; [split; [constructor|reflexivity]|]. cbn [flat_map]. rewrite Forall_cons_iff, <- IH. split; [intros E; apply app_eq_nil in E; exact E|intros [-> ->]; reflexivity]. Qed.
Lemma rows_len {T} n m (l l' : list (list T)) i : dims2 n m l -> dims2 n m l' -> (i < n)%nat -> length (nth i l []) = length (nth i l' []).
Proof. intros [A B] [A' B'] H. rewrite B by (apply nth_In; lia). rewrite B' by (apply nth_In; lia). reflexivity. Qed.
Lemma same_kind {T} what names (fields : T -> list Z) m ref out : dims2 18 m ref -> dims2 18 m out ->
  (forall ir, (ir < 18)%nat -> first_row what names fields ir (nth ir ref []) (nth ir out []) = []) <-> same_regions fields ref out.
Proof.
  intros HR HO. unfold same_regions. rewrite (forall2_seq _ [] [] 18) by (apply HR || apply HO). split; intros H ir Hi; specialize (H ir Hi); apply (first_nil what names fields ir) in H; try exact H; apply (rows_len 18 m); assumption.
Qed.
Lemma c80_same c ref out : regions4_ok c ref -> regions4_ok c out -> all_mismatches ref out = [] <-> all_same ref out.
Proof.
  intros (R1 & R2 & R3 & R4 & _) (O1 & O2 & O3 & O4 & _). unfold all_mismatches, all_same. rewrite flat_nil, Forall_forall.
  rewrite <- (same_kind "regionized hadcalo" had_names _ _ _ _ R1 O1), <- (same_kind "regionized emcalo" em_names _ _ _ _ R2 O2), <- (same_kind "regionized track" tk_names _ _ _ _ R3 O3), <- (same_kind "regionized muon" em_names _ _ _ _ R4 O4).
  unfold region_mismatches. split.
  - intros H. assert (H' : forall ir, (ir < 18)%nat -> _) by (intros ir Hi; exact (H ir ltac:(apply in_seq; lia))). cbn beta in H'.
    split; [|split; [|split]]; intros ir Hi; specialize (H' ir Hi); apply app_eq_nil in H' as [A H']; apply app_eq_nil in H' as [B H']; apply app_eq_nil in H' as [C D]; assumption.
  - intros (A & B & C & D) ir Hi. apply in_seq in Hi. rewrite A, B, C, D by lia. reflexivity.
Qed.
Lemma c80_comparison c test st : cfg_small c -> Z.of_nat test < 2 ^ 31 -> regions4_ok c (reference_regions st) -> regions4_ok c (tested_regions st) ->
  dims2 12 15 (ri_calo (rs_ins st)) -> Forall (Forall had_ok) (ri_calo (rs_ins st)) ->
  exists text verdict, reg_validate c test st = Ok (text, verdict) /\ (verdict = None <-> all_same (reference_regions st) (tested_regions st)) /\ (verdict <> None -> verdict = Some 1) /\
    read_console text = judgement_rows test (ri_calo (rs_ins st)) (reference_regions st) (tested_regions st).
Proof.
  intros HC Ht HR HO HI HT. destruct (validate_says c st HC HR HO HI HT test Ht) as (text & E & S). eexists text, _. split; [exact E|]. split; [|split; [|apply says_read; exact S]].
  - rewrite <- (c80_same c _ _ HR HO). destruct (all_mismatches _ _); split; intros H; (reflexivity || discriminate H).
  - destruct (all_mismatches _ _); [intros H; destruct (H eq_refl)|reflexivity].
Qed.
