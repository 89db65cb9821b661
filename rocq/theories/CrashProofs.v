(** Proofs of C95: the files of a program that is stopped. *)
From Coq Require Import Ascii String.
From Verif Require Import Base BaseFacts Data TabFacts MapiFacts PFHw Serializer SpecSer SerFacts SerText SpecSerFile SerTextFacts SerProofs SerRecover SerFinal SpecHR HumanRead HRProofs
  Regionizer SpecRegion RegTest RegFiles SpecRegTest SpecRegFiles RegFilesProofs RegTestProofs RegTestRun RegPackProofs RegTestFinal Discrete DiscreteIO SpecIO Bhv SpecBhv BhvTest SpecBhvTest BhvTestProofs BhvFileProofs SpecCrash.
Local Open Scope list_scope.
Local Open Scope Z_scope.

Lemma cut_lines p rest : forall cur, split_lines cur p = firstn (lines_in p) (split_lines cur (p ++ rest)).
Proof.
  unfold lines_in. induction p as [|a p IH]; intros cur; [reflexivity|]. cbn [app split_lines count_occ]. destruct (ascii_dec a newline) as [->|N].
  - rewrite Ascii.eqb_refl. cbn [firstn]. f_equal. apply IH.
  - destruct (Ascii.eqb_spec a newline); [contradiction|]. apply IH.
Qed.
Lemma lines_count p : forall cur, length (split_lines cur p) = lines_in p.
Proof.
  unfold lines_in. induction p as [|a p IH]; intros cur; [reflexivity|]. cbn [split_lines count_occ]. destruct (ascii_dec a newline) as [->|N].
  - rewrite Ascii.eqb_refl. cbn [length]. f_equal. apply IH.
  - destruct (Ascii.eqb_spec a newline); [contradiction|]. apply IH.
Qed.
Lemma lines_in_app p q : lines_in (p ++ q) = (lines_in p + lines_in q)%nat.
Proof. unfold lines_in. apply count_occ_app. Qed.

Lemma all_some_firstn {A} (l : list (option A)) : forall ls m, all_some l = Some ls -> all_some (firstn m l) = Some (firstn m ls).
Proof.
  induction l as [|[a|] l IH]; intros ls m H; cbn in H; [injection H as <-; rewrite !firstn_nil; reflexivity| |discriminate].
  destruct (all_some l) as [ls'|] eqn:E; [|discriminate]. injection H as <-. destruct m as [|m]; [reflexivity|]. cbn. rewrite (IH ls' m eq_refl). reflexivity.
Qed.
Lemma all_some_len {A} (l : list (option A)) : forall ls, all_some l = Some ls -> length ls = length l.
Proof.
  induction l as [|[a|] l IH]; intros ls H; cbn in H; [injection H as <-; reflexivity| |discriminate].
  destruct (all_some l) as [ls'|] eqn:E; [|discriminate]. injection H as <-. cbn. f_equal. apply IH. reflexivity.
Qed.

(** a file with three heading lines *)
Lemma cut_read {A} (parse : list ascii -> option A) p text (ls : list A) : begins p text -> all_some (map parse (skipn 3 (split_lines [] text))) = Some ls ->
  all_some (map parse (skipn 3 (split_lines [] p))) = Some (firstn (lines_in p - 3) ls) /\ length (firstn (lines_in p - 3) ls) = (lines_in p - 3)%nat.
Proof.
  intros [rest ->] H. pose proof (all_some_len _ _ H) as L. rewrite map_length, skipn_length, lines_count, lines_in_app in L.
  rewrite (cut_lines p rest []), skipn_firstn_comm, <- firstn_map. split; [apply (all_some_firstn _ _ _ H)|]. rewrite firstn_length. lia.
Qed.
Lemma cut_seq : forall n a m, (m <= n)%nat -> firstn m (seq a n) = seq a m.
Proof. induction n as [|n IH]; intros a [|m] H; try reflexivity; [lia|]. cbn. f_equal. apply IH. lia. Qed.
Lemma Forall_cut {A} (P : A -> Prop) k l : Forall P l -> Forall P (firstn k l).
Proof. intros H. rewrite <- (firstn_skipn k l) in H. apply Forall_app in H. tauto. Qed.
Lemma nth_error_firstn_lt {A} (l : list A) : forall m i x, nth_error (firstn m l) i = Some x -> nth_error l i = Some x /\ (i < m)%nat.
Proof. induction l as [|a l IH]; intros [|m] [|i] x H; cbn in *; try discriminate; [split; [exact H|lia]|]. destruct (IH m i x H). split; [assumption|lia]. Qed.

(** ** MP7 files *)
Lemma pattern_firstn ne mg events k p j : (p < npatterns ne (firstn k events))%nat -> pattern ne mg (firstn k events) p j = pattern ne mg events p j.
Proof.
  intros H. unfold pattern. assert (L : (p < npatterns ne events)%nat) by (unfold npatterns in *; rewrite firstn_length in H; nia).
  destruct (Nat.ltb_spec p (npatterns ne (firstn k events))); [|lia]. destruct (Nat.ltb_spec p (npatterns ne events)); [|lia].
  destruct (p mod (ne + 1) =? 0)%nat; [|reflexivity]. f_equal.
  assert (D : (p / (ne + 1) < length (firstn k events))%nat) by (apply Nat.div_lt_upper_bound; [lia|]; unfold npatterns in H; lia).
  rewrite <- (firstn_skipn k events) at 2. rewrite app_nth1 by exact D. reflexivity.
Qed.
Lemma frame_firstn nmux nempty nlinks events k f : mux_ok nmux nempty nlinks ->
  (f < nmux * (npatterns (Z.abs_nat nempty) (firstn k events) / nmux))%nat ->
  frame nmux (links nmux nlinks) (pattern (Z.abs_nat nempty) (nempty <? 0) (firstn k events)) f = frame nmux (links nmux nlinks) (pattern (Z.abs_nat nempty) (nempty <? 0) events) f.
Proof.
  intros (H1 & H2 & H3 & _) H. unfold frame. f_equal. unfold clock. apply map_ext_in. intros w Hw. apply in_seq in Hw. unfold muxed. apply pattern_firstn.
  pose proof (mux_div MP7_NCHANN nmux H1 H2) as D. set (q := (MP7_NCHANN / nmux)%nat) in *. set (N := npatterns (Z.abs_nat nempty) (firstn k events)) in *.
  assert (W : (w / q < nmux)%nat) by (apply Nat.div_lt_upper_bound; nia).
  assert (F : (f / nmux < N / nmux)%nat) by (apply Nat.div_lt_upper_bound; lia).
  pose proof (Nat.mul_div_le N nmux ltac:(lia)). nia.
Qed.
Lemma few_firstn nempty events k : few nempty events -> few nempty (firstn k events).
Proof. unfold few, npatterns. rewrite firstn_length. intros H. nia. Qed.

Lemma nonl_board board : ~ In newline (chars board) -> nonl (chars board).
Proof. intros HB. apply Forall_forall. intros c Hc E. subst. contradiction. Qed.
Lemma links_small nmux nempty nlinks : mux_ok nmux nempty nlinks -> Z.of_nat (links nmux nlinks) < 2 ^ 32.
Proof. intros (_ & _ & H & _). rewrite NCH_144 in H. lia. Qed.

Lemma c95_mp7 board nmux nempty nlinks events k before closed p : mux_ok nmux nempty nlinks -> Forall event_ok events -> few nempty events -> ~ In newline (chars board) ->
  mp7_session true nmux nempty nlinks (firstn k events) = Ok (before, closed) -> begins p (mp7_text board (links nmux nlinks) before) ->
  exists lines, mp7_read p = Some lines /\ length lines = (lines_in p - 3)%nat /\
    forall f l, nth_error lines f = Some l -> l = frame nmux (links nmux nlinks) (pattern (Z.abs_nat nempty) (nempty <? 0) events) f.
Proof.
  intros HC HE HF HB S P. assert (HE' : Forall event_ok (firstn k events)) by (apply Forall_cut; exact HE).
  pose proof (few_firstn nempty events k HF) as HF'.
  rewrite (session_ok nmux nempty nlinks HC (firstn k events) (events_len _ HE') HF') in S. assert (EB : map (frame nmux (links nmux nlinks) (pattern (Z.abs_nat nempty) (nempty <? 0) (firstn k events))) (seq 0 (nmux * (npatterns (Z.abs_nat nempty) (firstn k events) / nmux))) = before) by (inversion S; reflexivity).
  pose proof (closed_ok nmux nempty nlinks HC (firstn k events) HE' HF') as LO. unfold closed_file in LO. apply Forall_app in LO as [LO _]. rewrite EB in LO.
  pose proof (mp7_read_text board (links nmux nlinks) before (nonl_board _ HB) (links_small _ _ _ HC) LO) as R.
  destruct (cut_read _ _ _ _ P R) as [E L]. exists (firstn (lines_in p - 3) before). split; [exact E|]. split; [exact L|].
  intros f l Hl. apply nth_error_firstn_lt in Hl as [Hl _]. rewrite <- EB, nth_error_map', nth_error_seq in Hl.
  destruct (Nat.ltb_spec f (nmux * (npatterns (Z.abs_nat nempty) (firstn k events) / nmux))) as [G|G]; [|discriminate]. cbn in Hl. injection Hl as <-. apply (frame_firstn nmux nempty nlinks); assumption.
Qed.

Lemma c95_mp7_closing board nmux nempty nlinks events before closed p : mux_ok nmux nempty nlinks -> Forall event_ok events -> few nempty events -> ~ In newline (chars board) ->
  mp7_session true nmux nempty nlinks events = Ok (before, closed) -> begins p (mp7_text board (links nmux nlinks) closed) ->
  mp7_read p = Some (firstn (lines_in p - 3) closed) /\ begins (mp7_text board (links nmux nlinks) before) (mp7_text board (links nmux nlinks) closed).
Proof.
  intros HC HE HF HB S P. pose proof (closed_ok nmux nempty nlinks HC events HE HF) as LO.
  rewrite (session_ok nmux nempty nlinks HC events (events_len _ HE) HF) in S.
  assert (E2 : closed_file nmux nempty nlinks events = closed) by (inversion S; reflexivity).
  assert (E1 : map (frame nmux (links nmux nlinks) (pattern (Z.abs_nat nempty) (nempty <? 0) events)) (seq 0 (nmux * (npatterns (Z.abs_nat nempty) events / nmux))) = before) by (inversion S; reflexivity).
  rewrite E2 in LO. pose proof (mp7_read_text board (links nmux nlinks) closed (nonl_board _ HB) (links_small _ _ _ HC) LO) as R. destruct (cut_read _ _ _ _ P R) as [E L].
  split; [exact E|]. unfold closed_file in E2. rewrite E1 in E2. rewrite <- E2. unfold mp7_text, begins. rewrite flat_map_app. eexists. rewrite app_assoc. reflexivity.
Qed.

(** word [j] of event [i] *)
Lemma c95_word nmux nempty nlinks events i j : mux_ok nmux nempty nlinks -> Forall event_ok events -> (i < length events)%nat -> (j < MP7_NCHANN)%nat ->
  let q := (i * (Z.abs_nat nempty + 1))%nat in
  let f := (q / nmux * nmux + j mod nmux)%nat in
  let w := (q mod nmux * (MP7_NCHANN / nmux) + j / nmux)%nat in
  (w < links nmux nlinks)%nat ->
  nth w (snd (frame nmux (links nmux nlinks) (pattern (Z.abs_nat nempty) (nempty <? 0) events) f)) 0 = nth j (nth i events []) 0.
Proof.
  intros (H1 & H2 & _ & _) HE Hi Hj q f w Hw. cbn [frame snd]. unfold clock.
  pose proof (mux_div MP7_NCHANN nmux H1 H2) as D. set (nc := (MP7_NCHANN / nmux)%nat) in *.
  rewrite (nth_indep _ 0 (muxed nmux (pattern (Z.abs_nat nempty) (nempty <? 0) events) f 0)) by (rewrite map_length, seq_length; exact Hw).
  rewrite map_nth, seq_nth by exact Hw. cbn [Nat.add]. unfold muxed. fold nc.
  assert (JD : (j / nmux < nc)%nat) by (apply Nat.div_lt_upper_bound; lia).
  assert (JM : (j mod nmux < nmux)%nat) by (apply Nat.mod_upper_bound; lia).
  assert (F1 : (f / nmux = q / nmux)%nat) by (unfold f; rewrite Nat.div_add_l by lia; rewrite (Nat.div_small (j mod nmux)) by exact JM; lia).
  assert (F2 : (f mod nmux = j mod nmux)%nat) by (unfold f; rewrite Nat.add_comm, Nat.mod_add by lia; apply Nat.mod_small; exact JM).
  assert (W1 : (w / nc = q mod nmux)%nat) by (unfold w; rewrite Nat.div_add_l by lia; rewrite (Nat.div_small (j / nmux)) by exact JD; lia).
  assert (W2 : (w mod nc = j / nmux)%nat) by (unfold w; rewrite Nat.add_comm, Nat.mod_add by lia; apply Nat.mod_small; exact JD).
  rewrite F1, F2, W1, W2. replace (q / nmux * nmux + q mod nmux)%nat with q by (pose proof (Nat.div_mod q nmux ltac:(lia)); lia).
  replace (j / nmux * nmux + j mod nmux)%nat with j by (pose proof (Nat.div_mod j nmux ltac:(lia)); lia).
  unfold pattern. destruct (Nat.ltb_spec q (npatterns (Z.abs_nat nempty) events)) as [G|G]; [|unfold q, npatterns in G; nia].
  unfold q. rewrite Nat.mod_mul, Nat.div_mul by lia. reflexivity.
Qed.
Lemma c95_mp7_event board nmux nempty nlinks events k before closed p : mux_ok nmux nempty nlinks -> Forall event_ok events -> few nempty events -> ~ In newline (chars board) ->
  mp7_session true nmux nempty nlinks (firstn k events) = Ok (before, closed) -> begins p (mp7_text board (links nmux nlinks) before) ->
  forall i j, (i < length events)%nat -> (j < MP7_NCHANN)%nat ->
  let q := (i * (Z.abs_nat nempty + 1))%nat in
  let f := (q / nmux * nmux + j mod nmux)%nat in
  let w := (q mod nmux * (MP7_NCHANN / nmux) + j / nmux)%nat in
  (w < links nmux nlinks)%nat -> (f + 3 < lines_in p)%nat ->
  exists lines l, mp7_read p = Some lines /\ nth_error lines f = Some l /\ fst l = Z.of_nat f /\ nth w (snd l) 0 = nth j (nth i events []) 0.
Proof.
  intros HC HE HF HB HS P i j Hi Hj q f w Hw Hf. destruct (c95_mp7 board nmux nempty nlinks events k before closed p HC HE HF HB HS P) as (lines & R & L & A).
  destruct (nth_error_lt lines f ltac:(lia)) as [l Hl]. exists lines, l. split; [exact R|]. split; [exact Hl|]. rewrite (A f l Hl). split; [reflexivity|].
  apply (c95_word nmux nempty nlinks events i j HC HE Hi Hj Hw).
Qed.

(** ** CTP7 files *)
Lemma c95_ctp7 isInput nmax calls k ls p : Z.of_nat nmax < 2 ^ 32 -> Forall (fun p => (snd p <= length (fst p))%nat /\ Forall (inU 32) (fst p)) calls ->
  ctp7_session true 1 (firstn k calls) = Ok ls -> begins p (ctp7_text isInput nmax ls) ->
  ctp7_read p = Some (map (ctp7_line calls) (seq 0 (lines_in p - 3))) /\ (lines_in p - 3 <= 1024)%nat.
Proof.
  intros HN HC HS P. assert (HC' := Forall_cut _ k calls HC). pose proof (ctp7_text_back isInput nmax (firstn k calls) ls HN HC' HS) as R. destruct (cut_read _ _ _ _ P R) as [E L].
  assert (M : (lines_in p - 3 <= Nat.min 1024 (6 * length (firstn k calls)))%nat) by (rewrite firstn_length, map_length, seq_length in L; lia).
  split; [|lia]. unfold ctp7_read. rewrite E. f_equal. rewrite firstn_map, cut_seq by exact M. apply map_ext_in. intros i Hi. apply in_seq in Hi. unfold ctp7_line.
  assert (D : (i / 6 < length (firstn k calls))%nat) by (apply Nat.div_lt_upper_bound; lia). rewrite <- (firstn_skipn k calls) at 2. rewrite app_nth1 by exact D. reflexivity.
Qed.

(** ** Files without a heading *)
Lemma cut_rows {A} (read : list ascii -> A) p text rows more : begins p text -> map read (split_lines [] text) = rows ->
  map read (split_lines [] p) = firstn (lines_in p) (rows ++ more) /\ (lines_in p <= length rows)%nat.
Proof.
  intros [rest ->] H. assert (L : (lines_in p <= length rows)%nat) by (rewrite <- H, map_length, lines_count, lines_in_app; lia).
  split; [|exact L]. rewrite (cut_lines p rest []), <- firstn_map, H, firstn_app. replace (lines_in p - length rows)%nat with 0%nat by lia. rewrite firstn_O, app_nil_r. reflexivity.
Qed.
Lemma concat_more {A B} (f : nat -> A -> list B) l m : exists more, List.concat (mapi f (l ++ m)) = List.concat (mapi f l) ++ more.
Proof.
  induction m as [|x m IH] using rev_ind; [exists []; rewrite !app_nil_r; reflexivity|]. destruct IH as [more E].
  rewrite app_assoc, mapi_snoc, concat_app, E. eexists. rewrite <- app_assoc. reflexivity.
Qed.
Lemma mapi_more {A B} (f : nat -> A -> B) l m : exists more, mapi f (l ++ m) = mapi f l ++ more.
Proof.
  induction m as [|x m IH] using rev_ind; [exists []; rewrite !app_nil_r; reflexivity|]. destruct IH as [more E].
  rewrite app_assoc, mapi_snoc, E. eexists. rewrite <- app_assoc. reflexivity.
Qed.
Lemma numbered_more {T} (rows : T -> list (list Z)) l m : exists more, numbered (flat_map rows (l ++ m)) = numbered (flat_map rows l) ++ more.
Proof. unfold numbered. rewrite flat_map_app. apply mapi_more. Qed.

Lemma c95_hr c events k text p : cfg_fits c -> Forall (hrev_sized c) events -> Forall hrev_ok events -> Z.of_nat (length events) < 2 ^ 32 ->
  hr_session true (firstn k events) = Ok text -> begins p text -> read_table p = firstn (lines_in p) (table events).
Proof.
  intros HC HS HO HL E P. destruct (table_text c (firstn k events) HC (Forall_cut _ k _ HS) (Forall_cut _ k _ HO)) as (t & T & R); [rewrite firstn_length; lia|]. rewrite E in T. injection T as <-.
  destruct (concat_more event_rows (firstn k events) (skipn k events)) as [more M]. rewrite firstn_skipn in M. unfold table. rewrite M. apply (cut_rows _ _ _ _ more P R).
Qed.

Lemma c95_reg_in c junk work g st0 evs code tests k text p : memory_ok c st0 -> (forall t, dims3 12 3 7 (work t)) -> Forall event_wf evs ->
  reg_main c (Ok true) junk work g st0 (Some (dump evs)) = Ok (code, tests) ->
  dump_in_file c (firstn k tests) = Ok text -> begins p text -> read_frames p = firstn (lines_in p) (in_table c tests).
Proof.
  intros HM HW HE R E P. destruct (run_facts _ _ _ _ _ _ _ _ HM HW HE R) as [F _]. destruct (tests_facts _ _ _ F) as (S & K & L).
  destruct (c59_in c (firstn k tests)) as (t & T & Q); [apply few50; rewrite firstn_length; lia|apply Forall_cut; assumption..|]. rewrite E in T. injection T as <-.
  unfold in_table, frames in *. destruct (concat_more (fun k t => map (fun ic => Some (Z.of_nat (36 * k + ic + 1), in_vals c (Datatypes.S k) t ic)) (seq 0 36)) (firstn k tests) (skipn k tests)) as [more M].
  rewrite firstn_skipn in M. rewrite M. apply (cut_rows _ _ _ _ more P Q).
Qed.
Lemma c95_reg_out c junk work g st0 evs code tests k text p : memory_ok c st0 -> (forall t, dims3 12 3 7 (work t)) -> Forall event_wf evs ->
  reg_main c (Ok true) junk work g st0 (Some (dump evs)) = Ok (code, tests) ->
  dump_out_file c (firstn k tests) = Ok text -> begins p text -> read_frames p = firstn (lines_in p) (out_table tests).
Proof.
  intros HM HW HE R E P. destruct (run_facts _ _ _ _ _ _ _ _ HM HW HE R) as [F _]. destruct (tests_facts _ _ _ F) as (S & K & L).
  destruct (c59_out c (firstn k tests)) as (t & T & Q); [apply few50; rewrite firstn_length; lia|apply Forall_cut; assumption..|]. rewrite E in T. injection T as <-.
  unfold out_table, frames in *. destruct (concat_more (fun k t => map (fun ic => Some (Z.of_nat (36 * k + ic + 1), region_vals t (ic / 2))) (seq 0 36)) (firstn k tests) (skipn k tests)) as [more M].
  rewrite firstn_skipn in M. rewrite M. apply (cut_rows _ _ _ _ more P Q).
Qed.
Lemma c95_bhv_in g arr tmp evs code nerr tests k text p : dims2 24 18 arr -> length tmp = 36%nat -> Forall event_wf evs -> bhv_main (Ok true) g arr tmp (Some (dump evs)) = Ok (code, nerr, tests) ->
  bhv_in_file (firstn k tests) = Ok text -> begins p text -> read_frames p = firstn (lines_in p) (bhv_in_table tests).
Proof.
  intros D L HE R E P. destruct (c62_sized _ _ _ _ _ _ _ D L HE R) as [HS N].
  destruct (c62_in_text (firstn k tests) (Forall_cut _ k _ HS)) as (t & T & Q); [rewrite firstn_length; lia|]. rewrite E in T. injection T as <-.
  unfold bhv_in_table in *. match type of Q with _ = numbered (flat_map ?f _) => destruct (numbered_more f (firstn k tests) (skipn k tests)) as [more M] end. rewrite firstn_skipn in M. rewrite M. apply (cut_rows _ _ _ _ more P Q).
Qed.
Lemma c95_bhv_out g arr tmp evs code nerr tests k text p : dims2 24 18 arr -> length tmp = 36%nat -> Forall event_wf evs -> bhv_main (Ok true) g arr tmp (Some (dump evs)) = Ok (code, nerr, tests) ->
  bhv_out_file (firstn k tests) = Ok text -> begins p text -> read_frames p = firstn (lines_in p) (bhv_out_table tests).
Proof.
  intros D L HE R E P. destruct (c62_sized _ _ _ _ _ _ _ D L HE R) as [HS N].
  destruct (c62_out_text (firstn k tests) (Forall_cut _ k _ HS)) as (t & T & Q); [rewrite firstn_length; lia|]. rewrite E in T. injection T as <-.
  unfold bhv_out_table in *. match type of Q with _ = numbered (flat_map ?f _) => destruct (numbered_more f (firstn k tests) (skipn k tests)) as [more M] end. rewrite firstn_skipn in M. rewrite M. apply (cut_rows _ _ _ _ more P Q).
Qed.
