(** The human-readable pattern file: rows, recovery. *)
From Coq Require Import Ascii String.
From Verif Require Import Base BaseFacts Data PFHw SerText SerTextFacts Printf HumanRead SpecHR HRFacts MapiFacts InsertFacts.
Local Open Scope string_scope.
Local Open Scope list_scope.
Local Open Scope Z_scope.

Ltac expand_printf :=
  match goal with |- context [printf ?f ?a] => let t := eval lazy -[conv app Z.of_nat h_pt h_empt h_eta h_phi h_isem b2z e_pt e_pterr e_eta e_phi t_pt t_pterr t_eta t_phi t_z0 m_pt m_pterr m_eta m_phi c_pt c_eta c_phi c_id c_z0 n_pt n_eta n_phi n_id] in (printf f a) in change (printf f a) with t end.
Ltac read_words :=
  repeat (cbn [split_words Ascii.eqb Bool.eqb app];
          first [rewrite words_conv_comma by assumption | rewrite words_conv_colon by assumption | rewrite words_conv by assumption | rewrite app_nil_r, words_conv_end by assumption]);
  cbn [split_words Ascii.eqb Bool.eqb app].
Ltac read_ints :=
  repeat first [apply row_int; [assumption|] | apply row_int_comma; [assumption|] | apply row_int_colon; [assumption|] | apply row_label; [reflexivity|] | reflexivity].
Ltac line_row := unfold read_row; expand_printf; match goal with |- context [split_words [] ?s] => change (row_words (split_words [] s) = _) || idtac end; read_words; fold (row_words); read_ints.
Ltac line_nonl := expand_printf; rewrite ?app_nil_r; repeat first [apply Forall_nil | apply conv_nonl; assumption | apply Forall_cons; [discriminate|] | apply nonl_app; [apply conv_nonl; assumption|]].

Section lines.
Variables (a b c d e f : Z).
Hypothesis (Ha : small a) (Hb : small b) (Hc : small c) (Hd : small d) (He : small e) (Hf : small f).
Lemma p_had : let s := printf "   calo  %3d, hwPt % 7d   hwEmPt  % 7d    hwEta %+7d   hwPhi %+7d   hwIsEM %1d" [a; b; c; d; e; f] in
  nonl s /\ read_row s = (["calo"; "hwPt"; "hwEmPt"; "hwEta"; "hwPhi"; "hwIsEM"], [a; b; c; d; e; f]).
Proof. cbv zeta. split; [line_nonl|line_row]. Qed.
Lemma p_em : let s := printf "   em    %3d, hwPt % 7d   hwPtErr % 7d    hwEta %+7d   hwPhi %+7d" [a; b; c; d; e] in
  nonl s /\ read_row s = (["em"; "hwPt"; "hwPtErr"; "hwEta"; "hwPhi"], [a; b; c; d; e]).
Proof. cbv zeta. split; [line_nonl|line_row]. Qed.
Lemma p_tk : let s := printf "   track %3d, hwPt % 7d   hwPtErr % 7d    hwEta %+7d   hwPhi %+7d     hwZ0 %+7d" [a; b; c; d; e; f] in
  nonl s /\ read_row s = (["track"; "hwPt"; "hwPtErr"; "hwEta"; "hwPhi"; "hwZ0"], [a; b; c; d; e; f]).
Proof. cbv zeta. split; [line_nonl|line_row]. Qed.
Lemma p_mu : let s := printf "   muon  %3d, hwPt % 7d   hwPtErr % 7d    hwEta %+7d   hwPhi %+7d" [a; b; c; d; e] in
  nonl s /\ read_row s = (["muon"; "hwPt"; "hwPtErr"; "hwEta"; "hwPhi"], [a; b; c; d; e]).
Proof. cbv zeta. split; [line_nonl|line_row]. Qed.
Lemma p_ch : let s := printf "   charged pf %3d, hwPt % 7d   hwEta %+7d   hwPhi %+7d   hwId %1d      hwZ0 %+7d" [a; b; c; d; e; f] in
  nonl s /\ read_row s = (["charged"; "pf"; "hwPt"; "hwEta"; "hwPhi"; "hwId"; "hwZ0"], [a; b; c; d; e; f]).
Proof. cbv zeta. split; [line_nonl|line_row]. Qed.
Lemma p_pho : let s := printf "   photon  pf %3d, hwPt % 7d   hwEta %+7d   hwPhi %+7d   hwId %1d" [a; b; c; d; e] in
  nonl s /\ read_row s = (["photon"; "pf"; "hwPt"; "hwEta"; "hwPhi"; "hwId"], [a; b; c; d; e]).
Proof. cbv zeta. split; [line_nonl|line_row]. Qed.
Lemma p_ne : let s := printf "   neutral pf %3d, hwPt % 7d   hwEta %+7d   hwPhi %+7d   hwId %1d" [a; b; c; d; e] in
  nonl s /\ read_row s = (["neutral"; "pf"; "hwPt"; "hwEta"; "hwPhi"; "hwId"], [a; b; c; d; e]).
Proof. cbv zeta. split; [line_nonl|line_row]. Qed.
Lemma p_pfmu : let s := printf "   muon    pf %3d, hwPt % 7d   hwEta %+7d   hwPhi %+7d   hwId %1d" [a; b; c; d; e] in
  nonl s /\ read_row s = (["muon"; "pf"; "hwPt"; "hwEta"; "hwPhi"; "hwId"], [a; b; c; d; e]).
Proof. cbv zeta. split; [line_nonl|line_row]. Qed.
Lemma p_frame : let s := printf "Frame %04u:" [a] in nonl s /\ read_row s = (["Frame"], [a]).
Proof. cbv zeta. split; [line_nonl|line_row]. Qed.
End lines.

(** ** The text of a session *)
Lemma put_lines {A} (line : nat -> A -> list ascii) l : forall n t, foldM (fun s p => hr_put s (line (fst p) (snd p))) (indexed l) (mkHr true n t) = Ok (mkHr true n (t ++ concat (mapi line l))).
Proof.
  unfold mapi. generalize (indexed l). clear l. intros l n. induction l as [|p l IH]; intros t; cbn [foldM map concat]; [rewrite app_nil_r; reflexivity|].
  unfold hr_put at 1. cbn [hs_open hs_n hs_text bind]. rewrite IH, app_assoc. reflexivity.
Qed.
Definition ev_text (n : Z) (e : hrev) : list ascii :=
  printf_nl "Frame %04u:" [n] ++ concat (mapi had_line (he_had e)) ++ concat (mapi em_line (he_em e)) ++ concat (mapi tk_line (he_tk e)) ++ concat (mapi mu_line (he_mu e)) ++
  concat (mapi ch_line (o_ch (he_out e))) ++ concat (mapi pho_line (o_pho (he_out e))) ++ concat (mapi ne_line (o_ne (he_out e))) ++ concat (mapi pfmu_line (o_mu (he_out e))) ++ [newline].
Lemma call_text n t e : hr_call (mkHr true n t) e = Ok (mkHr true (wrapU 32 (n + 1)) (t ++ ev_text n e)).
Proof.
  unfold hr_call, hr_dump_inputs, hr_dump_outputs, hr_dump_hadcalo, hr_dump_emcalo, hr_dump_track, hr_dump_mu, ev_text. cbn [hs_open hs_n].
  unfold hr_put at 1. cbn [hs_open hs_n hs_text bind].
  repeat (rewrite put_lines; cbn [bind]). unfold hr_put. cbn [hs_open hs_n hs_text bind]. rewrite <- !app_assoc. reflexivity.
Qed.
Lemma session_text events : Z.of_nat (length events) < 2 ^ 32 -> hr_session true events = Ok (concat (mapi (fun n => ev_text (Z.of_nat n)) events)).
Proof.
  intros H. unfold hr_session, hr_new.
  assert (G : foldM hr_call events (mkHr true 0 []) = Ok (mkHr true (Z.of_nat (length events) mod 2 ^ 32) (concat (mapi (fun n => ev_text (Z.of_nat n)) events)))).
  { revert H. induction events as [|e events IH] using rev_ind; [reflexivity|]. rewrite app_length. cbn [length]. intros H.
    rewrite foldM_app, IH by lia. cbn [bind foldM]. rewrite call_text, mapi_snoc, concat_app. cbn [concat]. rewrite app_nil_r. cbn [bind]. rewrite Z.mod_small by lia.
    do 2 f_equal. unfold wrapU. rewrite Nat2Z.inj_add. reflexivity. }
  rewrite G. reflexivity.
Qed.
Lemma session_unnamed events : hr_session false events = Ok [].
Proof. unfold hr_session, hr_new. assert (G : foldM hr_call events (mkHr false 0 []) = Ok (mkHr false 0 [])) by (induction events as [|e l IH]; [reflexivity|exact IH]). rewrite G. reflexivity. Qed.

(** a text made of lines that read as given rows *)
Definition reads (text : list ascii) (rows : list row) : Prop := forall rest, read_table (text ++ rest) = rows ++ read_table rest.
Lemma reads_nil : reads [] [].
Proof. intros rest. reflexivity. Qed.
Lemma reads_app t r t' r' : reads t r -> reads t' r' -> reads (t ++ t') (r ++ r').
Proof. intros H H' rest. rewrite <- !app_assoc, H, H'. reflexivity. Qed.
Lemma reads_line s rw : nonl s -> read_row s = rw -> reads (s ++ [newline]) [rw].
Proof. intros H <- rest. unfold read_table. rewrite <- app_assoc. cbn [app]. rewrite split_line by exact H. reflexivity. Qed.
Lemma reads_mapi {A} (line : nat -> A -> list ascii) (rw : nat -> A -> row) l :
  (forall i x, nth_error l i = Some x -> reads (line i x) [rw i x]) -> reads (concat (mapi line l)) (mapi rw l).
Proof.
  induction l as [|x l IH] using rev_ind; intros H; [apply reads_nil|]. rewrite !mapi_snoc, concat_app. cbn [concat]. rewrite app_nil_r. apply reads_app.
  - apply IH. intros i y Hy. apply H. rewrite nth_error_app1; [exact Hy|apply nth_error_Some; congruence].
  - apply H. rewrite nth_error_app2, Nat.sub_diag; [reflexivity|lia].
Qed.
Lemma reads_mapis {A} (line : nat -> A -> list ascii) (rws : nat -> A -> list row) l :
  (forall i x, nth_error l i = Some x -> reads (line i x) (rws i x)) -> reads (concat (mapi line l)) (concat (mapi rws l)).
Proof.
  induction l as [|x l IH] using rev_ind; intros H; [apply reads_nil|]. rewrite !mapi_snoc, !concat_app. cbn [concat]. rewrite !app_nil_r. apply reads_app.
  - apply IH. intros i y Hy. apply H. rewrite nth_error_app1; [exact Hy|apply nth_error_Some; congruence].
  - apply H. rewrite nth_error_app2, Nat.sub_diag; [reflexivity|lia].
Qed.

Lemma small16 x : inS 16 x -> small x.
Proof. unfold inS, small. lia. Qed.
Lemma small10 x : inS 10 x -> small x.
Proof. unfold inS, small. lia. Qed.
Lemma small3 x : inU 3 x -> small x.
Proof. unfold inU, small. lia. Qed.
Lemma smallb b : small (b2z b).
Proof. unfold small. destruct b; cbn; lia. Qed.
Lemma small_idx {A} (l : list A) i x : Z.of_nat (length l) < 2 ^ 32 -> nth_error l i = Some x -> small (Z.of_nat i).
Proof. intros H E. assert (i < length l)%nat by (apply nth_error_Some; congruence). unfold small. lia. Qed.

(** arrays of fewer than 2^32 objects *)
Definition hrev_fits (e : hrev) : Prop :=
  Forall (fun n => Z.of_nat n < 2 ^ 32) [length (he_em e); length (he_had e); length (he_tk e); length (he_mu e); length (o_ch (he_out e)); length (o_pho (he_out e)); length (o_ne (he_out e)); length (o_mu (he_out e))].
Ltac smalls := first [assumption | apply small16; assumption | apply small10; assumption | apply small3; assumption | apply smallb].
Lemma event_reads n e : hrev_ok e -> hrev_fits e -> Z.of_nat n < 2 ^ 32 -> reads (ev_text (Z.of_nat n) e) (event_rows n e).
Proof.
  intros (O1 & O2 & O3 & O4 & O5 & O6 & O7 & O8) HF Hn. unfold hrev_fits in HF. rewrite !Forall_cons_iff in HF. destruct HF as (F1 & F2 & F3 & F4 & F5 & F6 & F7 & F8 & _).
  rewrite Forall_forall in O1, O2, O3, O4, O5, O6, O7, O8. unfold ev_text, event_rows.
  repeat apply reads_app.
  - assert (Hs : small (Z.of_nat n)) by (unfold small; lia). destruct (p_frame (Z.of_nat n) Hs) as (A & B). apply reads_line; assumption.
  - apply reads_mapi. intros i o Ho. pose proof (small_idx _ _ _ F2 Ho) as Hi. destruct (O2 o (nth_error_In _ _ Ho)) as (R1 & R2 & R3 & R4).
    destruct (p_had (Z.of_nat i) (h_pt o) (h_empt o) (h_eta o) (h_phi o) (b2z (h_isem o))) as (A & B); try smalls. apply reads_line; [exact A|]. rewrite B. unfold had_row. destruct (h_isem o); reflexivity.
  - apply reads_mapi. intros i o Ho. pose proof (small_idx _ _ _ F1 Ho) as Hi. destruct (O1 o (nth_error_In _ _ Ho)) as (R1 & R2 & R3 & R4).
    destruct (p_em (Z.of_nat i) (e_pt o) (e_pterr o) (e_eta o) (e_phi o)) as (A & B); try smalls. apply reads_line; assumption.
  - apply reads_mapi. intros i o Ho. pose proof (small_idx _ _ _ F3 Ho) as Hi. destruct (O3 o (nth_error_In _ _ Ho)) as (R1 & R2 & R3 & R4 & R5).
    destruct (p_tk (Z.of_nat i) (t_pt o) (t_pterr o) (t_eta o) (t_phi o) (t_z0 o)) as (A & B); try smalls. apply reads_line; assumption.
  - apply reads_mapi. intros i o Ho. pose proof (small_idx _ _ _ F4 Ho) as Hi. destruct (O4 o (nth_error_In _ _ Ho)) as (R1 & R2 & R3 & R4).
    destruct (p_mu (Z.of_nat i) (m_pt o) (m_pterr o) (m_eta o) (m_phi o)) as (A & B); try smalls. apply reads_line; assumption.
  - apply reads_mapi. intros i o Ho. pose proof (small_idx _ _ _ F5 Ho) as Hi. destruct (O5 o (nth_error_In _ _ Ho)) as (R1 & R2 & R3 & R4 & R5).
    destruct (p_ch (Z.of_nat i) (c_pt o) (c_eta o) (c_phi o) (c_id o) (c_z0 o)) as (A & B); try smalls. apply reads_line; assumption.
  - apply reads_mapi. intros i o Ho. pose proof (small_idx _ _ _ F6 Ho) as Hi. destruct (O6 o (nth_error_In _ _ Ho)) as (R1 & R2 & R3 & R4).
    destruct (p_pho (Z.of_nat i) (n_pt o) (n_eta o) (n_phi o) (n_id o)) as (A & B); try smalls. apply reads_line; assumption.
  - apply reads_mapi. intros i o Ho. pose proof (small_idx _ _ _ F7 Ho) as Hi. destruct (O7 o (nth_error_In _ _ Ho)) as (R1 & R2 & R3 & R4).
    destruct (p_ne (Z.of_nat i) (n_pt o) (n_eta o) (n_phi o) (n_id o)) as (A & B); try smalls. apply reads_line; assumption.
  - apply reads_mapi. intros i o Ho. pose proof (small_idx _ _ _ F8 Ho) as Hi. destruct (O8 o (nth_error_In _ _ Ho)) as (R1 & R2 & R3 & R4 & R5).
    destruct (p_pfmu (Z.of_nat i) (c_pt o) (c_eta o) (c_phi o) (c_id o)) as (A & B); try smalls. apply reads_line; assumption.
  - apply (reads_line []); [constructor|reflexivity].
Qed.

Lemma sized_fits c e : cfg_fits c -> hrev_sized c e -> hrev_fits e.
Proof.
  unfold cfg_fits, hrev_fits. rewrite !Forall_cons_iff. intros (H1 & H2 & H3 & H4 & H5 & _) (S1 & S2 & S3 & S4 & S5 & S6 & S7 & S8). rewrite S1, S2, S3, S4, S5, S6, S7, S8. repeat split; auto.
Qed.

Lemma table_text c events : cfg_fits c -> Forall (hrev_sized c) events -> Forall hrev_ok events -> Z.of_nat (length events) < 2 ^ 32 ->
  exists text, hr_session true events = Ok text /\ read_table text = table events.
Proof.
  intros HC HS HO HL. eexists. split; [apply session_text; exact HL|].
  assert (R : reads (concat (mapi (fun n => ev_text (Z.of_nat n)) events)) (table events)).
  { apply reads_mapis. intros i e He. rewrite Forall_forall in HS, HO. pose proof (nth_error_In _ _ He) as Hi. apply event_reads; [apply HO; exact Hi|apply (sized_fits c); [exact HC|apply HS; exact Hi]|].
    assert (i < length events)%nat by (apply nth_error_Some; congruence). lia. }
  specialize (R []). rewrite app_nil_r in R. rewrite R. unfold read_table. cbn. apply app_nil_r.
Qed.

(** ** The rows determine what is printed *)
Lemma mapi_inj {A B} (f g : nat -> A -> B) (h : A -> A) l : forall l' , (forall i x y, f i x = f i y -> h x = h y) -> length l = length l' -> mapi f l = mapi f l' -> map h l = map h l'.
Proof.
  induction l as [|x l IH] using rev_ind; intros l' H HL HE.
  - destruct l'; [reflexivity|discriminate].
  - destruct l' as [|y l' _] using rev_ind; [rewrite app_length in HL; cbn in HL; lia|]. rewrite !app_length in HL. cbn [length] in HL.
    rewrite !mapi_snoc in HE. apply app_inj_tail in HE as [E1 E2]. assert (HL' : length l = length l') by lia. rewrite HL' in E2.
    rewrite !map_app. cbn [map]. rewrite (IH l' H HL' E1), (H _ _ _ E2). reflexivity.
Qed.
Lemma app_inj_len {A} (a b c d : list A) : length a = length c -> a ++ b = c ++ d -> a = c /\ b = d.
Proof.
  revert c. induction a as [|x a IH]; intros [|y c] L E; cbn in *; try discriminate; [auto|]. injection E as -> E. injection L as L. destruct (IH c L E) as [-> ->]. auto.
Qed.
Lemma map_same {A} (l : list A) : map (fun x => x) l = l.
Proof. apply map_id. Qed.

Ltac cut H name := apply app_inj_len in H as [name H]; [|rewrite !length_mapi; congruence].
Lemma rows_inj c n e e' : hrev_sized c e -> hrev_sized c e' -> event_rows n e = event_rows n e' -> printed e = printed e'.
Proof.
  intros (S1 & S2 & S3 & S4 & S5 & S6 & S7 & S8) (T1 & T2 & T3 & T4 & T5 & T6 & T7 & T8) E. unfold event_rows in E. apply app_inj_len in E as [_ E]; [|reflexivity].
  cut E E1. cut E E2. cut E E3. cut E E4. cut E E5. cut E E6. cut E E7. cut E E8. unfold printed.
  apply (mapi_inj _ had_row (fun x => x)) in E1; [|intros i [] []; unfold had_row; cbn; intros X; injection X as; repeat match goal with H : (if ?b then 1 else 0) = (if ?b' then 1 else 0) |- _ => destruct b, b'; try discriminate H; clear H end; congruence|congruence].
  apply (mapi_inj _ em_row (fun x => x)) in E2; [|intros i [] []; unfold em_row; cbn; congruence|congruence].
  apply (mapi_inj _ tk_row (fun t => mkTk (t_pt t) (t_pterr t) (t_eta t) (t_phi t) (t_z0 t) false)) in E3; [|intros i [] []; unfold tk_row; cbn; congruence|congruence].
  apply (mapi_inj _ mu_row (fun x => x)) in E4; [|intros i [] []; unfold mu_row; cbn; congruence|congruence].
  apply (mapi_inj _ ch_row (fun x => x)) in E5; [|intros i [] []; unfold ch_row; cbn; congruence|congruence].
  apply (mapi_inj _ (ne_row "photon") (fun n => mkNe (n_pt n) (n_eta n) (n_phi n) (n_id n) 0)) in E6; [|intros i [] []; unfold ne_row; cbn; congruence|congruence].
  apply (mapi_inj _ (ne_row "neutral") (fun n => mkNe (n_pt n) (n_eta n) (n_phi n) (n_id n) 0)) in E7; [|intros i [] []; unfold ne_row; cbn; congruence|congruence].
  apply (mapi_inj _ pfmu_row (fun c => mkCh (c_pt c) (c_eta c) (c_phi c) (c_id c) 0)) in E8; [|intros i [] []; unfold pfmu_row; cbn; congruence|congruence].
  rewrite !map_same in *. congruence.
Qed.
Lemma rows_length c n e : hrev_sized c e -> length (event_rows n e) = (2 + NCALO c + 2 * NEMCALO c + 2 * NTRACK c + 2 * NMU c + NSELCALO c)%nat.
Proof. intros (S1 & S2 & S3 & S4 & S5 & S6 & S7 & S8). unfold event_rows. rewrite !app_length, !length_mapi, S1, S2, S3, S4, S5, S6, S7, S8. cbn [length]. lia. Qed.

Lemma table_inj c evs : forall evs', Forall (hrev_sized c) evs -> Forall (hrev_sized c) evs' -> table evs = table evs' -> map printed evs = map printed evs'.
Proof.
  unfold table. set (K := (2 + NCALO c + 2 * NEMCALO c + 2 * NTRACK c + 2 * NMU c + NSELCALO c)%nat). assert (HK : (0 < K)%nat) by (unfold K; lia).
  assert (LEN : forall (l : list hrev), Forall (hrev_sized c) l -> length (concat (mapi event_rows l)) = (K * length l)%nat).
  { intros l. induction l as [|x l IH] using rev_ind; intros H; [cbn; lia|]. apply Forall_app in H as [H Hx]. inversion Hx; subst.
    rewrite mapi_snoc, concat_app, app_length, IH, app_length by exact H. cbn [concat length]. rewrite app_nil_r, (rows_length c) by assumption. fold K. lia. }
  induction evs as [|x evs IH] using rev_ind; intros evs' HS HS' E.
  - destruct evs' as [|y evs']; [reflexivity|]. apply (f_equal (@length row)) in E. rewrite (LEN (y :: evs')) in E by exact HS'. cbn in E. lia.
  - destruct evs' as [|y evs' _] using rev_ind.
    + apply (f_equal (@length row)) in E. rewrite (LEN (evs ++ [x])) in E by exact HS. rewrite app_length in E. cbn in E. lia.
    + assert (HL : length evs = length evs').
      { apply (f_equal (@length row)) in E. rewrite !LEN, !app_length in E by assumption. cbn [length] in E. assert (length evs + 1 = length evs' + 1)%nat by (apply (Nat.mul_cancel_l _ _ K); [lia|exact E]). lia. }
      apply Forall_app in HS as [HS Hx], HS' as [HS' Hy]. inversion Hx; subst. inversion Hy; subst.
      rewrite !mapi_snoc, !concat_app in E. cbn [concat] in E. rewrite !app_nil_r in E. apply app_inj_len in E as [E1 E2]; [|rewrite !LEN, HL by assumption; reflexivity].
      rewrite HL in E2. rewrite !map_app. cbn [map]. rewrite (IH evs' HS HS' E1), (rows_inj c (length evs') x y) by assumption. reflexivity.
Qed.

Lemma text_determines c evs evs' : cfg_fits c -> Forall (hrev_sized c) evs -> Forall (hrev_sized c) evs' -> Forall hrev_ok evs -> Forall hrev_ok evs' ->
  Z.of_nat (length evs) < 2 ^ 32 -> Z.of_nat (length evs') < 2 ^ 32 -> hr_session true evs = hr_session true evs' -> map printed evs = map printed evs'.
Proof.
  intros HC S S' O O' L L' E. destruct (table_text c evs HC S O L) as (t & T1 & T2). destruct (table_text c evs' HC S' O' L') as (t' & T1' & T2').
  apply (table_inj c); try assumption. rewrite <- T2, <- T2'. congruence.
Qed.
