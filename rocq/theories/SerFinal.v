(** Property statements for C43-C46 in terms of whole sessions. *)
From Coq Require Import Ascii String.
From Verif Require Import Base BaseFacts Data TabFacts Serializer SpecSer SerFacts SerText SpecSerFile SerTextFacts SerProofs SerRecover.
Local Open Scope list_scope.

Lemma events_len events : Forall event_ok events -> Forall (fun e => length e = MP7_NCHANN) events.
Proof. apply Forall_impl. intros e [H _]. exact H. Qed.

Lemma NCH_144 : MP7_NCHANN = 144%nat.
Proof. reflexivity. Qed.
Local Opaque MP7_NCHANN.

Lemma c43_layout nmux nempty nlinks events : mux_ok nmux nempty nlinks -> Forall event_ok events -> few nempty events ->
  let pat := pattern (Z.abs_nat nempty) (nempty <? 0) events in
  let complete := (nmux * (npatterns (Z.abs_nat nempty) events / nmux))%nat in
  exists closed, mp7_session true nmux nempty nlinks events = Ok (map (frame nmux (links nmux nlinks) pat) (seq 0 complete), closed).
Proof. intros HC HE HF. eexists. apply session_ok; [exact HC|apply events_len; exact HE|exact HF]. Qed.

Lemma c43_nomux nlinks events : (links 1 nlinks <= MP7_NCHANN)%nat -> Forall event_ok events -> few 0 events ->
  let file := map (fun i => (Z.of_nat i, firstn (links 1 nlinks) (nth i events []))) (seq 0 (length events)) in
  mp7_session true 1 0 nlinks events = Ok (file, file).
Proof.
  intros HL HE HF file. assert (HC : mux_ok 1 0 nlinks) by (split; [lia|]; split; [apply Nat.mod_1_r|]; split; [exact HL|cbn; lia]).
  rewrite (session_ok 1 0 nlinks HC events (events_len _ HE) HF).
  unfold closed_file. change (Z.abs_nat 0) with 0%nat. set (N := npatterns 0 events).
  assert (EN : N = length events) by (unfold N, npatterns; lia).
  rewrite Nat.mod_1_r. cbn [Nat.eqb]. rewrite app_nil_r, Nat.div_1_r, Nat.mul_1_l, EN.
  assert (F : map (frame 1 (links 1 nlinks) (pattern 0 (0 <? 0) events)) (seq 0 (length events)) = file); [|rewrite F; reflexivity].
  apply map_ext_in. intros i Hi. apply in_seq in Hi. unfold frame, clock. f_equal.
  assert (LE : length (nth i events []) = MP7_NCHANN) by (rewrite Forall_forall in HE; apply HE; apply nth_In; lia).
  set (e := nth i events []) in *. set (nl := links 1 nlinks) in *.
  apply nth_error_ext. intros w. rewrite nth_error_map', nth_error_seq. destruct (Nat.ltb_spec w nl) as [G|G].
  - cbn [option_map Nat.add]. unfold muxed. rewrite !Nat.div_1_r, Nat.mod_1_r, !Nat.mul_1_r, Nat.add_0_r.
    rewrite (Nat.div_small w), (Nat.mod_small w), Nat.add_0_r by lia. unfold pattern. fold N. destruct (Nat.ltb_spec i N); [|lia].
    cbn [Nat.add]. rewrite Nat.mod_1_r, Nat.div_1_r. cbn [Nat.eqb]. fold e. destruct (nth_error_lt e w ltac:(lia)) as [x Ex]. rewrite (nth_error_nth _ _ _ Ex).
    symmetry. rewrite <- Ex. clearbody e nl. clear - G. revert w nl G. induction e as [|y e IH]; intros [|w] [|n] G; cbn; try reflexivity; try lia. apply IH. lia.
  - symmetry. apply nth_error_None. rewrite firstn_length. lia.
Qed.

Lemma c43_constructor named nmux nempty nlinks events : Z.abs nempty < 2 ^ 31 -> nmux = 0%nat \/ (MP7_NCHANN mod nmux <> 0)%nat ->
  mp7_session named nmux nempty nlinks events = UB (if (nmux =? 0)%nat then DivByZero else AssertFail).
Proof.
  intros HN HM. unfold mp7_session, mp7_open. destruct (Nat.eqb_spec nmux 0) as [E|E]; [reflexivity|]. destruct HM as [HM|HM]; [contradiction|].
  destruct (Nat.eqb_spec (MP7_NCHANN mod nmux) 0) as [E2|E2]; [contradiction|].
  rewrite i32_Ok by lia. cbn [bind]. destruct (Nat.ltb_spec 1 nmux); [reflexivity|]. assert (nmux = 1%nat) by lia. subst. rewrite Nat.mod_1_r in E2. contradiction.
Qed.

Lemma c44_words nmux nempty nlinks events : mux_ok nmux nempty nlinks -> Forall event_ok events -> few nempty events ->
  let pat := pattern (Z.abs_nat nempty) (nempty <? 0) events in
  let n := npatterns (Z.abs_nat nempty) events in
  exists before closed, mp7_session true nmux nempty nlinks events = Ok (before, closed) /\
    map snd closed = map (clock nmux (links nmux nlinks) pat) (seq 0 (nmux * ((n + nmux - 1) / nmux))) /\
    (closed = map (frame nmux (links nmux nlinks) pat) (seq 0 (nmux * ((n + nmux - 1) / nmux))) <-> (n mod nmux = 0 \/ n mod nmux = nmux - 1)%nat).
Proof.
  intros HC HE HF pat n. eexists _, _. split; [apply session_ok; [exact HC|apply events_len; exact HE|exact HF]|].
  split; [apply (closed_words nmux nempty nlinks HC)|]. apply (closed_numbers nmux nempty nlinks HC). exact HF.
Qed.

Lemma c45_iff board nmux nempty nlinks : mux_ok nmux nempty nlinks -> ~ In newline (chars board) -> Z.of_nat (nmux * (Z.abs_nat nempty + 1)) < 2 ^ 32 ->
  (recoverable board nmux nempty nlinks <-> (reach nmux (Z.abs_nat nempty) * (MP7_NCHANN / nmux) <= links nmux nlinks)%nat).
Proof.
  intros HC HB HS.
  assert (NB : nonl (chars board)) by (apply Forall_forall; intros c Hc E; subst; contradiction). split.
  - intros R. destruct (Nat.le_gt_cases (reach nmux (Z.abs_nat nempty) * (MP7_NCHANN / nmux)) (links nmux nlinks)) as [G|G]; [exact G|exfalso].
    destruct (word_lost nmux nempty nlinks HC G) as (ev1 & ev2 & E1 & E2 & L & LB & D & C). apply D.
    assert (F1 : few nempty ev1).
    { unfold few, npatterns. apply Z.le_lt_trans with (Z.of_nat (nmux * (Z.abs_nat nempty + 1))); [|exact HS]. apply inj_le. apply Nat.mul_le_mono_r. exact LB. }
    assert (F2 : few nempty ev2) by (unfold few, npatterns in *; rewrite <- L; exact F1).
    eapply R; [exact E1|exact E2|exact F1|exact L|apply session_ok; [exact HC|apply events_len; exact E1|exact F1]|apply session_ok; [exact HC|apply events_len; exact E2|exact F2]|].
    rewrite C. reflexivity.
  - intros HR ev1 ev2 E1 E2 F1 L b1 b2 c1 c2 S1 S2 T.
    assert (F2 : few nempty ev2) by (unfold few, npatterns in *; rewrite <- L; exact F1).
    rewrite (session_ok nmux nempty nlinks HC ev1 (events_len _ E1) F1) in S1. rewrite (session_ok nmux nempty nlinks HC ev2 (events_len _ E2) F2) in S2.
    injection S1 as _ <-. injection S2 as _ <-. exact (text_injective nmux nempty nlinks HC board NB ev1 ev2 E1 E2 F1 L HR T).
Qed.

Lemma abs_pred nmux nempty : (1 <= nmux)%nat -> Z.abs nempty = Z.of_nat nmux - 1 -> (Z.abs_nat nempty + 1 = nmux)%nat.
Proof. lia. Qed.

(** as the particle-flow testbench uses it: nempty = +-(nmux - 1), default links *)
Lemma c45_testbench board nmux nempty : (1 <= nmux)%nat -> (MP7_NCHANN mod nmux = 0)%nat -> Z.abs nempty = Z.of_nat nmux - 1 -> ~ In newline (chars board) ->
  recoverable board nmux nempty 0.
Proof.
  intros H1 H2 H3 HB.
  assert (MB : (nmux <= MP7_NCHANN)%nat) by (apply Nat.divide_pos_le; [exact NCH_pos|apply Nat.mod_divide; [lia|exact H2]]).
  assert (MB2 : Z.of_nat nmux <= 144) by (pose proof NCH_144; lia).
  assert (HC : mux_ok nmux nempty 0).
  { split; [exact H1|]. split; [exact H2|]. split; [|lia]. unfold links. cbn [Nat.eqb]. apply Nat.div_le_upper_bound; [lia|]. nia. }
  apply c45_iff; [exact HC|exact HB| |].
  - rewrite (abs_pred nmux nempty H1 H3). nia.
  - unfold reach, links. cbn [Nat.eqb]. rewrite (abs_pred nmux nempty H1 H3), Nat.gcd_diag. rewrite Nat.sub_diag. lia.
Qed.
Lemma c45_all_links board nmux nempty : (1 <= nmux)%nat -> (MP7_NCHANN mod nmux = 0)%nat -> Z.abs nempty < 2 ^ 24 -> ~ In newline (chars board) ->
  recoverable board nmux nempty MP7_NCHANN.
Proof.
  intros H1 H2 H3 HB. pose proof NCH_pos as CP.
  assert (MB : (nmux <= MP7_NCHANN)%nat) by (apply Nat.divide_pos_le; [exact NCH_pos|apply Nat.mod_divide; [lia|exact H2]]).
  assert (MB2 : Z.of_nat nmux <= 144) by (pose proof NCH_144; lia).
  assert (EL : links nmux MP7_NCHANN = MP7_NCHANN) by (unfold links; destruct (Nat.eqb_spec MP7_NCHANN 0); [lia|reflexivity]).
  assert (HC : mux_ok nmux nempty MP7_NCHANN) by (split; [exact H1|]; split; [exact H2|]; split; [rewrite EL; lia|lia]).
  apply c45_iff; [exact HC|exact HB| |].
  - assert (Z.of_nat (Z.abs_nat nempty + 1) <= 2 ^ 24) by lia. rewrite Nat2Z.inj_mul. change (2 ^ 32) with (256 * 2 ^ 24). nia.
  - rewrite EL. pose proof (mux_div MP7_NCHANN nmux H1 H2) as D. rewrite D at 2. rewrite (Nat.mul_comm (reach _ _)). apply Nat.mul_le_mono_l. unfold reach.
    assert (Nat.gcd (Z.abs_nat nempty + 1) nmux <> 0)%nat by (intros E; apply Nat.gcd_eq_0_l in E; lia). lia.
Qed.
Lemma c45_default_refuted board nmux : (2 <= nmux)%nat -> (MP7_NCHANN mod nmux = 0)%nat -> ~ In newline (chars board) -> ~ recoverable board nmux 0 0.
Proof.
  intros H1 H2 HB. pose proof NCH_pos as CP.
  assert (MB : (nmux <= MP7_NCHANN)%nat) by (apply Nat.divide_pos_le; [exact NCH_pos|apply Nat.mod_divide; [lia|exact H2]]).
  assert (MB2 : Z.of_nat nmux <= 144) by (pose proof NCH_144; lia).
  assert (HC : mux_ok nmux 0 0).
  { split; [lia|]. split; [exact H2|]. split; [|lia]. unfold links. cbn [Nat.eqb]. apply Nat.div_le_upper_bound; [lia|]. nia. }
  intros R. apply c45_iff in R; [|exact HC|exact HB|change (Z.abs_nat 0) with 0%nat; lia].
  unfold reach, links in R. cbn [Nat.eqb Z.abs_nat Nat.add] in R. rewrite Nat.gcd_1_l in R.
  assert (D : (1 <= MP7_NCHANN / nmux)%nat) by (apply Nat.div_le_lower_bound; lia). nia.
Qed.

Lemma c46_drop calls more : (171 <= length calls)%nat -> Forall (fun p => (snd p <= length (fst p))%nat) (firstn 171 calls) ->
  ctp7_session true 1 (calls ++ more) = ctp7_session true 1 calls.
Proof.
  intros L F. assert (F2 : firstn 171 (calls ++ more) = firstn 171 calls) by (rewrite firstn_app; replace (171 - length calls)%nat with 0%nat by lia; rewrite firstn_O; apply app_nil_r).
  rewrite !ctp7_session_ok by (rewrite ?F2; exact F). f_equal. rewrite app_length. replace (Nat.min 1024 (6 * (length calls + length more))) with 1024%nat by lia. replace (Nat.min 1024 (6 * length calls)) with 1024%nat by lia.
  apply map_ext_in. intros i Hi. apply in_seq in Hi. unfold ctp7_line. rewrite app_nth1; [reflexivity|].
  apply Nat.le_lt_trans with 170%nat; [|lia]. change 170%nat with (1023 / 6)%nat. apply Nat.div_le_mono; lia.
Qed.

Lemma c44_refuted : ~ (forall nmux nempty nlinks events, mux_ok nmux nempty nlinks -> Forall event_ok events -> few nempty events ->
  exists before closed, mp7_session true nmux nempty nlinks events = Ok (before, closed) /\ map fst closed = map Z.of_nat (seq 0 (length closed))).
Proof.
  intros H. destruct (H 4%nat 0 0%nat [repeat 5 MP7_NCHANN]) as (b & c & E & F).
  - split; [lia|]. split; [reflexivity|]. split; [apply Nat.leb_le; reflexivity|reflexivity].
  - constructor; [|constructor]. split; [reflexivity|]. apply Forall_forall. intros x Hx. apply repeat_spec in Hx. subst. unfold inU. lia.
  - vm_compute. reflexivity.
  - vm_compute in E. injection E as <- <-. vm_compute in F. discriminate F.
Qed.

(** any number of events, without the bound on the frame counter *)
Lemma c43_wraps nlinks events : (links 1 nlinks <= MP7_NCHANN)%nat -> Forall event_ok events ->
  let file := map (fun i => (Z.of_nat i mod 2 ^ 32, firstn (links 1 nlinks) (nth i events []))) (seq 0 (length events)) in
  mp7_session true 1 0 nlinks events = Ok (file, file).
Proof.
  intros HL HE. unfold mp7_session, mp7_open. cbn [Nat.eqb Nat.ltb Nat.leb bind]. change (i32 (Z.abs 0)) with (Ok 0). cbn [bind].
  set (cfg := mkMp7Cfg _ _ _ _ _).
  assert (PL : p_nlinks cfg = links 1 nlinks) by reflexivity.
  assert (One : forall c ls e, length e = MP7_NCHANN -> mp7_event cfg (mkMp7 true c [] ls) e = Ok (mkMp7 true ((c + 1) mod 2 ^ 32) [] (ls ++ [(c, firstn (links 1 nlinks) e)]))).
  { intros c ls e Le. unfold mp7_event. cbn [s_open]. change (p_nempty cfg) with 0%nat. cbn [seq foldM]. unfold mp7_one. change (p_nmux cfg =? 1)%nat with true. cbn iota.
    unfold mp7_print. rewrite PL.
    assert (M : mapM (rd e) (seq 0 (links 1 nlinks)) = Ok (firstn (links 1 nlinks) e)).
    { rewrite (list_tab e 0) at 1. rewrite mapM_rd_tab by lia. f_equal. rewrite <- Le in HL. clear - HL. set (k := links 1 nlinks) in *. clearbody k. revert k HL.
      induction e as [|x e IH]; intros [|k] Hk; try reflexivity; [cbn in Hk; lia|]. cbn [seq map firstn nth]. f_equal. rewrite <- seq_shift, map_map. cbn [nth].
      apply IH. cbn in Hk. lia. }
    rewrite M. cbn [bind s_open s_ipattern s_buffer s_lines]. unfold wrapU. reflexivity. }
  assert (All : forall evs n ls, Forall event_ok evs -> foldM (mp7_event cfg) evs (mkMp7 true (Z.of_nat n mod 2 ^ 32) [] ls) =
    Ok (mkMp7 true (Z.of_nat (n + length evs) mod 2 ^ 32) [] (ls ++ map (fun i => (Z.of_nat (n + i) mod 2 ^ 32, firstn (links 1 nlinks) (nth i evs []))) (seq 0 (length evs))))).
  { induction evs as [|e evs IH]; intros n ls H.
    - cbn [foldM length seq map]. rewrite app_nil_r, Nat.add_0_r. reflexivity.
    - inversion_clear H as [|? ? He Hes]. cbn [foldM]. rewrite One by exact (proj1 He). cbn [bind].
      assert (E : (Z.of_nat n mod 2 ^ 32 + 1) mod 2 ^ 32 = Z.of_nat (S n) mod 2 ^ 32).
      { rewrite Zplus_mod_idemp_l. f_equal. lia. }
      rewrite E, IH by exact Hes. f_equal. f_equal; [f_equal; f_equal; cbn [length]; lia|].
      rewrite <- app_assoc. f_equal. cbn [length seq map app]. f_equal; [f_equal; f_equal; f_equal; lia|].
      rewrite <- seq_shift, map_map. apply map_ext. intros i. cbn [nth]. f_equal. f_equal. f_equal. lia. }
  specialize (All events 0%nat [] HE). cbn [Nat.add app] in All. change (Z.of_nat 0 mod 2 ^ 32) with 0 in All. rewrite All. cbn [bind].
  unfold mp7_close. cbn [s_open]. change (1 <? p_nmux cfg)%nat with false. cbn [andb bind s_lines]. reflexivity.
Qed.
