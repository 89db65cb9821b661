(** The debugging printout tells the rules of SpecPF and SpecPFRef. *)
From Coq Require Import Ascii String QArith.
From Verif Require Import Base BaseFacts MapiFacts Data PFHw PFRef SpecLink SpecPF SpecPFWrap SpecPFRef LinkFacts PFMatch SortFacts PFHwSpec PFTotal PFWrap PFRefSpec PFRefWrap
  SerText Printf Fill SpecHR HRFacts HRProofs SpecConsole PFDebug SpecPFDebug SpecPFSession PFDebugFacts PFDebugLines.
Local Open Scope string_scope.
Local Open Scope list_scope.
Local Open Scope Z_scope.

Lemma inS16 x : inS 16 x -> -32768 <= x <= 32767.
Proof. unfold inS. cbn. lia. Qed.
Lemma inS10 x : inS 10 x -> -512 <= x <= 511.
Proof. unfold inS. cbn. lia. Qed.
Lemma small_flg (b : bool) : small (if b then 1 else 0).
Proof. unfold small. destruct b; cbn; lia. Qed.
Ltac tiny := first [assumption | apply small_flg | unfold bit; apply small_flg | unfold small; change (2 ^ 32) with 4294967296; lia].
Lemma pos_gtb x : (x >? 0) = (0 <? x).
Proof. lia. Qed.

Section Dom.
Variables (em : list EmCalo) (had : list HadCalo) (track : list Tk) (mu : list Mu).
Hypothesis (HP : phys em had track mu).
Hypothesis (Lem : Z.of_nat (length em) < 2 ^ 31) (Lhad : Z.of_nat (length had) < 2 ^ 31) (Ltk : Z.of_nat (length track) < 2 ^ 31) (Lmu : Z.of_nat (length mu) < 2 ^ 31).
Hypothesis (HF : ints_fit_r em had track mu true).

Lemma small_at {A} (l : list A) i x : Z.of_nat (length l) < 2 ^ 31 -> nth_error l i = Some x -> small (Z.of_nat i).
Proof. intros HL H. assert (i < length l)%nat by (apply nth_error_Some; congruence). unfold small. change (2 ^ 31) with 2147483648 in HL. change (2 ^ 32) with 4294967296. lia. Qed.
Lemma small_lt {A} (l : list A) i : Z.of_nat (length l) < 2 ^ 31 -> (i < length l)%nat -> small (Z.of_nat i).
Proof. intros HL H. unfold small. change (2 ^ 31) with 2147483648 in HL. change (2 ^ 32) with 4294967296. lia. Qed.
Ltac ix := try unfold Zn; match goal with H : nth_error ?l ?i = Some _ |- small (Z.of_nat ?i) => eapply (small_at l i); [assumption|exact H] end.
Lemma mu_at i m : nth_error mu i = Some m -> mu_phys m.
Proof. intros H. destruct HP as (_ & _ & _ & F). rewrite Forall_forall in F. apply F. eapply nth_error_In; eauto. Qed.

(** ** Inputs *)
Lemma say_track i t : nth_error track i = Some t -> tells (dbg_track i t) (only t_pt (track_line angle_shown) i t).
Proof.
  intros Hi. destruct (tk_at _ _ _ _ HP _ _ Hi) as [(A & B & C & D & _) [P Q]]. pose proof (inS16 _ A). pose proof (inS16 _ B). pose proof (inS10 _ C). pose proof (inS10 _ D).
  unfold dbg_track, only. destruct (Z.eqb_spec (t_pt t) 0), (Z.ltb_spec 0 (t_pt t)); try lia; [apply tells_nil|].
  destruct (pt_decimal (t_pt t) ltac:(lia)) as (q1 & -> & F1 & V1). destruct (pt_decimal (t_pterr t) ltac:(lia)) as (q2 & -> & F2 & V2).
  destruct (angle_decimal _ C) as (q3 & -> & F3 & V3). destruct (angle_decimal _ D) as (q4 & -> & F4 & V4).
  unfold track_line. rewrite <- V1, <- V2, <- V3, <- V4. apply f_track; try tiny. ix.
Qed.
Lemma say_em i e : nth_error em i = Some e -> tells (dbg_em i e) (only e_pt (em_line angle_shown) i e).
Proof.
  intros Hi. destruct (em_at _ _ _ _ HP _ _ Hi) as [(A & B & C & D) [P Q]]. pose proof (inS16 _ A). pose proof (inS16 _ B). pose proof (inS10 _ C). pose proof (inS10 _ D).
  unfold dbg_em, only. destruct (Z.eqb_spec (e_pt e) 0), (Z.ltb_spec 0 (e_pt e)); try lia; [apply tells_nil|].
  destruct (pt_decimal (e_pt e) ltac:(lia)) as (q1 & -> & F1 & V1). destruct (pt_decimal (e_pterr e) ltac:(lia)) as (q2 & -> & F2 & V2).
  destruct (angle_decimal _ C) as (q3 & -> & F3 & V3). destruct (angle_decimal _ D) as (q4 & -> & F4 & V4).
  unfold em_line. rewrite <- V1, <- V2, <- V3, <- V4. apply f_em; try tiny. ix.
Qed.
Lemma say_had i c : nth_error had i = Some c -> tells (dbg_had i c) (only h_pt (had_line angle_shown) i c).
Proof.
  intros Hi. destruct (had_at _ _ _ _ HP _ _ Hi) as [(A & C & D & B) [P Q]]. pose proof (inS16 _ A). pose proof (inS16 _ B). pose proof (inS10 _ C). pose proof (inS10 _ D).
  unfold dbg_had, only. destruct (Z.eqb_spec (h_pt c) 0), (Z.ltb_spec 0 (h_pt c)); try lia; [apply tells_nil|].
  destruct (pt_decimal (h_pt c) ltac:(lia)) as (q1 & -> & F1 & V1). destruct (pt_decimal (h_empt c) ltac:(lia)) as (q2 & -> & F2 & V2).
  destruct (angle_decimal _ C) as (q3 & -> & F3 & V3). destruct (angle_decimal _ D) as (q4 & -> & F4 & V4).
  unfold had_line. rewrite <- V1, <- V2, <- V3, <- V4. apply f_had; try tiny. ix.
Qed.
Lemma say_mu i m : nth_error mu i = Some m -> tells (dbg_mu i m) (only m_pt (mu_line angle_shown) i m).
Proof.
  intros Hi. destruct (mu_at _ _ Hi) as [(A & B & C & D) P]. pose proof (inS16 _ A). pose proof (inS10 _ C). pose proof (inS10 _ D).
  unfold dbg_mu, only. destruct (Z.eqb_spec (m_pt m) 0), (Z.ltb_spec 0 (m_pt m)); try lia; [apply tells_nil|].
  destruct (pt_decimal (m_pt m) ltac:(lia)) as (q1 & -> & F1 & V1).
  destruct (angle_decimal _ C) as (q3 & -> & F3 & V3). destruct (angle_decimal _ D) as (q4 & -> & F4 & V4).
  unfold mu_line. rewrite <- V1, <- V3, <- V4. apply f_mu; try tiny. ix.
Qed.
Lemma say_inputs more : tells (dbg_inputs more true em had track mu) (if more then input_lines angle_shown em had track mu else []).
Proof.
  unfold dbg_inputs, dbg. destruct more; [|apply tells_nil]. unfold input_lines.
  apply tells_app; [apply tells_lines; exact say_track|]. apply tells_app; [apply tells_lines; exact say_em|]. apply tells_app; [apply tells_lines; exact say_had|apply tells_lines; exact say_mu].
Qed.

(** ** Muons *)
Lemma say_mulink i m : nth_error mu i = Some m -> tells (mu_text true track i m) (only m_pt (mu_link_line track) i m).
Proof.
  intros Hi. unfold mu_text, only, mu_link_line, mu_match. rewrite pos_gtb, mu_ref_best_spec. destruct (0 <? m_pt m); [|apply tells_nil].
  destruct (best (cand_mu_tk track m)) as [k|] eqn:K.
  - unfold dbg. apply f_mu1; [ix|]. apply best_lt in K. unfold cand_mu_tk in K. rewrite map_length in K. apply (small_lt track); assumption.
  - unfold dbg. apply f_mu0. ix.
Qed.

(** ** The electromagnetic step *)
Notation rm := (rmatch em (is_mu track mu)).
Lemma say_emlink i t : nth_error track i = Some t -> tells (em_track_text true em i (t, is_mu track mu i)) (only t_pt (em_link_line em track mu) i t).
Proof.
  intros Hi. destruct (tk_at _ _ _ _ HP _ _ Hi) as [(A & _) [P _]]. pose proof (inS16 _ A).
  unfold em_track_text, only, em_link_line, em_match. rewrite pos_gtb, best_match_ref_em. destruct (0 <? t_pt t); [|apply tells_nil]. cbn [andb].
  destruct (is_mu track mu i); [apply tells_nil|]. cbn [negb]. destruct (best (cand_tk_em em t)) as [k|] eqn:K; [|apply tells_nil].
  destruct (nth_error em k) as [e|] eqn:Hk; [|apply tells_nil]. destruct (em_at _ _ _ _ HP _ _ Hk) as [(E & _) [P' _]]. pose proof (inS16 _ E).
  unfold dbg. apply f_tkem; try tiny; ix.
Qed.
Lemma say_sum k e : nth_error em k = Some e -> tells (em_say_sum k (e, w16 (em_tksum em track mu k))) (only e_pt (em_sum_line em track mu) k e).
Proof.
  intros Hk. destruct (em_at _ _ _ _ HP _ _ Hk) as [(E & _) [P' _]]. pose proof (inS16 _ E). pose proof (w16_rg (em_tksum em track mu k)).
  unfold em_say_sum, only. rewrite pos_gtb. destruct (0 <? e_pt e); [|apply tells_nil]. apply f_sum; try tiny. ix.
Qed.
Lemma shiftr1 x : Z.shiftr x 1 = x / 2.
Proof. rewrite Z.shiftr_div_pow2 by lia. reflexivity. Qed.
Lemma say_class k e : nth_error em k = Some e -> tells (photon_text true k (e, w16 (em_tksum em track mu k))) (em_class_line root_shown em track mu k e).
Proof.
  intros Hk. destruct (em_at _ _ _ _ HP _ _ Hk) as [(E & EE & _) [P' P2]]. pose proof (inS16 _ E). pose proof (inS16 _ EE). pose proof (w16_rg (em_tksum em track mu k)).
  pose proof (proj1 HF k e Hk) as FIT. unfold photon_text, em_class_line, em_tksum_r in *. set (W := w16 (em_tksum em track mu k)) in *. clearbody W.
  assert (SK : small (Z.of_nat k)) by (ix).
  destruct (Z.gtb_spec W 0) as [G|G]; cbv zeta.
  - replace (Z.max 0 W) with W in * by lia. destruct (Z.eqb_spec W 0); [lia|]. specialize (FIT ltac:(lia)).
    unfold pt_t. rewrite wrapS16_id by lia. set (d := e_pt e - W) in *. set (s2 := e_pterr e * e_pterr e) in *. assert (0 <= s2) by (unfold s2; nia). rewrite shiftr1.
    destruct (root_fine (4 * s2) ltac:(lia)) as (F1 & N1). destruct (root_fine (s2 + s2 / 2) ltac:(lia)) as (F2 & N2).
    unfold root, em_class, pho_pt. cbv zeta. fold d. fold s2. destruct (Z.eqb_spec W 0); [lia|]. cbn [orb]. replace (d >? 0) with (0 <? d) by lia.
    replace (d * d <=? s2 + s2 / 2) with (negb (s2 + s2 / 2 <? d * d)) by lia. unfold dbg.
    destruct (Z.ltb_spec 0 d) as [D|D]; cbn [andb orb negb].
    + destruct (Z.ltb_spec d 0); [lia|]. cbn [andb orb negb]. rewrite orb_false_r. destruct (s2 + s2 / 2 <? d * d); cbn [negb].
      * destruct (Z.eqb_spec d 0); [lia|]. apply f_elepho; try tiny.
      * apply f_ele; try tiny.
    + destruct ((d <? 0) && (d * d <? 4 * s2)); cbn [negb].
      * apply f_ele; try tiny.
      * apply f_pion; try tiny.
  - replace (Z.max 0 W) with 0 by lia. rewrite pos_gtb. cbn [Z.eqb]. destruct (0 <? e_pt e); [|apply tells_nil]. unfold dbg. apply f_pho; tiny.
Qed.
Lemma say_ele i t : nth_error track i = Some t -> tells (ele_text true (mapi (is_em_r em track mu) em) i (t, rm i t)) (only t_pt (ele_line em track mu) i t).
Proof.
  intros Hi. destruct (tk_at _ _ _ _ HP _ _ Hi) as [(A & _) [P _]]. pose proof (inS16 _ A).
  unfold ele_text, only, ele_line, is_ele_r. destruct (Z.ltb_spec 0 (t_pt t)) as [G|G].
  - rewrite rm_em_match by exact G. destruct (em_match em track mu i t) as [k|]; [|apply tells_nil]. rewrite nth_error_mapi. destruct (nth_error em k) as [e|]; cbn [option_map]; [|apply tells_nil].
    destruct (is_em_r em track mu k e); [|apply tells_nil]. unfold dbg. apply f_trkele; try tiny. ix.
  - rewrite rm_none by lia. apply tells_nil.
Qed.
Lemma say_emhad k e : nth_error em k = Some e -> tells (em_had_text true had k (e, is_em_r em track mu k e)) (only e_pt (em_had_line em had track mu) k e).
Proof.
  intros Hk. destruct (em_at _ _ _ _ HP _ _ Hk) as [(E & EE & E3) [P' P2]]. pose proof (inS16 _ E).
  unfold em_had_text, only, em_had_line. rewrite pos_gtb. destruct (0 <? e_pt e); [|apply tells_nil]. cbv zeta. rewrite best_match_em_ref_spec by exact (proj1 (em_at _ _ _ _ HP _ _ Hk)). change (em_had_match had e) with (best (cand_em_had had e)).
  assert (SK : small (Z.of_nat k)) by (ix). unfold dbg, flg, bit.
  destruct (best (cand_em_had had e)) as [h|] eqn:B.
  - assert (LB : (h < length had)%nat) by (apply best_lt in B; unfold cand_em_had in B; rewrite map_length in B; exact B).
    destruct (nth_error had h) as [c|] eqn:Hh; [|apply nth_error_None in Hh; lia]. destruct (had_at _ _ _ _ HP _ _ Hh) as [(A & _ & _ & D) [Q1 Q2]]. pose proof (inS16 _ A). pose proof (inS16 _ D).
    cbn [app]. apply f_emhad; try tiny. apply (small_lt had); assumption.
  - cbn [app]. apply f_emhad; try tiny.
Qed.
Lemma had_sub_spec h : had_sub em (mapi (is_em_r em track mu) em) (map (best_match_em_ref DR2MAX_EM_CALO had) em) h = (had_emsum_r em had track mu h, had_keep_r em had track mu true h).
Proof.
  unfold had_sub. rewrite (had_keep_fold true h) by (unfold inS; simpl; lia).
  assert (E1 : map (best_match_em_ref DR2MAX_EM_CALO had) em = map (fun e => best (cand_em_had had e)) em).
  { apply map_ext_in. intros e He. apply best_match_em_ref_spec. pose proof (Hem _ _ _ _ HP) as F. rewrite Forall_forall in F. exact (proj1 (F e He)). }
  rewrite E1, combine_mapi_r, (map_as_mapi (fun e => best _)), combine_mapi, map_mapi. rewrite Z.add_0_l. f_equal.
  unfold had_keep_r, mapi. cbn [andb].
  assert (X : forall l, existsb (fun '((e, isem), m) => negb (isem : bool) && opt_is m h)
               (map (fun p => (snd p, is_em_r em track mu (fst p) (snd p), best (cand_em_had had (snd p)))) l)
             = existsb (fun '(k, e) => negb (is_em_r em track mu k e) && opt_is (best (cand_em_had had e)) h) l).
  { induction l as [|[k e] l IH]; [reflexivity|]. cbn [map existsb fst snd]. rewrite IH. reflexivity. }
  rewrite X. destruct (existsb _ _); reflexivity.
Qed.
Lemma say_sub h c : nth_error had h = Some c ->
  tells (had_text true em (mapi (is_em_r em track mu) em) (map (best_match_em_ref DR2MAX_EM_CALO had) em) h c) (only h_pt (subtract_line em had track mu) h c).
Proof.
  intros Hh. destruct (had_at _ _ _ _ HP _ _ Hh) as [(A & _ & _ & D) [Q1 Q2]]. pose proof (inS16 _ A). pose proof (inS16 _ D).
  assert (SK : small (Z.of_nat h)) by (ix).
  unfold had_text, only, subtract_line. rewrite had_sub_spec, pos_gtb. cbv zeta. destruct (0 <? h_pt c); [|apply tells_nil].
  set (E := had_emsum_r em had track mu h). change (pt_t (h_pt c - E)) with (w16 (h_pt c - E)). change (pt_t (h_empt c - E)) with (w16 (h_empt c - E)).
  pose proof (w16_rg (h_pt c - E)). pose proof (w16_rg (h_empt c - E)). rewrite !Z.shiftr_div_pow2 by lia. change (2 ^ 4) with 16. change (2 ^ 3) with 8. unfold dbg.
  apply tells_app; [unfold flg, bit; apply f_sub; try tiny|]. destruct (_ <=? h_pt c / 16); [apply f_zpt; tiny|]. destruct (_ && _); [apply f_zem; tiny|apply tells_nil].
Qed.

(** ** The hadronic step *)
Notation left := (had_left_pt_r em had track mu true).
Notation sub := (ref_sub_r em had track mu true).
Lemma say_hadlink i t : nth_error track i = Some t ->
  tells (had_track_text true (mapi sub had) i (t, (rele_r em track mu i t, is_mu track mu i))) (only t_pt (had_link_line em had track mu) i t).
Proof.
  intros Hi. pose proof (tk_at _ _ _ _ HP _ _ Hi) as TP. destruct (TP) as [(A & _) [P _]]. pose proof (inS16 _ A).
  unfold had_track_text, only, had_link_line, rele_r. rewrite pos_gtb, (ref_had_match_r _ _ _ _ true HP t TP). destruct (0 <? t_pt t); [|apply tells_nil]. cbn [andb].
  destruct (is_ele_r em track mu i t); [apply tells_nil|]. cbn [negb andb orb]. destruct (is_mu track mu i); [apply tells_nil|]. cbn [negb].
  destruct (had_match_r em had track mu true t) as [h|] eqn:M; [|apply tells_nil]. rewrite nth_error_mapi. destruct (nth_error had h) as [c|] eqn:Hh; cbn [option_map]; [|apply tells_nil].
  destruct (ref_sub_r_spec _ _ _ _ true HP h c Hh) as (-> & _). pose proof (left_r_rg _ _ _ _ true HP h c Hh). unfold dbg. apply f_tkhad; try tiny; ix.
Qed.
Lemma subpt_value (c : HadCalo) s r x : had_ref_subpt c s r = Ok x ->
  (if s >? 0 then (if (pt_t (h_pt c - s) >? 0) && (pt_t (h_pt c - s) * pt_t (h_pt c - s) >? r + Z.shiftr r 1) then pt_t (h_pt c - s) else 0) else h_pt c) = x.
Proof.
  unfold had_ref_subpt. destruct (s >? 0); [|intros [= <-]; reflexivity]. cbv zeta. destruct (i32 _) as [m|] eqn:E; [|discriminate]. apply i32_inv in E as [-> _]. cbn [bind]. intros [= <-]. reflexivity.
Qed.
Lemma say_neutral more h c : nth_error had h = Some c ->
  tells (subpt_text more true h (sub h c, (w16 (sum_where (in_had_r em had track mu true h) t_pt track), err_sum em had track mu true track h)))
    (neutral_line root_shown angle_shown em had track mu more h c).
Proof.
  intros Hh. destruct (had_at _ _ _ _ HP _ _ Hh) as [(A & C & _ & D) [Q1 Q2]]. pose proof (inS10 _ C).
  assert (SK : small (Z.of_nat h)) by (ix).
  destruct (proj2 HF h c Hh) as (F1 & F2). destruct (ref_sub_r_spec _ _ _ _ true HP h c Hh) as (E1 & E2 & E3). pose proof (left_r_rg _ _ _ _ true HP h c Hh) as RL.
  pose proof (errs_nonneg em had track mu true h) as EN. pose proof (ne_pt_r_nonneg _ _ _ _ true HP h c Hh) as RN.
  change (err_sum em had track mu true track h) with (had_err2_r em had track mu true h).
  pose proof (w16_rg (sum_where (in_had_r em had track mu true h) t_pt track)) as RW.
  destruct (subpt_r _ _ _ _ true HP h c _ Hh eq_refl RW F1) as (SV & _). specialize (SV F2). apply subpt_value in SV.
  unfold subpt_text, neutral_line. cbv zeta. rewrite SV. unfold had_tksum_r. set (W := w16 _) in *. clearbody W. rewrite E1, E2, !pos_gtb.
  replace (0 <? Z.max 0 W) with (0 <? W) by lia. destruct (Z.ltb_spec 0 (left h c)) as [G|G]; [|rewrite andb_false_r; apply tells_nil]. cbn [andb].
  apply tells_app; [|unfold dbg; apply f_ne; tiny].
  destruct (Z.ltb_spec 0 W) as [G'|G']; cbn [andb]; [|apply tells_nil]. destruct more; [|apply tells_nil]. replace (Z.max 0 W) with W by lia.
  unfold pt_t. rewrite wrapS16_id by lia.
  destruct (pt_decimal (left h c) ltac:(lia)) as (q1 & -> & G1 & V1). destruct (angle_decimal _ C) as (q3 & -> & G3 & V3). destruct (root_fine (had_err2_r em had track mu true h) ltac:(lia)) as (G4 & _).
  rewrite <- V1, <- V3. unfold dbg, root. apply f_diff; tiny.
Qed.
End Dom.

(** ** The whole *)
Lemma tells_lines_in {A B} (f : nat -> B -> list ascii) (w : nat -> A -> B) (rws : nat -> A -> list trow) l :
  (forall i x, nth_error l i = Some x -> tells (f i (w i x)) (rws i x)) -> tells (List.concat (mapi f (mapi w l))) (lines rws l).
Proof. intros H. rewrite mapi_mapi. apply tells_lines. exact H. Qed.

Lemma trace_tells more mem nsel em had track mu out text : phys em had track mu -> (nsel <= length had)%nat ->
  Z.of_nat (length em) < 2 ^ 31 -> Z.of_nat (length had) < 2 ^ 31 -> Z.of_nat (length track) < 2 ^ 31 -> Z.of_nat (length mu) < 2 ^ 31 ->
  pfalgo3_full_say more true mem nsel em had track mu = Ok (out, text) -> tells text (trace_lines root_shown angle_shown em had track mu more).
Proof.
  intros HP Hn L1 L2 L3 L4 HS. pose proof (say_same more true mem nsel em had track mu) as SS. rewrite HS in SS. cbn [rmap bind fst] in SS. symmetry in SS.
  destruct (pfalgo3_full_ref_wrap em had track mu true HP mem nsel Hn) as [[HF _]|[_ X]]; [|unfold pfalgo3_full_ref in SS; rewrite X in SS; discriminate].
  rewrite say_factor in HS. rewrite ref_mu in HS. cbn [bind] in HS. rewrite combine_mapi_r in HS. rewrite em_ref_tracks in HS. cbn [bind] in HS. rewrite combine_mapi_r in HS.
  rewrite (mapi_ext_in (fun i x => (x, pt_t _)) (fun k e => (e, w16 (em_tksum em track mu k))) em) in HS by (intros k e _; rewrite (ref_em_sum em had track mu HP k); reflexivity).
  rewrite (mapM_mapi (fun '(c, s) => em_ref_photon c s) (fun k e => (e, w16 (em_tksum em track mu k))) (fun k e => (is_em_r em track mu k e, pho_pt e (em_tksum_r em track mu k)))) in HS.
  2:{ intros k e Hk. apply ref_photon_r; [eapply em_at; eauto|apply w16_rg|exact (proj1 HF k e Hk)]. }
  cbn [bind] in HS. rewrite map_mapi in HS. cbn [fst] in HS.
  destruct (ref_em_r em had track mu true HP (old_outpho mem)) as [[_ E]|[N _]]; [|elim N; exact (proj1 HF)]. rewrite E in HS. clear E. cbn [bind] in HS.
  rewrite combine_mapi, combine_mapi_r in HS. destruct (had_ref_tracks_r em had track mu true HP track (Htk _ _ _ _ HP)) as [TY _].
  rewrite TY in HS by (intros h c Hh; exact (proj1 (proj2 HF h c Hh))). clear TY. cbn [bind] in HS. rewrite combine_mapi, combine_mapi in HS. rewrite SS in HS. cbn [bind] in HS.
  injection HS as <-. unfold trace_lines, em_text. rewrite <- !app_assoc.
  apply tells_app; [apply say_inputs; assumption|].
  apply tells_app; [apply tells_lines; intros; apply (say_mulink em had track mu); assumption|].
  apply tells_app; [rewrite combine_mapi_r; apply tells_lines_in; intros; apply (say_emlink em had); assumption|].
  apply tells_app.
  { unfold dbg. rewrite combine_mapi_r. apply tells_lines_in. intros k e Hk. rewrite (ref_em_sum em had track mu HP k). apply (say_sum em had); assumption. }
  apply tells_app.
  { rewrite combine_mapi_r. apply tells_lines_in. intros k e Hk. rewrite (ref_em_sum em had track mu HP k). apply (say_class em had); assumption. }
  apply tells_app; [rewrite combine_mapi_r; apply tells_lines_in; intros; apply (say_ele em had); assumption|].
  apply tells_app; [rewrite combine_mapi_r; apply tells_lines_in; intros; apply say_emhad; assumption|].
  apply tells_app; [apply tells_lines; intros; apply say_sub; assumption|].
  apply tells_app; [apply tells_lines_in; intros; apply say_hadlink; assumption|].
  apply tells_lines_in. intros. apply say_neutral; assumption.
Qed.

Lemma trace_reads more : exists root angle, roots_shown root /\ angles_shown angle /\
  forall mem nsel em had track mu out text, op_phys (Run mem nsel em had track mu) ->
  pfalgo3_full_say more true mem nsel em had track mu = Ok (out, text) -> read_trace text = trace_lines root angle em had track mu more.
Proof.
  exists root_shown, angle_shown. split; [apply roots_ok|]. split; [apply angles_ok|]. intros mem nsel em had track mu out text (HP & Hn & L1 & L2 & L3 & L4) H.
  apply tells_read. eapply trace_tells; eauto.
Qed.

(** ** Sessions *)
Lemma session_results_run ops : flat_map (fun o => match is_run o with Some x => [x] | None => [] end) ops = session_results ops.
Proof. unfold session_results. apply flat_map_ext. intros [b|]; reflexivity. Qed.
Lemma session_result more ops : rmap fst (ref_session more ops) = mapM (fun x => x) (session_results ops).
Proof.
  unfold ref_session. pose proof (session_same more ops false [] []) as S. rewrite session_results_run in S.
  destruct (foldM (ref_op_step more) ops (false, [], [])) as [[[g outs] text]|]; cbn [rmap bind fst] in *; destruct (mapM _ _); cbn [bind app] in S; congruence.
Qed.
Lemma session_tells more ops : forall on outs text g outs' text' rows, Forall op_phys ops -> tells text rows ->
  foldM (ref_op_step more) ops (on, outs, text) = Ok (g, outs', text') -> tells text' (rows ++ session_lines root_shown angle_shown more on ops).
Proof.
  induction ops as [|o ops IH]; intros on outs text g outs' text' rows F T E; cbn [foldM] in E.
  { injection E as <- <- <-. cbn [session_lines]. rewrite app_nil_r. exact T. }
  inversion F as [|? ? P F']; subst. destruct o as [b|mem nsel em had track mu]; cbn [ref_op_step bind session_lines] in *; [eapply IH; eauto|].
  destruct P as (HP & Hn & L1 & L2 & L3 & L4).
  destruct (pfalgo3_full_say more on mem nsel em had track mu) as [[out t]|] eqn:S; [|discriminate]. cbn [bind] in E. rewrite app_assoc. eapply IH; [exact F'| |exact E].
  apply tells_app; [exact T|]. destruct on; [eapply trace_tells; eauto|].
  rewrite say_quiet in S. destruct (pfalgo3_full_ref mem nsel em had track mu); [|discriminate]. cbn [bind] in S. injection S as <- <-. apply tells_nil.
Qed.
Lemma session_reads more : exists root angle, roots_shown root /\ angles_shown angle /\
  forall ops outs text, Forall op_phys ops -> ref_session more ops = Ok (outs, text) -> read_trace text = session_lines root angle more false ops.
Proof.
  exists root_shown, angle_shown. split; [apply roots_ok|]. split; [apply angles_ok|]. intros ops outs text F H. unfold ref_session in H.
  destruct (foldM (ref_op_step more) ops (false, [], [])) as [[[g o'] t']|] eqn:E; [|discriminate]. cbn [bind] in H. injection H as <- <-.
  apply tells_read. exact (session_tells more ops _ _ _ _ _ _ [] F tells_nil E).
Qed.
Lemma session_silent more ops outs text : Forall (fun o => o <> SetDebug true) ops -> ref_session more ops = Ok (outs, text) -> text = [].
Proof.
  unfold ref_session. intros F. assert (X : forall l outs, Forall (fun o => o <> SetDebug true) l ->
    match foldM (ref_op_step more) l (false, outs, []) with Ok (g, _, t) => g = false /\ t = [] | UB _ => True end).
  { induction l as [|o l IH]; intros os Fl; cbn [foldM]; [auto|]. inversion Fl as [|? ? N Fl']; subst. destruct o as [[|]|mem nsel em had track mu]; cbn [ref_op_step bind]; [congruence|apply IH; exact Fl'|].
    rewrite say_quiet. destruct (pfalgo3_full_ref mem nsel em had track mu); cbn [bind]; [|exact Logic.I]. cbn [app]. apply IH; exact Fl'. }
  specialize (X ops [] F). destruct (foldM _ _ _) as [[[g o'] t']|]; [|discriminate]. cbn [bind]. intros [= <- <-]. exact (proj2 X).
Qed.
