(** Firmware and reference on every physical input: they agree wherever the
    reference is defined, outside four explicit situations (C01, C73). *)
From Verif Require Import Base BaseFacts Data PFHw PFRef TestUtils SpecLink SpecPF SpecOut SpecPFWrap SpecPFRef SpecSort LinkFacts PFMatch MapiFacts SortFacts RankFacts
  PFHwSpec PFTotal PFWrap PFRefSpec PFProofs PFRefWrap Witness.

Section Agree.
Variables (em : list EmCalo) (had : list HadCalo) (track : list Tk) (mu : list Mu) (kv : bool).
Hypothesis (HP : phys em had track mu) (HN : ~ NegativeSum em had track mu) (HE1 : ~ ErrOneConflict em had track mu)
  (HD : ~ DirtySlot em had track mu) (HK : kv = false \/ ~ KeepConflict_w em had track mu).

Lemma ag_emsum k e : nth_error em k = Some e -> em_tksum_r em track mu k = em_tksum_w em track mu k.
Proof.
  intros Hk. unfold em_tksum_r, em_tksum_w. destruct (Z.le_gt_cases 0 (w16 (em_tksum em track mu k))); [lia|].
  elim HN. left. exists k, e. auto.
Qed.
Lemma ag_emnn k e : nth_error em k = Some e -> 0 <= em_tksum_w em track mu k <= 32767.
Proof. intros Hk. rewrite <- (ag_emsum k e Hk). unfold em_tksum_r. pose proof (w16_rg (em_tksum em track mu k)). lia. Qed.
Lemma ag_diff e S : em_phys e -> 0 <= S <= 32767 -> w16 (e_pt e - S) = e_pt e - S.
Proof. intros [(P & _) [? _]] HS. unfold inS in P; simpl in P. apply w16_id. lia. Qed.
Lemma ag_is_em k e : nth_error em k = Some e -> is_em_r em track mu k e = is_em_w em track mu k e.
Proof.
  intros Hk. unfold is_em_r, is_em_w, em_class, em_class_w. rewrite (ag_emsum k e Hk).
  rewrite ag_diff; [reflexivity|eapply em_at; eauto|eapply ag_emnn; eauto].
Qed.
Lemma ag_pho k e : nth_error em k = Some e -> pho_pt e (em_tksum_r em track mu k) = pho_pt_w e (em_tksum_w em track mu k).
Proof.
  intros Hk. unfold pho_pt, pho_pt_w. rewrite (ag_emsum k e Hk).
  rewrite ag_diff; [reflexivity|eapply em_at; eauto|eapply ag_emnn; eauto].
Qed.
Lemma ag_is_ele i tk : is_ele_r em track mu i tk = is_ele_w em track mu i tk.
Proof.
  unfold is_ele_r, is_ele_w. destruct (em_match em track mu i tk) as [k|]; [|reflexivity].
  destruct (nth_error em k) eqn:E; [|reflexivity]. apply ag_is_em. assumption.
Qed.
Lemma ag_emsub h : had_emsum_r em had track mu h = had_emsum_w em had track mu h.
Proof. unfold had_emsum_r, had_emsum_w. f_equal. apply sum_where_ext. intros k e Hk. rewrite (ag_is_em k e Hk). reflexivity. Qed.
Lemma ag_left h c : nth_error had h = Some c -> had_left_pt_r em had track mu kv h c = had_left_pt_w em had track mu h c.
Proof.
  intros Hh. unfold had_left_pt_r, had_left_pt_w. cbv zeta. rewrite ag_emsub.
  destruct (h_isem c) eqn:EI; cbn [andb]; [|reflexivity].
  assert (KF : had_keep_r em had track mu kv h = false).
  { unfold had_keep_r. destruct HK as [->|K]; [reflexivity|]. destruct kv; [|reflexivity]. cbn [andb]. apply not_true_is_false. intros X.
    apply existsb_exists in X as ([k e] & Hin & Hke). apply in_indexed in Hin. apply andb_true_iff in Hke as [A B].
    apply negb_true_iff in A. apply opt_is_Some in B. apply best_spec in B. apply K. exists h, c, k, e.
    rewrite <- (ag_is_em k e Hin). auto. }
  rewrite KF. cbn [negb]. rewrite andb_true_r. reflexivity.
Qed.
Lemma ag_had_left : had_left_r em had track mu kv = had_left_w em had track mu.
Proof. unfold had_left_r, had_left_w. apply mapi_ext_in. intros h c Hh. rewrite (ag_left h c Hh). reflexivity. Qed.

Lemma ag_match i tk : nth_error track i = Some tk -> had_match_r em had track mu kv tk = had_match_w em had track mu tk.
Proof.
  intros Hi. unfold had_match_r, had_match_w. rewrite ag_had_left. f_equal.
  pose proof (tk_at _ _ _ _ HP _ _ Hi) as Ht.
  destruct (Z.eq_dec (t_pterr tk) 1) as [E1|N1]; [|symmetry; apply cand_tk_had_cap; assumption].
  unfold cand_tk_had. apply map_ext_in. intros c Hin. cbv zeta. apply In_nth_error in Hin as [h Hh].
  destruct (Z.ltb_spec (pt_floor tk) (h_pt c)) as [A|A]; cbn [andb]; [|reflexivity].
  destruct (Z.ltb_spec (dist2 (t_eta tk) (t_phi tk) (h_eta c) (h_phi c)) 756) as [D|D]; [|reflexivity].
  unfold cand_if. f_equal. unfold metric. f_equal.
  destruct Ht as [(P & _) [HPt _]]. unfold inS in P; simpl in P.
  unfold pt_floor in A. rewrite E1 in A |- *. rewrite wrapS16_id in A by lia.
  assert (N : h_pt c <> t_pt tk - 1).
  { intros X. apply HE1. exists i, tk, h, c. repeat split; try assumption; lia. }
  replace (Z.max 0 (t_pt tk - h_pt c)) with 0 by lia. reflexivity.
Qed.

Lemma ag_tksum_raw h : sum_where (in_had_r em had track mu kv h) t_pt track = sum_where (in_had_w em had track mu h) t_pt track.
Proof.
  apply sum_where_ext. intros i tk Hi. unfold in_had_r, in_had_w. rewrite ag_is_ele, (ag_match i tk Hi).
  destruct (Z.ltb_spec 0 (t_pt tk)) as [|L]; [reflexivity|]. cbn [andb].
  assert (t_pt tk = 0) as -> by (pose proof (tk_at _ _ _ _ HP _ _ Hi) as [_ [? _]]; lia).
  destruct (_ && _); reflexivity.
Qed.
Lemma ag_tksum h c : nth_error had h = Some c -> had_tksum_r em had track mu kv h = had_tksum_w em had track mu h.
Proof.
  intros Hh. unfold had_tksum_r. rewrite ag_tksum_raw. fold (had_tksum_w em had track mu h).
  destruct (Z.le_gt_cases 0 (had_tksum_w em had track mu h)); [lia|]. elim HN. right. exists h, c. auto.
Qed.
Lemma ag_err2 h : had_err2_r em had track mu kv h = had_err2_w em had track mu h.
Proof.
  apply sum_where_ext. intros i tk Hi. unfold in_had_r. rewrite ag_is_ele, (ag_match i tk Hi).
  destruct (Z.ltb_spec 0 (t_pt tk)) as [|L]; [reflexivity|]. cbn [andb].
  fold (in_had_w em had track mu h i tk). destruct (in_had_w em had track mu h i tk) eqn:E; [|reflexivity].
  destruct (Z.eq_dec (t_pterr tk) 0) as [->|NE]; [reflexivity|]. elim HD. exists i, tk, h.
  pose proof (tk_at _ _ _ _ HP _ _ Hi) as [_ [? _]]. repeat split; try assumption; lia.
Qed.
Lemma ag_ne h c : nth_error had h = Some c -> ne_pt_r em had track mu kv h c = ne_pt_w em had track mu h c.
Proof.
  intros Hh. pose proof (had_left_w_rg em had track mu HP h c Hh) as L.
  unfold ne_pt_r, ne_pt_w, ne_balance, ne_balance_w. rewrite (ag_left h c Hh), (ag_tksum h c Hh), ag_err2.
  destruct (_ =? 0); [reflexivity|]. rewrite w16_id; [reflexivity|].
  rewrite <- (ag_tksum h c Hh). unfold had_tksum_r. pose proof (w16_rg (sum_where (in_had_r em had track mu kv h) t_pt track)). lia.
Qed.
Lemma ag_ints : ints_fit_r em had track mu kv -> ints_fit em had track mu.
Proof.
  intros [A B]. split.
  - intros k e Hk. rewrite <- (ag_emsum k e Hk). apply A. assumption.
  - intros h c Hh. rewrite <- (ag_tksum h c Hh), <- ag_err2. destruct (B h c Hh) as [B1 B2]. auto.
Qed.

Lemma ref_defined_agree mem1 mem2 nsel r : (nsel <= length had)%nat ->
  pfalgo3_full_ref_gen kv mem2 nsel em had track mu = Ok r ->
  exists o, pfalgo3_full mem1 nsel em had track mu = Ok o /\ agree r o.
Proof.
  intros Hn HR. destruct (pfalgo3_full_ref_wrap em had track mu kv HP mem2 nsel Hn) as [[FI E]|[_ E]]; rewrite E in HR; [|discriminate].
  injection HR as <-. destruct (pfalgo3_full_wrap em had track mu HP mem1 nsel Hn) as [[_ EH]|[NI _]]; [|elim NI; apply ag_ints; assumption].
  eexists. split; [exact EH|]. unfold agree; cbn [o_ch o_pho o_ne o_mu]. split; [|split; [|split]].
  - assert (G : forall l, (forall i tk, In (i, tk) l -> nth_error track i = Some tk) ->
      Forall2 (fun a b => pf_equals_ch a b = true)
        (map (fun p => sp_ch_r em had track mu kv (fst p) (snd p)) l)
        (map (fun p => sp_ch_w em had track mu (fst p) (snd p)) l)).
    { induction l as [|[i tk] l IH]; intros Hl; cbn [map]; constructor; [|apply IH; intros; apply Hl; right; assumption].
      specialize (Hl i tk (or_introl eq_refl)). cbn [fst snd]. unfold sp_ch_r, sp_ch_w, ch_kept_r, ch_kept_w.
      rewrite ag_is_ele, (ag_match i tk Hl).
      destruct (Z.ltb_spec 0 (t_pt tk)) as [P0|P0]; cbn [andb]; [apply ch_equals_refl|].
      assert (t_pt tk = 0) as -> by (pose proof (tk_at _ _ _ _ HP _ _ Hl) as [_ [? _]]; lia).
      destruct (_ || _); unfold pf_equals_ch; reflexivity. }
    apply G. intros i tk. apply in_indexed.
  - apply ne_Forall2_strip. rewrite !map_mapi. apply mapi_ext_in. intros k e Hk. unfold sp_pho_r, sp_pho_w.
    rewrite !strip_ne_obj, (ag_pho k e Hk). reflexivity.
  - apply ne_Forall2_strip. rewrite <- !firstn_map. f_equal.
    rewrite <- !(sorted_cands_map strip n_pt n_pt) by reflexivity. f_equal. rewrite !map_mapi.
    apply mapi_ext_in. intros h c Hh. unfold sp_ne_r, sp_ne_w. rewrite !strip_ne_obj, (ag_ne h c Hh). reflexivity.
  - apply Forall2_refl. apply ch_equals_refl.
Qed.
End Agree.

(** ** consequences *)
Lemma ref_wrap_defined_iff em had track mu mem nsel : phys em had track mu -> (nsel <= length had)%nat ->
  ((exists out, pfalgo3_full_ref mem nsel em had track mu = Ok out) <-> ints_fit_r em had track mu true) /\
  (~ ints_fit_r em had track mu true -> pfalgo3_full_ref mem nsel em had track mu = UB SignedOverflow).
Proof.
  intros HP Hn. destruct (pfalgo3_full_ref_wrap em had track mu true HP mem nsel Hn) as [[I E]|[I E]]; unfold pfalgo3_full_ref; rewrite E.
  - split; [split; [auto|eauto]|intros N; contradiction].
  - split; [split; [intros [o H]; discriminate|contradiction]|reflexivity].
Qed.

Lemma ref_wrap_eq em had track mu mem nsel out : phys em had track mu -> (nsel <= length had)%nat ->
  pfalgo3_full_ref mem nsel em had track mu = Ok out ->
  out = mkOut (mapi (sp_ch_r em had track mu true) track)
            (mapi (sp_pho_r em track mu (fun k => n_puppi (old_outpho mem k))) em)
            (firstn nsel (sorted_cands n_pt (mapi (sp_ne_r em had track mu true (fun h => n_puppi (junk_ne_all mem h))) had)))
            (map (sp_mu track) mu).
Proof.
  intros HP Hn HR. unfold pfalgo3_full_ref in HR. destruct (pfalgo3_full_ref_wrap em had track mu true HP mem nsel Hn) as [[I E]|[I E]]; rewrite E in HR; [|discriminate].
  congruence.
Qed.

Lemma ref_wrap_result em had track mu mem nsel out : phys em had track mu -> (nsel <= length had)%nat ->
  pfalgo3_full_ref mem nsel em had track mu = Ok out ->
  o_ch out = mapi (sp_ch_r em had track mu true) track /\
  o_pho out = mapi (sp_pho_r em track mu (fun k => n_puppi (old_outpho mem k))) em /\
  top_n n_pt true nsel (mapi (sp_ne_r em had track mu true (fun h => n_puppi (junk_ne_all mem h))) had) (o_ne out) /\
  o_mu out = map (sp_mu track) mu.
Proof.
  intros HP Hn HR. rewrite (ref_wrap_eq em had track mu mem nsel out HP Hn HR). cbn [o_ch o_pho o_ne o_mu].
  split; [reflexivity|]. split; [reflexivity|]. split; [|reflexivity]. exact (top_n_rsort true n_pt nsel _).
Qed.

Lemma ref_photon_bound em had track mu mem nsel out k e p : phys em had track mu -> (nsel <= length had)%nat ->
  pfalgo3_full_ref mem nsel em had track mu = Ok out -> nth_error em k = Some e -> nth_error (o_pho out) k = Some p ->
  0 <= n_pt p <= e_pt e.
Proof.
  intros HP Hn HR Hk Hp. rewrite (ref_wrap_eq em had track mu mem nsel out HP Hn HR) in Hp. cbn [o_pho] in Hp.
  rewrite nth_error_mapi, Hk in Hp. cbn in Hp. injection Hp as <-.
  destruct (em_at _ _ _ _ HP k e Hk) as [_ [PP _]].
  assert (0 <= em_tksum_r em track mu k) by (unfold em_tksum_r; lia).
  unfold sp_pho_r, ne_obj. set (S := em_tksum_r em track mu k) in *. clearbody S.
  assert (B : 0 <= pho_pt e S <= e_pt e).
  { unfold pho_pt. cbv zeta. destruct (Z.eqb_spec S 0); [lia|]. destruct (Z.ltb_spec 0 (e_pt e - S)); cbn [andb]; [|lia]. destruct (_ <? _); lia. }
  destruct (_ =? 0); cbn [n_pt]; lia.
Qed.
