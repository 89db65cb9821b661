(** The firmware model computes the specification of SpecPF on the physical domain. *)
From Verif Require Import Base BaseFacts Data PFHw PFRef SpecLink SpecPF LinkFacts PFMatch MapiFacts SortFacts.

Lemma opt_is_Some o k : opt_is o k = true <-> o = Some k.
Proof. destruct o as [i|]; cbn; [|split; discriminate]. rewrite Nat.eqb_eq. split; congruence. Qed.

(** ** muons *)
Definition mu_step (track : list Tk) (st : list PFCh * list bool) (m : Mu) : res (list PFCh * list bool) :=
  let '(out, isMu) := st in
  match mu_match track m with
  | Some i => do tk <- rd track i;
              do isMu' <- wr isMu i true;
              Ok (out ++ [mkCh (t_pt tk) (t_eta tk) (t_phi tk) PID_Muon (t_z0 tk)], isMu')
  | None => Ok (out ++ [ch0], isMu)
  end.

Lemma mu_match_lt track m i : mu_match track m = Some i -> (i < length track)%nat.
Proof.
  unfold mu_match. destruct (0 <? m_pt m); [|discriminate]. intros H. apply best_lt in H.
  unfold cand_mu_tk in H. rewrite map_length in H. assumption.
Qed.

Lemma mu_steps track mu :
  foldM (mu_step track) mu ([], map (fun _ => false) track)
  = Ok (map (sp_mu track) mu, mapi (fun i _ => is_mu track mu i) track).
Proof.
  induction mu as [|m mu IH] using rev_ind.
  - cbn [foldM map]. rewrite map_as_mapi. reflexivity.
  - rewrite foldM_app, IH. cbn [bind foldM]. unfold mu_step. rewrite map_app. cbn [map].
    assert (SP : sp_mu track m = match mu_match track m with Some i => match nth_error track i with Some tk => mkCh (t_pt tk) (t_eta tk) (t_phi tk) PID_Muon (t_z0 tk) | None => ch0 end | None => ch0 end) by reflexivity.
    destruct (mu_match track m) as [i|] eqn:E.
    + pose proof (mu_match_lt _ _ _ E) as L. destruct (nth_error_lt track i L) as [tk Htk].
      unfold rd, wr. rewrite Htk, length_mapi. destruct (Nat.ltb_spec i (length track)); [|lia]. cbn [bind].
      rewrite Htk in SP. rewrite SP. do 2 f_equal. apply nth_error_ext; intros j. rewrite nth_error_mapi.
      destruct (Nat.eq_dec i j) as [->|N].
      * rewrite nth_error_upd_eq by (rewrite length_mapi; assumption). rewrite Htk. cbn. f_equal.
        unfold is_mu. rewrite existsb_app. cbn. rewrite E. cbn. rewrite Nat.eqb_refl. rewrite orb_true_r. reflexivity.
      * rewrite (nth_error_upd_ne _ _ j) by assumption. rewrite nth_error_mapi. destruct (nth_error track j); [|reflexivity].
        cbn. f_equal. unfold is_mu. rewrite existsb_app. cbn. rewrite E. cbn.
        destruct (Nat.eqb_spec i j); [contradiction|]. rewrite orb_false_r. reflexivity.
    + cbn [bind]. rewrite SP. do 2 f_equal. apply mapi_ext_in. intros j tk Hj. unfold is_mu. rewrite existsb_app. cbn. rewrite E. cbn.
      rewrite orb_false_r. reflexivity.
Qed.

Lemma hw_mualgo mu track : Forall mu_ok mu -> Forall tk_phys track ->
  spfph_mualgo mu track (spfph_mutrk_link mu track) (map (fun _ => false) track)
  = Ok (map (sp_mu track) mu, mapi (fun i _ => is_mu track mu i) track).
Proof.
  intros Hm Ht. rewrite <- mu_steps. unfold spfph_mualgo, spfph_mutrk_link.
  rewrite combine_map_r, foldM_map. apply foldM_ext. intros [out isMu] m Hin.
  rewrite Forall_forall in Hm. unfold spfph_mualgo_step, mu_step, mu_match.
  destruct (Z.ltb_spec 0 (m_pt m)) as [P|P].
  - rewrite mu2trk_row by auto. rewrite last_set_onehot.
    2:{ intros k Hk. apply best_lt in Hk. unfold cand_mu_tk in Hk. rewrite map_length in Hk. assumption. }
    destruct (best (cand_mu_tk track m)); [|reflexivity].
    destruct (Z.gtb_spec (m_pt m) 0); [reflexivity|lia].
  - destruct (last_set _); [|reflexivity]. destruct (Z.gtb_spec (m_pt m) 0); [lia|reflexivity].
Qed.

Lemma ref_mu mu track : foldM (mu_ref_step track) mu ([], map (fun _ => false) track)
  = Ok (map (sp_mu track) mu, mapi (fun i _ => is_mu track mu i) track).
Proof.
  rewrite <- mu_steps. apply foldM_ext. intros [out isMu] m Hin. unfold mu_ref_step, mu_step, mu_match.
  rewrite mu_ref_best_spec. destruct (Z.gtb_spec (m_pt m) 0); destruct (Z.ltb_spec 0 (m_pt m)); try lia; reflexivity.
Qed.

(** ** EM step *)
Section Dom.
Variables (em : list EmCalo) (had : list HadCalo) (track : list Tk) (mu : list Mu).
Hypothesis (HP : phys em had track mu) (HO : no_overflow em track).

Lemma Hem : Forall em_phys em. Proof. apply HP. Qed.
Lemma Hhad : Forall had_phys had. Proof. apply HP. Qed.
Lemma Htk : Forall tk_phys track. Proof. apply HP. Qed.

Lemma tk_at i tk : nth_error track i = Some tk -> tk_phys tk.
Proof. intros H. pose proof Htk as F. rewrite Forall_forall in F. apply F. eapply nth_error_In; eauto. Qed.
Lemma em_at i e : nth_error em i = Some e -> em_phys e.
Proof. intros H. pose proof Hem as F. rewrite Forall_forall in F. apply F. eapply nth_error_In; eauto. Qed.
Lemma had_at i c : nth_error had i = Some c -> had_phys c.
Proof. intros H. pose proof Hhad as F. rewrite Forall_forall in F. apply F. eapply nth_error_In; eauto. Qed.

Lemma em_match_lt i tk k : em_match em track mu i tk = Some k -> (k < length em)%nat.
Proof.
  unfold em_match. destruct (is_mu track mu i); [discriminate|]. intros H. apply best_lt in H.
  unfold cand_tk_em in H. rewrite map_length in H. assumption.
Qed.

Lemma sel_tksum_rg sel : 0 <= sum_where sel t_pt track <= 32767.
Proof.
  assert (0 <= sum_where sel t_pt track <= sumZ (map t_pt track)).
  { apply sum_where_le. intros tk Hin. pose proof Htk as F. rewrite Forall_forall in F. destruct (F tk Hin) as [_ [? _]]. assumption. }
  destruct HO as [? _]. lia.
Qed.
Lemma em_tksum_rg k : 0 <= em_tksum em track mu k <= 32767.
Proof. apply sel_tksum_rg. Qed.
Lemma sel_err2_rg sel : 0 <= sum_where sel (fun t => t_pterr t * t_pterr t) track <= 1431655765.
Proof.
  pose proof (sum_where_le sel (fun t => t_pterr t * t_pterr t) track) as H.
  destruct HO as [_ [? _]]. assert (forall x, In x track -> 0 <= t_pterr x * t_pterr x) by (intros; nia).
  specialize (H H1). lia.
Qed.
Lemma sel_emsum_rg sel : 0 <= sum_where sel e_pt em <= 32767.
Proof.
  assert (0 <= sum_where sel e_pt em <= sumZ (map e_pt em)).
  { apply sum_where_le. intros e Hin. pose proof Hem as F. rewrite Forall_forall in F. destruct (F e Hin) as [_ [? _]]. assumption. }
  destruct HO as (_ & _ & ? & _). lia.
Qed.

Lemma hw_em_link : tk2em_link em track (mapi (fun i _ => is_mu track mu i) track)
  = mapi (fun i tk => onehot (length em) (em_match em track mu i tk)) track.
Proof. rewrite tk2em_link_spec, combine_mapi_r, map_mapi. reflexivity. Qed.

Lemma hw_em_sum : 
  tk2em_sumtk track (mapi (fun i tk => onehot (length em) (em_match em track mu i tk)) track) (length em)
  = mapi (fun k _ => em_tksum em track mu k) em.
Proof.
  unfold tk2em_sumtk. rewrite (map_seq_mapi _ em). apply mapi_ext_in. intros k e Hk.
  assert (L : (k < length em)%nat) by (apply nth_error_Some; congruence).
  unfold tk2em_sumtk_one. rewrite combine_mapi_r.
  rewrite (fold_wrap_sum _ (fun p => if nth k (snd p) false then t_pt (fst p) else 0)).
  - rewrite map_mapi. cbn [fst snd]. rewrite Z.add_0_l.
    rewrite (mapi_ext_in _ (fun i tk => if opt_is (em_match em track mu i tk) k then t_pt tk else 0)).
    2:{ intros i tk _. rewrite nth_onehot by assumption. reflexivity. }
    change (pt_t (em_tksum em track mu k) = em_tksum em track mu k). apply wrapS16_id. pose proof (em_tksum_rg k). lia.
  - unfold inS; simpl; lia.
  - intros s [tk bits] Hs _. cbn [fst snd]. destruct (nth k bits false); [reflexivity|].
    rewrite Z.add_0_r. symmetry. apply wrapS_id; [lia|assumption].
Qed.

Lemma emalgo_one e S : em_phys e -> e_pterr e <= 23170 -> 0 <= S <= 32767 ->
  tk2em_emalgo_one e S = Ok (em_class e S, pho_pt e S).
Proof.
  intros [(P & E & _) [HPt HE]] HE2 HS. unfold inS in P, E. simpl in P, E.
  unfold tk2em_emalgo_one, em_class, pho_pt. cbv zeta.
  destruct (Z.eqb_spec S 0) as [->|NS]; [reflexivity|].
  unfold pt_t. rewrite wrapS16_id by lia.
  set (d := e_pt e - S). assert (Hd : -32767 <= d <= 32767) by lia.
  rewrite (i32_Ok (d * d)) by nia. cbn [bind].
  set (q := e_pterr e * e_pterr e). assert (Hq : 0 <= q <= 536848900) by (unfold q; nia).
  rewrite (i32_Ok q) by lia. cbn [bind]. rewrite (i32_Ok (q * 4)) by lia. cbn [bind].
  rewrite Z.shiftr_div_pow2 by lia. change (2 ^ 1) with 2.
  assert (0 <= q / 2 <= q) by (split; [apply Z.div_pos; lia|apply Z.div_le_upper_bound; lia]).
  rewrite i32_Ok by lia. cbn [bind orb].
  destruct (Z.gtb_spec d 0) as [G|G]; cbn [andb orb].
  - destruct (Z.ltb_spec 0 d); [|lia]. destruct (Z.ltb_spec d 0); [lia|]. cbn [andb orb]. rewrite orb_false_r.
    destruct (Z.leb_spec (d * d) (q + q / 2)); destruct (Z.ltb_spec (q + q / 2) (d * d)); try lia; reflexivity.
  - destruct (Z.ltb_spec 0 d); [lia|]. cbn [andb orb].
    destruct (Z.ltb_spec d 0); cbn [andb]; [|reflexivity].
    replace (4 * q) with (q * 4) by lia. destruct (d * d <? q * 4); reflexivity.
Qed.

Lemma hw_emalgo : tk2em_emalgo em (mapi (fun k _ => em_tksum em track mu k) em)
  = Ok (mapi (fun k e => (is_em em track mu k e, pho_pt e (em_tksum em track mu k))) em).
Proof.
  unfold tk2em_emalgo. rewrite combine_mapi_r. apply mapM_mapi. intros k e Hk.
  apply emalgo_one; [eapply em_at; eauto| |apply em_tksum_rg].
  destruct HO as (_ & _ & _ & F). rewrite Forall_forall in F. apply F. eapply nth_error_In; eauto.
Qed.

Lemma ne_obj_match p eta phi id pup :
  mkNe p (if negb (p =? 0) then eta else 0) (if negb (p =? 0) then phi else 0) (if negb (p =? 0) then id else 0) pup
  = ne_obj p eta phi id pup.
Proof. unfold ne_obj. destruct (Z.eqb_spec p 0); subst; reflexivity. Qed.

Lemma hw_photons old :
  tk2em_photons em (mapi (fun k e => pho_pt e (em_tksum em track mu k)) em) old
  = mapi (sp_pho em track mu (fun k => n_puppi (old k))) em.
Proof.
  unfold tk2em_photons. rewrite combine_mapi_r, mapi_mapi. apply mapi_ext_in. intros k e _.
  unfold tk2em_photons_one, sp_pho. apply ne_obj_match.
Qed.

Lemma fold_or {A} (g : A -> bool) l (b : bool) : fold_left (fun (x : bool) p => if g p then true else x) l b = b || existsb g l.
Proof.
  revert b; induction l as [|p l IH]; intros b; cbn [fold_left existsb]; [rewrite orb_false_r; reflexivity|].
  rewrite IH. destruct (g p), b; reflexivity.
Qed.

Lemma elealgo_row (isEM : list bool) m : (forall k, m = Some k -> (k < length isEM)%nat) ->
  fold_left (fun (ele : bool) '(e, b) => if (e : bool) && b then true else ele) (combine isEM (onehot (length isEM) m)) false
  = match m with Some k => nth k isEM false | None => false end.
Proof.
  intros Hm. rewrite (fold_left_ext _ (fun (x : bool) (p : bool * bool) => if fst p && snd p then true else x)) by (intros b [x y] _; reflexivity).
  rewrite (fold_or (fun p : bool * bool => fst p && snd p)). cbn [orb].
  destruct m as [k|].
  - specialize (Hm k eq_refl). destruct (nth k isEM false) eqn:E.
    + apply existsb_exists. exists (true, true). split; [|reflexivity]. apply nth_error_In with k.
      rewrite nth_error_combine, nth_error_onehot, Nat.eqb_refl by assumption.
      destruct (nth_error_lt isEM k Hm) as [b Hb]. rewrite Hb. rewrite (nth_error_nth' _ _ false _ Hb) in E. subst. reflexivity.
    + apply not_true_is_false. intros C. apply existsb_exists in C as ([x y] & Hin & Hxy).
      apply In_nth_error in Hin as [j Hj]. rewrite nth_error_combine in Hj.
      destruct (nth_error isEM j) as [b|] eqn:Eb; [|discriminate].
      rewrite nth_error_onehot in Hj by (apply nth_error_Some; congruence). inversion Hj; subst. cbn in Hxy.
      apply andb_true_iff in Hxy as [-> Hk]. apply Nat.eqb_eq in Hk. subst. rewrite (nth_error_nth' _ _ false _ Eb) in E. discriminate.
  - apply not_true_is_false. intros C. apply existsb_exists in C as ([x y] & Hin & Hxy).
    apply In_nth_error in Hin as [j Hj]. rewrite nth_error_combine in Hj.
    destruct (nth_error isEM j) as [b|] eqn:Eb; [|discriminate].
    rewrite nth_error_onehot in Hj by (apply nth_error_Some; congruence). inversion Hj; subst. cbn in Hxy.
    rewrite andb_false_r in Hxy. discriminate.
Qed.

Lemma hw_elealgo :
  tk2em_elealgo (mapi (fun i tk => onehot (length em) (em_match em track mu i tk)) track)
                (mapi (is_em em track mu) em)
  = mapi (is_ele em track mu) track.
Proof.
  unfold tk2em_elealgo. rewrite map_mapi. apply mapi_ext_in. intros i tk Hi.
  pose proof (elealgo_row (mapi (is_em em track mu) em) (em_match em track mu i tk)) as R.
  rewrite length_mapi in R. rewrite R by (intros k Hk; eapply em_match_lt; eauto).
  unfold is_ele. destruct (em_match em track mu i tk) as [k|] eqn:E; [|reflexivity].
  destruct (nth_error_lt em k (em_match_lt _ _ _ E)) as [e He]. rewrite He.
  apply nth_error_nth'. rewrite nth_error_mapi, He. reflexivity.
Qed.

(** ** subtraction of EM energy from the hadronic clusters *)
Lemma sumem_fold (sel bad : nat -> EmCalo -> bool) h :
  forall l, (forall e, In e l -> True) ->
  fold_left (fun '(sum, keep) '((e, isem), bits) =>
               if nth h bits false
               then (if (isem : bool) then (pt_t (sum + e_pt e), keep) else (sum, false))
               else (sum, keep)) l (0, false) =
  (pt_t (sumZ (map (fun '((e, isem), bits) => if (isem : bool) && nth h bits false then e_pt e else 0) l)), false).
Proof.
  intros l _.
  assert (G : forall l s, inS 16 s -> fold_left (fun '(sum, keep) '((e, isem), bits) =>
               if nth h bits false
               then (if (isem : bool) then (pt_t (sum + e_pt e), keep) else (sum, false))
               else (sum, keep)) l (s, false) =
   (pt_t (s + sumZ (map (fun '((e, isem), bits) => if (isem : bool) && nth h bits false then e_pt e else 0) l)), false)).
  { clear. induction l as [|[[e isem] bits] l IH]; intros s Hs; cbn [fold_left map].
    - cbn. rewrite Z.add_0_r. unfold pt_t. rewrite wrapS_id; [reflexivity|lia|assumption].
    - destruct (nth h bits false).
      + destruct isem; cbn [andb].
        * rewrite IH by (unfold pt_t; apply wrapS_range; lia). cbn [sumZ fold_right]. f_equal.
          unfold pt_t. rewrite wrapS_wrapS_add by lia. f_equal. unfold sumZ. lia.
        * rewrite IH by assumption. reflexivity.
      + rewrite IH by assumption. rewrite andb_false_r. reflexivity. }
  rewrite G by (unfold inS; simpl; lia). reflexivity.
Qed.

Lemma hw_sumem :
  em2calo_sumem em (mapi (is_em em track mu) em) (em2calo_link em had) (length had)
  = mapi (fun h _ => (had_emsum em had track mu h, false)) had.
Proof.
  rewrite em2calo_link_spec.
  2:{ eapply Forall_impl; [|exact Hem]. intros e [H _]. exact H. }
  unfold em2calo_sumem. rewrite (map_seq_mapi _ had). apply mapi_ext_in. intros h c Hh.
  assert (L : (h < length had)%nat) by (apply nth_error_Some; congruence).
  unfold em2calo_sumem_one. rewrite combine_mapi_r, (map_as_mapi (fun e => onehot _ _) em), combine_mapi.
  rewrite (sumem_fold (fun _ _ => false) (fun _ _ => false)) by auto. f_equal. rewrite map_mapi.
  rewrite (mapi_ext_in _ (fun k e => if is_em em track mu k e && opt_is (best (cand_em_had had e)) h then e_pt e else 0)).
  2:{ intros k e _. rewrite nth_onehot by assumption. reflexivity. }
  change (pt_t (had_emsum em had track mu h) = had_emsum em had track mu h). apply wrapS16_id.
  pose proof (sel_emsum_rg (fun k e => is_em em track mu k e && opt_is (best (cand_em_had had e)) h)) as R.
  fold (had_emsum em had track mu h) in R. lia.
Qed.

Lemma had_emsum_rg h : 0 <= had_emsum em had track mu h <= 32767.
Proof. apply sel_emsum_rg. Qed.

Lemma keep_false h : had_keep em had track mu false h = false.
Proof. reflexivity. Qed.

Lemma sub_one h c : nth_error had h = Some c ->
  h_pt (em2calo_sub_one c (had_emsum em had track mu h) false) = had_left_pt em had track mu false h c /\
  (had_left_pt em had track mu false h c = 0 \/
    (h_eta (em2calo_sub_one c (had_emsum em had track mu h) false) = h_eta c /\
     h_phi (em2calo_sub_one c (had_emsum em had track mu h) false) = h_phi c)) /\
  had_phys (em2calo_sub_one c (had_emsum em had track mu h) false).
Proof.
  intros Hh. destruct (had_at _ _ Hh) as [(P & A & B & C) [HPt HEm]]. unfold inS in P, C. simpl in P, C.
  pose proof (had_emsum_rg h) as RE. set (E := had_emsum em had track mu h) in *.
  unfold em2calo_sub_one, had_left_pt. cbv zeta. fold E. rewrite keep_false.
  unfold pt_t. rewrite !wrapS16_id by lia.
  rewrite !Z.shiftr_div_pow2 by lia. change (2 ^ 4) with 16. change (2 ^ 3) with 8.
  destruct ((h_pt c - E <=? h_pt c / 16) || (h_isem c && (h_empt c - E <=? h_empt c / 8) && negb false)) eqn:K; cbn [h_pt h_eta h_phi].
  - split; [reflexivity|]. split; [left; reflexivity|]. unfold had_phys, had_ok, inS; cbn; lia.
  - split; [reflexivity|]. split; [right; auto|].
    apply orb_false_iff in K as [K _]. apply Z.leb_gt in K.
    assert (0 <= h_pt c / 16) by (apply Z.div_pos; lia).
    unfold had_phys, had_ok, inS. cbn [h_pt h_eta h_phi h_empt]. simpl (2 ^ _).
    unfold inS in A, B. simpl in A, B.
    destruct (Z.gtb_spec (h_empt c - E) 0); lia.
Qed.

Lemma hw_sub : em2calo_sub had (mapi (fun h _ => (had_emsum em had track mu h, false)) had)
  = mapi (fun h c => em2calo_sub_one c (had_emsum em had track mu h) false) had.
Proof. unfold em2calo_sub. rewrite combine_mapi_r, map_mapi. reflexivity. Qed.

Lemma cand_tk_had_sub cap (f : nat -> HadCalo -> HadCalo) (g : nat -> HadCalo -> HadCalo) l tk :
  (forall h c, nth_error l h = Some c -> h_pt (f h c) = h_pt (g h c) /\
     (h_pt (f h c) = 0 \/ (h_eta (f h c) = h_eta (g h c) /\ h_phi (f h c) = h_phi (g h c)))) ->
  cand_tk_had cap (mapi f l) tk = cand_tk_had cap (mapi g l) tk.
Proof.
  intros H. unfold cand_tk_had. rewrite !map_mapi. apply mapi_ext_in. intros h c Hh. cbv zeta.
  destruct (H h c Hh) as [E1 E2]. unfold metric. rewrite <- E1. destruct E2 as [Z0|[-> ->]]; [|reflexivity].
  rewrite Z0. assert (pt_floor tk <? 0 = false) as -> by (unfold pt_floor; lia). reflexivity.
Qed.

Lemma hw_had_link :
  tk2calo_link_drdpt (mapi (fun h c => em2calo_sub_one c (had_emsum em had track mu h) false) had) track
  = Ok (map (fun tk => onehot (length had) (had_match em had track mu (Some 131071) false tk)) track).
Proof.
  rewrite tk2calo_link_drdpt_spec; [|exact Htk|].
  - rewrite length_mapi. f_equal. apply map_ext. intros tk. f_equal. unfold had_match, had_left. f_equal.
    apply cand_tk_had_sub. intros h c Hh. cbn [h_pt h_eta h_phi]. destruct (sub_one h c Hh) as (E1 & E2 & _).
    rewrite E1. split; [reflexivity|]. exact E2.
  - apply Forall_mapi. intros h c Hh. apply (sub_one h c Hh).
Qed.

Notation hmatch := (had_match em had track mu (Some 131071) false).

Lemma had_match_lt cap kv tk k : had_match em had track mu cap kv tk = Some k -> (k < length had)%nat.
Proof.
  unfold had_match. intros H. apply best_lt in H. unfold cand_tk_had, had_left in H.
  rewrite map_length, length_mapi in H. assumption.
Qed.

Lemma hw_tkalgo :
  tk2calo_tkalgo track (mapi (is_ele em track mu) track) (mapi (fun i _ => is_mu track mu i) track)
     (map (fun tk => onehot (length had) (hmatch tk)) track)
  = mapi (sp_ch em had track mu (Some 131071) false) track.
Proof.
  unfold tk2calo_tkalgo. rewrite (map_as_mapi (fun tk => onehot _ _)), !combine_mapi, combine_mapi_r, combine_mapi, map_mapi.
  apply mapi_ext_in. intros i tk Hi. unfold tk2calo_tkalgo_one, sp_ch, ch_kept. cbv zeta.
  rewrite existsb_onehot by (intros k Hk; eapply had_match_lt; eauto). reflexivity.
Qed.

Lemma foldM_sums (sel : nat -> Tk -> bool) (l : list Tk) F :
  (forall t, In t l -> 0 <= t_pt t) ->
  sumZ (map t_pt l) <= 32767 -> sumZ (map (fun t => t_pterr t * t_pterr t) l) <= 2147483647 ->
  (forall i t s e, nth_error l i = Some t ->
     F (s, e) (i, t) = if sel i t then do e' <- i32 (e + t_pterr t * t_pterr t); Ok (pt_t (s + t_pt t), e') else Ok (s, e)) ->
  foldM F (indexed l) (0, 0) = Ok (sum_where sel t_pt l, sum_where sel (fun t => t_pterr t * t_pterr t) l).
Proof.
  intros H0 H1 H2 HF. revert H0 H1 H2 HF. induction l as [|t l IH] using rev_ind; intros H0 H1 H2 HF; [reflexivity|].
  rewrite map_app, sumZ_app in H1, H2. cbn [map sumZ fold_right] in H1, H2.
  rewrite indexed_snoc, foldM_app.
  assert (Hl : forall u, In u l -> 0 <= t_pt u) by (intros; apply H0; apply in_or_app; auto).
  pose proof (H0 t ltac:(apply in_or_app; right; left; reflexivity)) as Ht.
  assert (Q : 0 <= t_pterr t * t_pterr t) by nia.
  rewrite IH; [|exact Hl|lia|lia|].
  2:{ intros i u s e Hi. apply HF. rewrite nth_error_app1; [assumption|]. apply nth_error_Some; congruence. }
  cbn [bind foldM]. rewrite HF by (rewrite nth_error_app2, Nat.sub_diag by lia; reflexivity).
  rewrite !sum_where_snoc.
  pose proof (sum_where_le sel t_pt l Hl) as R1.
  pose proof (sum_where_le sel (fun t => t_pterr t * t_pterr t) l ltac:(intros; nia)) as R2. cbv beta in R2.
  destruct (sel (length l) t).
  - rewrite i32_Ok by lia. cbn [bind]. unfold pt_t. rewrite wrapS16_id by lia. reflexivity.
  - cbn [bind]. rewrite !Z.add_0_r. reflexivity.
Qed.

Lemma hw_hadsums :
  tk2calo_sumtk track (mapi (is_ele em track mu) track) (mapi (fun i _ => is_mu track mu i) track)
     (tk2calo_tkerr2 track) (map (fun tk => onehot (length had) (hmatch tk)) track) (length had)
  = Ok (mapi (fun h _ => (had_tksum em had track mu (Some 131071) false h,
                          had_err2 em had track mu (Some 131071) false h)) had).
Proof.
  unfold tk2calo_sumtk. rewrite <- (map_id (seq 0 (length had))), (map_seq_mapi (fun i => i) had). apply mapM_mapi.
  intros h c Hh. assert (L : (h < length had)%nat) by (apply nth_error_Some; congruence).
  unfold tk2calo_sumtk_one, tk2calo_tkerr2.
  rewrite (map_as_mapi (fun tk => onehot _ _)), (map_as_mapi (fun t => t_pterr t * t_pterr t)).
  rewrite !combine_mapi, combine_mapi_r, !combine_mapi. unfold mapi at 1. rewrite foldM_map.
  apply (foldM_sums (in_had em had track mu (Some 131071) false h)).
  - intros t Hin. pose proof Htk as F. rewrite Forall_forall in F. destruct (F t Hin) as [_ [? _]]. assumption.
  - apply HO.
  - destruct HO as [_ [? _]]. lia.
  - intros i t s e Hi. cbn [fst snd]. rewrite nth_onehot by assumption. unfold in_had, opt_is.
    rewrite <- !andb_assoc. rewrite (andb_comm (match _ with Some _ => _ | None => _ end)). reflexivity.
Qed.

Lemma had_left_rg h c : nth_error had h = Some c -> 0 <= had_left_pt em had track mu false h c <= 32767.
Proof.
  intros Hh. destruct (sub_one h c Hh) as (E & _ & (P & _) & HPt & _). rewrite <- E. unfold inS in P; simpl in P. lia.
Qed.

Lemma hw_caloalgo old :
  tk2calo_caloalgo (mapi (fun h c => em2calo_sub_one c (had_emsum em had track mu h) false) had)
     (mapi (fun h _ => (had_tksum em had track mu (Some 131071) false h,
                        had_err2 em had track mu (Some 131071) false h)) had) old
  = Ok (mapi (sp_ne em had track mu (Some 131071) false (fun h => n_puppi (old h))) had).
Proof.
  unfold tk2calo_caloalgo. rewrite combine_mapi. 
  replace (indexed (mapi _ had)) with
     (mapi (fun i c => (i, (em2calo_sub_one c (had_emsum em had track mu i) false,
         (had_tksum em had track mu (Some 131071) false i, had_err2 em had track mu (Some 131071) false i)))) had).
  2:{ apply nth_error_ext; intros i. rewrite nth_error_indexed, !nth_error_mapi. destruct (nth_error had i); reflexivity. }
  apply mapM_mapi. intros h c Hh. unfold tk2calo_caloalgo_one, sp_ne, ne_pt.
  destruct (sub_one h c Hh) as (E1 & E2 & _). rewrite E1. clear E1.
  pose proof (had_left_rg h c Hh) as RL. set (P := had_left_pt em had track mu false h c) in *.
  pose proof (sel_tksum_rg (in_had em had track mu (Some 131071) false h)) as RS. fold (had_tksum em had track mu (Some 131071) false h) in RS.
  set (S := had_tksum em had track mu (Some 131071) false h) in *.
  pose proof (sel_err2_rg (in_had em had track mu (Some 131071) false h)) as RR. fold (had_err2 em had track mu (Some 131071) false h) in RR.
  set (R := had_err2 em had track mu (Some 131071) false h) in *.
  set (c' := em2calo_sub_one c (had_emsum em had track mu h) false) in *.
  assert (HC : (if S =? 0 then Ok P
        else if pt_t (P - S) >? 0
             then do s <- i32 (R + Z.shiftr R 1); Ok (if pt_t (P - S) * pt_t (P - S) >? s then pt_t (P - S) else 0)
             else Ok 0) = Ok (ne_balance P S R)).
  { unfold ne_balance. destruct (S =? 0); [reflexivity|]. unfold pt_t. rewrite wrapS16_id by lia. cbv zeta.
    destruct (Z.gtb_spec (P - S) 0); destruct (Z.ltb_spec 0 (P - S)); try lia; cbn [andb]; [|reflexivity].
    rewrite Z.shiftr_div_pow2 by lia. change (2 ^ 1) with 2.
    assert (0 <= R / 2 /\ 2 * (R / 2) <= R) by (split; [apply Z.div_pos; lia|apply Z.mul_div_le; lia]).
    rewrite i32_Ok by lia. cbn [bind].
    destruct (Z.gtb_spec ((P - S) * (P - S)) (R + R / 2)); destruct (Z.ltb_spec (R + R / 2) ((P - S) * (P - S))); try lia; reflexivity. }
  cbv zeta in *. rewrite HC. cbn [bind]. f_equal. rewrite ne_obj_match. unfold ne_obj.
  destruct (Z.eqb_spec (ne_balance P S R) 0) as [|N]; [reflexivity|].
  destruct E2 as [Z0|[-> ->]]; [|reflexivity]. exfalso. apply N. unfold ne_balance. rewrite Z0.
  destruct (S =? 0); [reflexivity|]. cbv zeta. destruct (Z.ltb_spec 0 (0 - S)); [lia|]. reflexivity.
Qed.

Lemma ne_pt_nonneg cap kv h c : 0 <= had_left_pt em had track mu kv h c -> 0 <= ne_pt em had track mu cap kv h c.
Proof.
  intros H. unfold ne_pt, ne_balance. destruct (_ =? 0); [assumption|]. cbv zeta.
  destruct (Z.ltb_spec 0 (had_left_pt em had track mu kv h c - had_tksum em had track mu cap kv h)); cbn [andb]; [|lia].
  destruct (_ <? _); lia.
Qed.

Theorem pfalgo3_full_spec mem nsel : (nsel <= length had)%nat -> Forall mu_ok mu ->
  pfalgo3_full mem nsel em had track mu =
  Ok (mkOut (mapi (sp_ch em had track mu (Some 131071) false) track)
            (mapi (sp_pho em track mu (fun k => n_puppi (old_outpho mem k))) em)
            (firstn nsel (sorted_cands n_pt
                (mapi (sp_ne em had track mu (Some 131071) false (fun h => n_puppi (junk_ne_all mem h))) had)))
            (map (sp_mu track) mu)).
Proof.
  intros Hn Hmu. unfold pfalgo3_full. cbv zeta.
  rewrite hw_mualgo by (auto using Htk). cbn [bind].
  rewrite hw_em_link, hw_em_sum, hw_emalgo. cbn [bind]. rewrite !map_mapi. cbn [fst snd].
  rewrite hw_photons.
  change (mapi (fun i x => is_em em track mu i x) em) with (mapi (is_em em track mu) em).
  rewrite hw_elealgo, hw_sumem, hw_sub, hw_had_link. cbn [bind].
  rewrite hw_hadsums. cbn [bind]. rewrite hw_caloalgo. cbn [bind]. rewrite hw_tkalgo.
  rewrite ptsort_hwopt_sorted.
  - reflexivity.
  - intros x. reflexivity.
  - intros x Hx. apply in_mapi in Hx as (h & c & Hh & ->). unfold sp_ne, ne_obj.
    pose proof (ne_pt_nonneg (Some 131071) false h c (proj1 (had_left_rg h c Hh))).
    destruct (_ =? 0); cbn; lia.
  - rewrite length_mapi. assumption.
Qed.
End Dom.
