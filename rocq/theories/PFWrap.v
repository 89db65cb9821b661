(** The firmware model computes the specification of SpecPFWrap on the whole
    physical domain, or overflows an [int]; it computes the specification of
    SpecPF where the sums formed for each cluster fit. *)
From Verif Require Import Base BaseFacts Data PFHw SpecLink SpecPF SpecPFWrap LinkFacts PFMatch MapiFacts SortFacts PFHwSpec PFTotal.

Lemma i32_over x : 2147483647 < x -> i32 x = UB SignedOverflow.
Proof. intros H. unfold i32. destruct (Z.leb_spec x 2147483647); [lia|]. rewrite andb_false_r. reflexivity. Qed.

Section Dom.
Variables (em : list EmCalo) (had : list HadCalo) (track : list Tk) (mu : list Mu).
Hypothesis (HP : phys em had track mu).

Lemma w16_rg x : -32768 <= w16 x <= 32767.
Proof. apply wrapS16_rg. Qed.
Lemma w16_inS x : inS 16 (w16 x).
Proof. unfold w16. apply wrapS_range. lia. Qed.


Lemma hw_em_sum_w :
  tk2em_sumtk track (mapi (fun i tk => onehot (length em) (em_match em track mu i tk)) track) (length em)
  = mapi (fun k _ => em_tksum_w em track mu k) em.
Proof.
  unfold tk2em_sumtk. rewrite (map_seq_mapi _ em). apply mapi_ext_in. intros k e Hk.
  assert (L : (k < length em)%nat) by (apply nth_error_Some; congruence).
  unfold tk2em_sumtk_one. rewrite combine_mapi_r.
  rewrite (fold_wrap_sum _ (fun p => if nth k (snd p) false then t_pt (fst p) else 0)).
  - rewrite map_mapi. cbn [fst snd]. rewrite Z.add_0_l.
    rewrite (mapi_ext_in _ (fun i tk => if opt_is (em_match em track mu i tk) k then t_pt tk else 0)).
    2:{ intros i tk _. rewrite nth_onehot by assumption. reflexivity. }
    reflexivity.
  - unfold inS; simpl; lia.
  - intros s [tk bits] Hs _. cbn [fst snd]. destruct (nth k bits false); [reflexivity|].
    rewrite Z.add_0_r. symmetry. apply wrapS_id; [lia|assumption].
Qed.

Lemma emalgo_one_w e S : em_phys e ->
  ((S <> 0 -> 4 * (e_pterr e * e_pterr e) < 2 ^ 31) -> tk2em_emalgo_one e S = Ok (em_class_w e S, pho_pt_w e S)) /\
  (S <> 0 -> 2 ^ 31 <= 4 * (e_pterr e * e_pterr e) -> tk2em_emalgo_one e S = UB SignedOverflow).
Proof.
  intros [(P & E & _) [HPt HE]]. unfold inS in P, E. simpl in P, E.
  unfold tk2em_emalgo_one, em_class_w, pho_pt_w. cbv zeta.
  destruct (Z.eqb_spec S 0) as [->|NS]; [split; [reflexivity|intros X; elim X; reflexivity]|].
  change (pt_t (e_pt e - S)) with (w16 (e_pt e - S)). pose proof (w16_rg (e_pt e - S)) as Hd.
  set (d := w16 (e_pt e - S)) in *. clearbody d.
  rewrite (i32_Ok (d * d)) by nia. cbn [bind].
  set (q := e_pterr e * e_pterr e). assert (Hq : 0 <= q <= 1073741824) by (unfold q; nia). clearbody q.
  rewrite (i32_Ok q) by lia. cbn [bind]. change (2 ^ 31) with 2147483648. split.
  - intros HQ. specialize (HQ NS). rewrite (i32_Ok (q * 4)) by lia. cbn [bind].
    rewrite Z.shiftr_div_pow2 by lia. change (2 ^ 1) with 2.
    assert (0 <= q / 2 <= q) by (split; [apply Z.div_pos; lia|apply Z.div_le_upper_bound; lia]).
    rewrite i32_Ok by lia. cbn [bind orb].
    destruct (Z.gtb_spec d 0) as [G|G]; cbn [andb orb].
    + destruct (Z.ltb_spec 0 d); [|lia]. destruct (Z.ltb_spec d 0); [lia|]. cbn [andb orb]. rewrite orb_false_r.
      destruct (Z.leb_spec (d * d) (q + q / 2)); destruct (Z.ltb_spec (q + q / 2) (d * d)); try lia; reflexivity.
    + destruct (Z.ltb_spec 0 d); [lia|]. cbn [andb orb].
      destruct (Z.ltb_spec d 0); cbn [andb]; [|reflexivity].
      replace (4 * q) with (q * 4) by lia. destruct (d * d <? q * 4); reflexivity.
  - intros _ HQ. rewrite i32_over by lia. reflexivity.
Qed.

(** a [mapM] whose elements either succeed or fail with the same undefined behaviour *)
Lemma mapM_mapi_or {A B C} (f : B -> res C) (h : nat -> A -> B) (g : nat -> A -> C) (P : nat -> A -> Prop) k l :
  (forall i x, nth_error l i = Some x -> P i x \/ ~ P i x) ->
  (forall i x, nth_error l i = Some x -> P i x -> f (h i x) = Ok (g i x)) ->
  (forall i x, nth_error l i = Some x -> ~ P i x -> f (h i x) = UB k) ->
  ((forall i x, nth_error l i = Some x -> P i x) /\ mapM f (mapi h l) = Ok (mapi g l)) \/
  (~ (forall i x, nth_error l i = Some x -> P i x) /\ mapM f (mapi h l) = UB k).
Proof.
  intros D HY HN.
  assert (X : (forall i x, nth_error l i = Some x -> P i x) \/ exists i x, nth_error l i = Some x /\ ~ P i x).
  { clear HY HN. revert P D. induction l as [|a l IH]; intros P D; [left; intros [|i] x Hx; discriminate|].
    destruct (D 0%nat a eq_refl) as [H0|H0]; [|right; exists 0%nat, a; auto].
    destruct (IH (fun i => P (S i)) (fun i x Hi => D (S i) x Hi)) as [H|(i & x & Hi & H)].
    - left. intros [|i] x Hx; [cbn in Hx; injection Hx as <-; exact H0|apply H; exact Hx].
    - right. exists (S i), x. auto. }
  destruct X as [X|(i & x & Hi & NX)].
  - left. split; [exact X|]. apply mapM_mapi. auto.
  - right. split; [intros F; apply NX, F, Hi|]. apply mapM_UB.
    + intros y Hy. apply in_mapi in Hy as (j & z & Hj & ->). destruct (D j z Hj) as [Y|N]; [left; eexists; apply HY; eauto|right; auto].
    + exists (h i x). split; [apply in_mapi; eauto|auto].
Qed.

Definition em_fit (k : nat) (e : EmCalo) : Prop := em_tksum_w em track mu k <> 0 -> 4 * (e_pterr e * e_pterr e) < 2 ^ 31.

Lemma hw_emalgo_w :
  ((forall k e, nth_error em k = Some e -> em_fit k e) /\
   tk2em_emalgo em (mapi (fun k _ => em_tksum_w em track mu k) em)
   = Ok (mapi (fun k e => (is_em_w em track mu k e, pho_pt_w e (em_tksum_w em track mu k))) em)) \/
  (~ (forall k e, nth_error em k = Some e -> em_fit k e) /\
   tk2em_emalgo em (mapi (fun k _ => em_tksum_w em track mu k) em) = UB SignedOverflow).
Proof.
  unfold tk2em_emalgo. rewrite combine_mapi_r. apply mapM_mapi_or.
  - intros k e _. unfold em_fit. destruct (Z.eq_dec (em_tksum_w em track mu k) 0); [left; intros; contradiction|].
    destruct (Z.lt_ge_cases (4 * (e_pterr e * e_pterr e)) (2 ^ 31)); [left; auto|right; intros H0; specialize (H0 n); lia].
  - intros k e Hk HF. apply emalgo_one_w; [eapply em_at; eauto|exact HF].
  - intros k e Hk HF. unfold em_fit in HF. apply emalgo_one_w; [eapply em_at; eauto| |].
    + intros Z0. apply HF. intros; contradiction.
    + destruct (Z.le_gt_cases (2 ^ 31) (4 * (e_pterr e * e_pterr e))); [assumption|]. elim HF. intros _. assumption.
Qed.


Lemma hw_photons_w old :
  tk2em_photons em (mapi (fun k e => pho_pt_w e (em_tksum_w em track mu k)) em) old
  = mapi (sp_pho_w em track mu (fun k => n_puppi (old k))) em.
Proof.
  unfold tk2em_photons. rewrite combine_mapi_r, mapi_mapi. apply mapi_ext_in. intros k e _.
  unfold tk2em_photons_one, sp_pho_w. apply ne_obj_match.
Qed.


Lemma hw_elealgo_w :
  tk2em_elealgo (mapi (fun i tk => onehot (length em) (em_match em track mu i tk)) track)
                (mapi (is_em_w em track mu) em)
  = mapi (is_ele_w em track mu) track.
Proof.
  unfold tk2em_elealgo. rewrite map_mapi. apply mapi_ext_in. intros i tk Hi.
  pose proof (elealgo_row (mapi (is_em_w em track mu) em) (em_match em track mu i tk)) as R.
  rewrite length_mapi in R. rewrite R by (intros k Hk; eapply em_match_lt; eauto).
  unfold is_ele_w. destruct (em_match em track mu i tk) as [k|] eqn:E; [|reflexivity].
  destruct (nth_error_lt em k (em_match_lt _ _ _ _ _ _ E)) as [e He]. rewrite He.
  apply nth_error_nth'. rewrite nth_error_mapi, He. reflexivity.
Qed.

(** ** subtraction of EM energy from the hadronic clusters *)

Lemma hw_sumem_w :
  em2calo_sumem em (mapi (is_em_w em track mu) em) (em2calo_link em had) (length had)
  = mapi (fun h _ => (had_emsum_w em had track mu h, false)) had.
Proof.
  rewrite em2calo_link_spec.
  2:{ eapply Forall_impl; [|exact (Hem _ _ _ _ HP)]. intros e [H _]. exact H. }
  unfold em2calo_sumem. rewrite (map_seq_mapi _ had). apply mapi_ext_in. intros h c Hh.
  assert (L : (h < length had)%nat) by (apply nth_error_Some; congruence).
  unfold em2calo_sumem_one. rewrite combine_mapi_r, (map_as_mapi (fun e => onehot _ _) em), combine_mapi.
  rewrite (sumem_fold (fun _ _ => false) (fun _ _ => false)) by auto. f_equal. rewrite map_mapi.
  rewrite (mapi_ext_in _ (fun k e => if is_em_w em track mu k e && opt_is (best (cand_em_had had e)) h then e_pt e else 0)).
  2:{ intros k e _. rewrite nth_onehot by assumption. reflexivity. }
  reflexivity.
Qed.

Lemma sub_one_w h c : nth_error had h = Some c ->
  h_pt (em2calo_sub_one c (had_emsum_w em had track mu h) false) = had_left_pt_w em had track mu h c /\
  (had_left_pt_w em had track mu h c = 0 \/
    (h_eta (em2calo_sub_one c (had_emsum_w em had track mu h) false) = h_eta c /\
     h_phi (em2calo_sub_one c (had_emsum_w em had track mu h) false) = h_phi c)) /\
  had_phys (em2calo_sub_one c (had_emsum_w em had track mu h) false).
Proof.
  intros Hh. destruct (had_at _ _ _ _ HP _ _ Hh) as [(P & A & B & C) [HPt HEm]]. unfold inS in P, C. simpl in P, C.
  set (E := had_emsum_w em had track mu h) in *.
  unfold em2calo_sub_one, had_left_pt_w. cbv zeta. fold E.
  change (pt_t (h_pt c - E)) with (w16 (h_pt c - E)). change (pt_t (h_empt c - E)) with (w16 (h_empt c - E)).
  pose proof (w16_rg (h_pt c - E)) as R1. pose proof (w16_rg (h_empt c - E)) as R2.
  set (d1 := w16 (h_pt c - E)) in *. set (d2 := w16 (h_empt c - E)) in *. clearbody d1 d2.
  rewrite !Z.shiftr_div_pow2 by lia. change (2 ^ 4) with 16. change (2 ^ 3) with 8. cbn [negb]. rewrite andb_true_r.
  destruct ((d1 <=? h_pt c / 16) || (h_isem c && (d2 <=? h_empt c / 8))) eqn:K; cbn [h_pt h_eta h_phi].
  - split; [reflexivity|]. split; [left; reflexivity|]. unfold had_phys, had_ok, inS; cbn; lia.
  - split; [reflexivity|]. split; [right; auto|].
    apply orb_false_iff in K as [K _]. apply Z.leb_gt in K.
    assert (0 <= h_pt c / 16) by (apply Z.div_pos; lia).
    unfold had_phys, had_ok, inS. cbn [h_pt h_eta h_phi h_empt]. simpl (2 ^ _).
    unfold inS in A, B. simpl in A, B.
    destruct (Z.gtb_spec d2 0); lia.
Qed.

Lemma hw_sub_w : em2calo_sub had (mapi (fun h _ => (had_emsum_w em had track mu h, false)) had)
  = mapi (fun h c => em2calo_sub_one c (had_emsum_w em had track mu h) false) had.
Proof. unfold em2calo_sub. rewrite combine_mapi_r, map_mapi. reflexivity. Qed.


Lemma hw_had_link_w :
  tk2calo_link_drdpt (mapi (fun h c => em2calo_sub_one c (had_emsum_w em had track mu h) false) had) track
  = Ok (map (fun tk => onehot (length had) (had_match_w em had track mu tk)) track).
Proof.
  rewrite tk2calo_link_drdpt_spec; [|exact (Htk _ _ _ _ HP)|].
  - rewrite length_mapi. f_equal. apply map_ext. intros tk. f_equal. unfold had_match_w, had_left_w. f_equal.
    apply cand_tk_had_sub. intros h c Hh. cbn [h_pt h_eta h_phi]. destruct (sub_one_w h c Hh) as (E1 & E2 & _).
    rewrite E1. split; [reflexivity|]. exact E2.
  - apply Forall_mapi. intros h c Hh. apply (sub_one_w h c Hh).
Qed.

Lemma had_match_w_lt tk k : had_match_w em had track mu tk = Some k -> (k < length had)%nat.
Proof.
  unfold had_match_w. intros H. apply best_lt in H. unfold cand_tk_had, had_left_w in H.
  rewrite map_length, length_mapi in H. assumption.
Qed.

Lemma hw_tkalgo_w :
  tk2calo_tkalgo track (mapi (is_ele_w em track mu) track) (mapi (fun i _ => is_mu track mu i) track)
     (map (fun tk => onehot (length had) (had_match_w em had track mu tk)) track)
  = mapi (sp_ch_w em had track mu) track.
Proof.
  unfold tk2calo_tkalgo. rewrite (map_as_mapi (fun tk => onehot _ _)), !combine_mapi, combine_mapi_r, combine_mapi, map_mapi.
  apply mapi_ext_in. intros i tk Hi. unfold tk2calo_tkalgo_one, sp_ch_w, ch_kept_w. cbv zeta.
  rewrite existsb_onehot by (intros k Hk; eapply had_match_w_lt; eauto). reflexivity.
Qed.

Lemma foldM_sums_w (sel : nat -> Tk -> bool) (l : list Tk) F :
  (forall i t s e, nth_error l i = Some t ->
     F (s, e) (i, t) = if sel i t then do e' <- i32 (e + t_pterr t * t_pterr t); Ok (pt_t (s + t_pt t), e') else Ok (s, e)) ->
  (sum_where sel (fun t => t_pterr t * t_pterr t) l < 2 ^ 31 ->
     foldM F (indexed l) (0, 0) = Ok (w16 (sum_where sel t_pt l), sum_where sel (fun t => t_pterr t * t_pterr t) l)) /\
  (2 ^ 31 <= sum_where sel (fun t => t_pterr t * t_pterr t) l -> foldM F (indexed l) (0, 0) = UB SignedOverflow).
Proof.
  change (2 ^ 31) with 2147483648. revert F. induction l as [|t l IH] using rev_ind; intros F HF.
  - split; [reflexivity|]. cbn. lia.
  - rewrite indexed_snoc, foldM_app, !sum_where_snoc.
    assert (HF' : forall i u s e, nth_error l i = Some u ->
       F (s, e) (i, u) = if sel i u then do e' <- i32 (e + t_pterr u * t_pterr u); Ok (pt_t (s + t_pt u), e') else Ok (s, e)).
    { intros i u s e Hi. apply HF. rewrite nth_error_app1; [assumption|]. apply nth_error_Some; congruence. }
    destruct (IH F HF') as [IY IN]. clear IH HF'.
    pose proof (sum_where_le sel (fun t => t_pterr t * t_pterr t) l ltac:(intros; nia)) as R2. cbv beta in R2.
    assert (Q : 0 <= t_pterr t * t_pterr t) by nia.
    set (e0 := sum_where sel (fun t => t_pterr t * t_pterr t) l) in *. clearbody e0.
    destruct (Z.lt_ge_cases e0 2147483648) as [L|G].
    + rewrite (IY L). cbn [bind foldM]. rewrite HF by (rewrite nth_error_app2, Nat.sub_diag by lia; reflexivity).
      destruct (sel (length l) t).
      * split; intros H.
        -- rewrite i32_Ok by lia. cbn [bind]. unfold pt_t, w16. rewrite wrapS_wrapS_add by lia. reflexivity.
        -- rewrite i32_over by lia. reflexivity.
      * cbn [bind]. rewrite !Z.add_0_r. split; [reflexivity|lia].
    + rewrite (IN G). cbn [bind]. split; [|reflexivity]. destruct (sel (length l) t); lia.
Qed.

Notation errs := (had_err2_w em had track mu).
Notation tks := (had_tksum_w em had track mu).

Lemma hw_hadsums_w :
  ((forall h c, nth_error had h = Some c -> errs h < 2 ^ 31) /\
   tk2calo_sumtk track (mapi (is_ele_w em track mu) track) (mapi (fun i _ => is_mu track mu i) track)
     (tk2calo_tkerr2 track) (map (fun tk => onehot (length had) (had_match_w em had track mu tk)) track) (length had)
   = Ok (mapi (fun h _ => (tks h, errs h)) had)) \/
  (~ (forall h c, nth_error had h = Some c -> errs h < 2 ^ 31) /\
   tk2calo_sumtk track (mapi (is_ele_w em track mu) track) (mapi (fun i _ => is_mu track mu i) track)
     (tk2calo_tkerr2 track) (map (fun tk => onehot (length had) (had_match_w em had track mu tk)) track) (length had)
   = UB SignedOverflow).
Proof.
  assert (G : forall h c, nth_error had h = Some c ->
    (errs h < 2 ^ 31 -> tk2calo_sumtk_one track (mapi (is_ele_w em track mu) track) (mapi (fun i _ => is_mu track mu i) track)
       (tk2calo_tkerr2 track) (map (fun tk => onehot (length had) (had_match_w em had track mu tk)) track) h = Ok (tks h, errs h)) /\
    (2 ^ 31 <= errs h -> tk2calo_sumtk_one track (mapi (is_ele_w em track mu) track) (mapi (fun i _ => is_mu track mu i) track)
       (tk2calo_tkerr2 track) (map (fun tk => onehot (length had) (had_match_w em had track mu tk)) track) h = UB SignedOverflow)).
  { intros h c Hh. assert (L : (h < length had)%nat) by (apply nth_error_Some; congruence).
    unfold tk2calo_sumtk_one, tk2calo_tkerr2.
    rewrite (map_as_mapi (fun tk => onehot _ _)), (map_as_mapi (fun t => t_pterr t * t_pterr t)).
    rewrite !combine_mapi, combine_mapi_r, !combine_mapi. unfold mapi at 1 2. rewrite foldM_map.
    apply (foldM_sums_w (in_had_w em had track mu h)).
    intros i t s e Hi. cbn [fst snd]. rewrite nth_onehot by assumption. unfold in_had_w, opt_is.
    rewrite <- !andb_assoc. rewrite (andb_comm (match _ with Some _ => _ | None => _ end)). reflexivity. }
  unfold tk2calo_sumtk. rewrite <- (map_id (seq 0 (length had))), (map_seq_mapi (fun i => i) had).
  apply (mapM_mapi_or _ _ (fun h _ => (tks h, errs h)) (fun h _ => errs h < 2 ^ 31)).
  - intros h c _. lia.
  - intros h c Hh. apply (G h c Hh).
  - intros h c Hh N. apply (G h c Hh). lia.
Qed.

Lemma had_left_w_rg h c : nth_error had h = Some c -> 0 <= had_left_pt_w em had track mu h c <= 32767.
Proof.
  intros Hh. destruct (sub_one_w h c Hh) as (E & _ & (P & _) & HPt & _). rewrite <- E. unfold inS in P; simpl in P. lia.
Qed.
Lemma had_err2_w_nonneg h : 0 <= errs h.
Proof. apply (sum_where_le (in_had_w em had track mu h) (fun t => t_pterr t * t_pterr t) track). intros; nia. Qed.

Definition ne_fit (h : nat) (c : HadCalo) : Prop :=
  tks h <> 0 -> 0 < w16 (had_left_pt_w em had track mu h c - tks h) -> errs h + errs h / 2 < 2 ^ 31.

(** a cluster with nothing left is linked to no track *)
Lemma zero_left_tks h c : nth_error had h = Some c -> had_left_pt_w em had track mu h c = 0 -> tks h = 0.
Proof.
  intros Hh Z0. unfold had_tksum_w.
  replace (sum_where (in_had_w em had track mu h) t_pt track) with 0; [reflexivity|].
  symmetry. unfold sum_where. rewrite (mapi_ext_in _ (fun _ _ => 0)).
  - rewrite <- map_as_mapi. clear. induction track as [|t l IH]; [reflexivity|]. cbn [map sumZ]. exact IH.
  - intros i tk _. destruct (in_had_w em had track mu h i tk) eqn:E; [|reflexivity]. exfalso.
    unfold in_had_w in E. apply andb_prop in E as [_ E]. apply opt_is_Some in E. unfold had_match_w in E.
    apply best_spec in E. destruct E as (v & Hv & _). unfold cand_tk_had, had_left_w in Hv.
    rewrite nth_error_map, nth_error_mapi, Hh in Hv. cbn [option_map h_pt] in Hv. rewrite Z0 in Hv. unfold cand_if, pt_floor in Hv.
    destruct (Z.ltb_spec (Z.max 0 (wrapS 16 (t_pt tk - 2 * t_pterr tk))) 0); [lia|discriminate].
Qed.

Lemma hw_caloalgo_w old : (forall h c, nth_error had h = Some c -> errs h < 2 ^ 31) ->
  ((forall h c, nth_error had h = Some c -> ne_fit h c) /\
   tk2calo_caloalgo (mapi (fun h c => em2calo_sub_one c (had_emsum_w em had track mu h) false) had)
     (mapi (fun h _ => (tks h, errs h)) had) old
   = Ok (mapi (sp_ne_w em had track mu (fun h => n_puppi (old h))) had)) \/
  (~ (forall h c, nth_error had h = Some c -> ne_fit h c) /\
   tk2calo_caloalgo (mapi (fun h c => em2calo_sub_one c (had_emsum_w em had track mu h) false) had)
     (mapi (fun h _ => (tks h, errs h)) had) old = UB SignedOverflow).
Proof.
  intros HE. unfold tk2calo_caloalgo. rewrite combine_mapi.
  replace (indexed (mapi _ had)) with
     (mapi (fun i c => (i, (em2calo_sub_one c (had_emsum_w em had track mu i) false, (tks i, errs i)))) had).
  2:{ apply nth_error_ext; intros i. rewrite nth_error_indexed, !nth_error_mapi. destruct (nth_error had i); reflexivity. }
  assert (G : forall h c, nth_error had h = Some c ->
    (ne_fit h c -> tk2calo_caloalgo_one (em2calo_sub_one c (had_emsum_w em had track mu h) false) (tks h) (errs h) (old h)
                   = Ok (sp_ne_w em had track mu (fun h => n_puppi (old h)) h c)) /\
    (~ ne_fit h c -> tk2calo_caloalgo_one (em2calo_sub_one c (had_emsum_w em had track mu h) false) (tks h) (errs h) (old h) = UB SignedOverflow)).
  { intros h c Hh. unfold ne_fit, tk2calo_caloalgo_one, sp_ne_w, ne_pt_w.
    destruct (sub_one_w h c Hh) as (E1 & E2 & _). rewrite E1. clear E1.
    pose proof (had_left_w_rg h c Hh) as RL. set (P := had_left_pt_w em had track mu h c) in *.
    pose proof (had_err2_w_nonneg h) as RR. specialize (HE h c Hh). change (2 ^ 31) with 2147483648 in *.
    assert (TS : -32768 <= tks h <= 32767) by apply w16_rg.
    assert (ZL : P = 0 -> tks h = 0) by (apply (zero_left_tks h c Hh)).
    set (S := tks h) in *. set (R := errs h) in *. clearbody S R.
    set (c' := em2calo_sub_one c (had_emsum_w em had track mu h) false) in *.
    change (pt_t (P - S)) with (w16 (P - S)). cbv zeta.
    rewrite Z.shiftr_div_pow2 by lia. change (2 ^ 1) with 2.
    assert (R2 : 0 <= R / 2 /\ 2 * (R / 2) <= R) by (split; [apply Z.div_pos; lia|apply Z.mul_div_le; lia]).
    split.
    - intros HF.
      assert (HC : (if S =? 0 then Ok P
        else if w16 (P - S) >? 0
             then do s <- i32 (R + R / 2); Ok (if w16 (P - S) * w16 (P - S) >? s then w16 (P - S) else 0)
             else Ok 0) = Ok (ne_balance_w P S R)).
      { unfold ne_balance_w. destruct (Z.eqb_spec S 0) as [|NS]; [reflexivity|]. cbv zeta. set (d := w16 (P - S)) in *. clearbody d.
        destruct (Z.gtb_spec d 0); destruct (Z.ltb_spec 0 d); try lia; cbn [andb]; [|reflexivity].
        rewrite i32_Ok by (specialize (HF NS ltac:(lia)); lia). cbn [bind].
        destruct (Z.gtb_spec (d * d) (R + R / 2)); destruct (Z.ltb_spec (R + R / 2) (d * d)); try lia; reflexivity. }
      rewrite HC. cbn [bind]. f_equal. rewrite ne_obj_match. unfold ne_obj.
      destruct (Z.eqb_spec (ne_balance_w P S R) 0) as [|N]; [reflexivity|].
      destruct E2 as [Z0|[-> ->]]; [|reflexivity]. exfalso. revert N. unfold ne_balance_w. rewrite (ZL Z0), Z0. cbn. lia.
    - intros HF. destruct (Z.eqb_spec S 0) as [->|NS]; [elim HF; intros X; elim X; reflexivity|].
      destruct (Z.gtb_spec (w16 (P - S)) 0) as [G|G]; [|elim HF; intros _ X; lia].
      rewrite i32_over; [reflexivity|]. destruct (Z.lt_ge_cases (R + R / 2) 2147483648); [elim HF; auto|lia]. }
  apply (mapM_mapi_or _ _ (sp_ne_w em had track mu (fun h => n_puppi (old h))) ne_fit).
  - intros h c _. unfold ne_fit. destruct (Z.eq_dec (tks h) 0); [left; intros; contradiction|].
    destruct (Z.lt_ge_cases 0 (w16 (had_left_pt_w em had track mu h c - tks h))); [|left; intros; lia].
    destruct (Z.lt_ge_cases (errs h + errs h / 2) (2 ^ 31)); [left; auto|right; intros F; specialize (F n H); lia].
  - intros h c Hh. apply (G h c Hh).
  - intros h c Hh. apply (G h c Hh).
Qed.

Lemma ne_pt_w_nonneg h c : nth_error had h = Some c -> 0 <= ne_pt_w em had track mu h c <= 32767.
Proof.
  intros Hh. pose proof (had_left_w_rg h c Hh). pose proof (w16_rg (had_left_pt_w em had track mu h c - tks h)).
  unfold ne_pt_w, ne_balance_w. destruct (_ =? 0); [assumption|]. cbv zeta.
  destruct (Z.ltb_spec 0 (w16 (had_left_pt_w em had track mu h c - tks h))); cbn [andb]; [|lia].
  destruct (_ <? _); lia.
Qed.

Theorem pfalgo3_full_wrap mem nsel : (nsel <= length had)%nat ->
  (ints_fit em had track mu /\ pfalgo3_full mem nsel em had track mu =
     Ok (mkOut (mapi (sp_ch_w em had track mu) track)
            (mapi (sp_pho_w em track mu (fun k => n_puppi (old_outpho mem k))) em)
            (firstn nsel (sorted_cands n_pt (mapi (sp_ne_w em had track mu (fun h => n_puppi (junk_ne_all mem h))) had)))
            (map (sp_mu track) mu))) \/
  (~ ints_fit em had track mu /\ pfalgo3_full mem nsel em had track mu = UB SignedOverflow).
Proof.
  intros Hn. unfold pfalgo3_full. cbv zeta.
  assert (Hmu : Forall mu_ok mu).
  { destruct HP as (_ & _ & _ & F). eapply Forall_impl; [|exact F]. intros m [H _]. exact H. }
  rewrite hw_mualgo by (auto using (Htk _ _ _ _ HP)). cbn [bind].
  rewrite hw_em_link, hw_em_sum_w.
  destruct hw_emalgo_w as [[FE ->]|[NE ->]].
  2:{ right. split; [|reflexivity]. intros [F _]. apply NE. exact F. }
  cbn [bind]. rewrite !map_mapi. cbn [fst snd]. rewrite hw_photons_w.
  change (mapi (fun i x => is_em_w em track mu i x) em) with (mapi (is_em_w em track mu) em).
  rewrite hw_elealgo_w, hw_sumem_w, hw_sub_w, hw_had_link_w. cbn [bind].
  destruct hw_hadsums_w as [[FS ->]|[NS ->]].
  2:{ right. split; [|reflexivity]. intros [_ F]. apply NS. intros h c Hh. apply (F h c Hh). }
  cbn [bind]. destruct (hw_caloalgo_w (junk_ne_all mem) FS) as [[FC ->]|[NC ->]].
  2:{ right. split; [|reflexivity]. intros [_ F]. apply NC. intros h c Hh. exact (proj2 (F h c Hh)). }
  cbn [bind]. rewrite hw_tkalgo_w. left. split.
  - split; [exact FE|]. intros h c Hh. split; [eapply FS; eauto|apply (FC h c Hh)].
  - rewrite ptsort_hwopt_sorted; [reflexivity|reflexivity| |rewrite length_mapi; assumption].
    intros x Hx. apply in_mapi in Hx as (h & c & Hh & ->). unfold sp_ne_w, ne_obj.
    pose proof (ne_pt_w_nonneg h c Hh). destruct (_ =? 0); cbn; lia.
Qed.
End Dom.

(** ** where the sums fit, nothing is reduced *)
Section Fit.
Variables (em : list EmCalo) (had : list HadCalo) (track : list Tk) (mu : list Mu).
Hypothesis (HP : phys em had track mu) (HF : sums_fit em had track mu (Some 131071) false).

Lemma w16_id x : -32768 <= x <= 32767 -> w16 x = x.
Proof. apply wrapS16_id. Qed.

Lemma fit_tksum_nn sel : 0 <= sum_where sel t_pt track.
Proof. apply sumZ_nonneg. intros x Hx. apply in_mapi in Hx as (i & t & Hi & ->). destruct (tk_at _ _ _ _ HP i t Hi) as [_ [? _]]. destruct (sel i t); lia. Qed.
Lemma fit_emsum_nn sel : 0 <= sum_where sel e_pt em.
Proof. apply sumZ_nonneg. intros x Hx. apply in_mapi in Hx as (i & t & Hi & ->). destruct (em_at _ _ _ _ HP i t Hi) as [_ [? _]]. destruct (sel i t); lia. Qed.

Lemma fit_em_tksum k e : nth_error em k = Some e -> em_tksum_w em track mu k = em_tksum em track mu k.
Proof.
  intros Hk. apply w16_id. destruct HF as [F _]. destruct (F k e Hk) as [R _].
  pose proof (fit_tksum_nn (fun i tk => opt_is (em_match em track mu i tk) k)). unfold em_tksum in *. lia.
Qed.
Lemma fit_em_diff k e : nth_error em k = Some e -> w16 (e_pt e - em_tksum em track mu k) = e_pt e - em_tksum em track mu k.
Proof.
  intros Hk. apply w16_id. destruct HF as [F _]. destruct (F k e Hk) as [R _].
  pose proof (fit_tksum_nn (fun i tk => opt_is (em_match em track mu i tk) k)).
  destruct (em_at _ _ _ _ HP k e Hk) as [(P & _) [? _]]. unfold inS in P. simpl in P. unfold em_tksum in *. lia.
Qed.
Lemma fit_is_em k e : nth_error em k = Some e -> is_em_w em track mu k e = is_em em track mu k e.
Proof. intros Hk. unfold is_em_w, is_em, em_class_w, em_class. rewrite (fit_em_tksum k e Hk), (fit_em_diff k e Hk). reflexivity. Qed.
Lemma fit_pho k e : nth_error em k = Some e -> pho_pt_w e (em_tksum_w em track mu k) = pho_pt e (em_tksum em track mu k).
Proof. intros Hk. unfold pho_pt_w, pho_pt. rewrite (fit_em_tksum k e Hk), (fit_em_diff k e Hk). reflexivity. Qed.
Lemma fit_is_ele i tk : is_ele_w em track mu i tk = is_ele em track mu i tk.
Proof.
  unfold is_ele_w, is_ele. destruct (em_match em track mu i tk); [|reflexivity].
  destruct (nth_error em n) eqn:E; [|reflexivity]. apply fit_is_em. assumption.
Qed.
Lemma fit_emsum h c : nth_error had h = Some c -> had_emsum_w em had track mu h = had_emsum em had track mu h.
Proof.
  intros Hh. unfold had_emsum_w.
  replace (sum_where _ e_pt em) with (had_emsum em had track mu h).
  2:{ apply sum_where_ext. intros k e Hk. rewrite (fit_is_em k e Hk). reflexivity. }
  apply w16_id. destruct HF as [_ F]. destruct (F h c Hh) as [R _].
  pose proof (fit_emsum_nn (fun k e => is_em em track mu k e && opt_is (best (cand_em_had had e)) h)). unfold had_emsum in *. lia.
Qed.
Lemma fit_left h c : nth_error had h = Some c -> had_left_pt_w em had track mu h c = had_left_pt em had track mu false h c.
Proof.
  intros Hh. unfold had_left_pt_w, had_left_pt. cbv zeta. rewrite (fit_emsum h c Hh), (keep_false em had track mu h).
  cbn [negb]. rewrite andb_true_r. destruct HF as [_ F]. destruct (F h c Hh) as [R _].
  pose proof (fit_emsum_nn (fun k e => is_em em track mu k e && opt_is (best (cand_em_had had e)) h)) as N. fold (had_emsum em had track mu h) in N.
  destruct (had_at _ _ _ _ HP h c Hh) as [(P & _ & _ & C) [? ?]]. unfold inS in P, C. simpl in P, C.
  rewrite !w16_id by lia. reflexivity.
Qed.
Lemma fit_had_left : had_left_w em had track mu = had_left em had track mu false.
Proof. unfold had_left_w, had_left. apply mapi_ext_in. intros h c Hh. rewrite (fit_left h c Hh). reflexivity. Qed.
Lemma fit_match tk : had_match_w em had track mu tk = had_match em had track mu (Some 131071) false tk.
Proof. unfold had_match_w, had_match. rewrite fit_had_left. reflexivity. Qed.
Lemma fit_in_had h i tk : in_had_w em had track mu h i tk = in_had em had track mu (Some 131071) false h i tk.
Proof. unfold in_had_w, in_had. rewrite fit_is_ele, fit_match. reflexivity. Qed.
Lemma fit_err2 h : had_err2_w em had track mu h = had_err2 em had track mu (Some 131071) false h.
Proof. apply sum_where_ext. intros. rewrite fit_in_had. reflexivity. Qed.
Lemma fit_tksum h c : nth_error had h = Some c -> had_tksum_w em had track mu h = had_tksum em had track mu (Some 131071) false h.
Proof.
  intros Hh. unfold had_tksum_w.
  replace (sum_where _ t_pt track) with (had_tksum em had track mu (Some 131071) false h).
  2:{ apply sum_where_ext. intros. rewrite fit_in_had. reflexivity. }
  apply w16_id. destruct HF as [_ F]. destruct (F h c Hh) as (_ & R & _).
  pose proof (fit_tksum_nn (in_had em had track mu (Some 131071) false h)). unfold had_tksum in *. lia.
Qed.
Lemma fit_left_rg h c : nth_error had h = Some c -> 0 <= had_left_pt em had track mu false h c <= 32767.
Proof. intros Hh. rewrite <- (fit_left h c Hh). apply (had_left_w_rg em had track mu HP h c Hh). Qed.
Lemma fit_ne h c : nth_error had h = Some c -> ne_pt_w em had track mu h c = ne_pt em had track mu (Some 131071) false h c.
Proof.
  intros Hh. pose proof (fit_left_rg h c Hh) as L. unfold ne_pt_w, ne_pt, ne_balance_w, ne_balance.
  rewrite (fit_left h c Hh), (fit_tksum h c Hh), fit_err2. destruct (_ =? 0); [reflexivity|].
  rewrite w16_id; [reflexivity|]. destruct HF as [_ F]. destruct (F h c Hh) as (_ & R & _).
  pose proof (fit_tksum_nn (in_had em had track mu (Some 131071) false h)) as N. fold (had_tksum em had track mu (Some 131071) false h) in N. lia.
Qed.

Lemma fit_ints : ints_fit em had track mu.
Proof.
  destruct HF as [FE FH]. split.
  - intros k e Hk NZ. rewrite (fit_em_tksum k e Hk) in NZ. destruct (FE k e Hk) as [_ Q]. specialize (Q NZ).
    destruct (em_at _ _ _ _ HP k e Hk) as [_ [_ ?]]. change (2 ^ 31) with 2147483648. nia.
  - intros h c Hh. destruct (FH h c Hh) as (_ & _ & R). rewrite fit_err2. change (2 ^ 31) with 2147483648. split; [lia|]. intros _ _.
    assert (had_err2 em had track mu (Some 131071) false h / 2 <= 1431655765 / 2) by (apply Z.div_le_mono; lia).
    change (1431655765 / 2) with 715827882 in *. lia.
Qed.

Lemma fit_ch i tk : sp_ch_w em had track mu i tk = sp_ch em had track mu (Some 131071) false i tk.
Proof. unfold sp_ch_w, sp_ch, ch_kept_w, ch_kept. rewrite fit_is_ele, fit_match. reflexivity. Qed.

Theorem pfalgo3_full_fit mem nsel : (nsel <= length had)%nat ->
  pfalgo3_full mem nsel em had track mu =
  Ok (mkOut (mapi (sp_ch em had track mu (Some 131071) false) track)
            (mapi (sp_pho em track mu (fun k => n_puppi (old_outpho mem k))) em)
            (firstn nsel (sorted_cands n_pt
                (mapi (sp_ne em had track mu (Some 131071) false (fun h => n_puppi (junk_ne_all mem h))) had)))
            (map (sp_mu track) mu)).
Proof.
  intros Hn. destruct (pfalgo3_full_wrap em had track mu HP mem nsel Hn) as [[_ ->]|[N _]]; [|elim N; apply fit_ints].
  f_equal. f_equal.
  - apply mapi_ext_in. intros i tk _. apply fit_ch.
  - apply mapi_ext_in. intros k e Hk. unfold sp_pho_w, sp_pho. rewrite (fit_pho k e Hk). reflexivity.
  - f_equal. f_equal. apply mapi_ext_in. intros h c Hh. unfold sp_ne_w, sp_ne. rewrite (fit_ne h c Hh). reflexivity.
Qed.
End Fit.

Lemma no_overflow_fits em had track mu cap kv : phys em had track mu -> no_overflow em track -> sums_fit em had track mu cap kv.
Proof.
  intros HP HO. split.
  - intros k e Hk. split; [eapply em_tksum_rg; eauto|]. intros _.
    destruct HO as (_ & _ & _ & F). rewrite Forall_forall in F. apply F. eapply nth_error_In; eauto.
  - intros h c Hh. split; [|split].
    + eapply had_emsum_rg; eauto.
    + eapply sel_tksum_rg; eauto.
    + eapply sel_err2_rg; eauto.
Qed.
