(** Definedness of pfalgo3_full (C11) and the parts of C03/C05/C52 that hold
    for every input without any domain restriction. *)
From Coq Require Import Permutation.
From Verif Require Import Base BaseFacts Data PFHw SpecLink SpecPF LinkFacts PFMatch MapiFacts SortFacts.

Lemma mapM_length {A B} (f : A -> res B) l r : mapM f l = Ok r -> length r = length l.
Proof. intros H. apply mapM_Ok_inv in H. apply Forall2_nth_error in H as [H _]. auto. Qed.

Lemma mapM_total {A B} (f : A -> res B) l : (forall x, In x l -> exists y, f x = Ok y) -> exists r, mapM f l = Ok r.
Proof.
  induction l as [|x l IH]; intros H; [eexists; reflexivity|].
  destruct (H x (or_introl eq_refl)) as [y Hy]. destruct IH as [r Hr]; [intros; apply H; right; assumption|].
  exists (y :: r). cbn [mapM]. rewrite Hy. cbn [bind]. rewrite Hr. reflexivity.
Qed.

Lemma mapM_UB {A B} (f : A -> res B) l k :
  (forall x, In x l -> (exists y, f x = Ok y) \/ f x = UB k) -> (exists x, In x l /\ f x = UB k) -> mapM f l = UB k.
Proof.
  induction l as [|x l IH]; intros H [x0 [Hin Hx]]; [contradiction|]. cbn [mapM].
  destruct (H x (or_introl eq_refl)) as [[y Hy]|HU]; [|rewrite HU; reflexivity].
  rewrite Hy. cbn [bind]. destruct Hin as [->|Hin]; [congruence|].
  rewrite IH; [reflexivity|intros; apply H; right; assumption|exists x0; auto].
Qed.

Lemma last_set_lt bits i : last_set bits = Some i -> (i < length bits)%nat.
Proof.
  unfold last_set. intros H.
  assert (G : forall l b, (forall p, In p l -> (fst p < length bits)%nat) ->
     (forall k, b = Some k -> (k < length bits)%nat) ->
     forall k, fold_left (fun best '(it, b) => if (b : bool) then Some it else best) l b = Some k -> (k < length bits)%nat).
  { induction l as [|[j c] l IH]; intros b Hl Hb k; cbn [fold_left]; [apply Hb|].
    apply IH; [intros p Hp; apply Hl; right; assumption|]. intros k' Hk. destruct c; [|apply Hb; assumption].
    inversion Hk; subst. apply (Hl (k', true)). left; reflexivity. }
  eapply G; [| |exact H]; [|discriminate]. intros [j c] Hin. apply in_indexed in Hin. apply nth_error_Some. cbn; congruence.
Qed.

Lemma mualgo_total mu track : exists om isMu,
  spfph_mualgo mu track (spfph_mutrk_link mu track) (map (fun _ => false) track) = Ok (om, isMu) /\
  length om = length mu /\ length isMu = length track.
Proof.
  unfold spfph_mualgo, spfph_mutrk_link. rewrite combine_map_r.
  assert (G : forall l om isMu, length isMu = length track -> exists om' isMu',
    foldM (spfph_mualgo_step track)
      (map (fun x => (x, spfph_mu2trk_linkstep_row x (spfph_mu2trk_dptvals_row x track))) l) (om, isMu) = Ok (om', isMu')
    /\ length om' = (length om + length l)%nat /\ length isMu' = length track).
  { induction l as [|m l IH]; intros om isMu L; cbn [map foldM]; [exists om, isMu; repeat split; auto; cbn; lia|].
    unfold spfph_mualgo_step at 1. destruct (last_set _) as [i|] eqn:E.
    - apply last_set_lt in E. unfold spfph_mu2trk_linkstep_row, spfph_mu2trk_dptvals_row in E. rewrite length_mapi, map_length in E.
      destruct (m_pt m >? 0).
      + rewrite (rd_Ok track i tk0) by assumption. cbn [bind]. rewrite wr_Ok by lia. cbn [bind].
        destruct (IH (om ++ [mkCh (t_pt (nth i track tk0)) (t_eta (nth i track tk0)) (t_phi (nth i track tk0)) PID_Muon (t_z0 (nth i track tk0))]) (upd isMu i true)) as (a & b & H1 & H2 & H3); [rewrite length_upd; assumption|].
        exists a, b. rewrite H1, H2, H3, app_length. cbn. repeat split; lia.
      + cbn [bind]. destruct (IH (om ++ [ch0]) isMu L) as (a & b & H1 & H2 & H3). exists a, b. rewrite H1, H2, H3, app_length. cbn. repeat split; lia.
    - cbn [bind]. destruct (IH (om ++ [ch0]) isMu L) as (a & b & H1 & H2 & H3). exists a, b. rewrite H1, H2, H3, app_length. cbn. repeat split; lia. }
  destruct (G mu [] (map (fun _ => false) track)) as (a & b & H1 & H2 & H3); [apply map_length|]. exists a, b. auto.
Qed.

Lemma emalgo_one_total c S : Z.abs (e_pterr c) <= 23170 -> exists r, tk2em_emalgo_one c S = Ok r.
Proof.
  intros H. unfold tk2em_emalgo_one. destruct (S =? 0); [eauto|]. cbv zeta.
  pose proof (wrapS16_rg (e_pt c - S)) as R. fold (pt_t (e_pt c - S)) in R. set (d := pt_t (e_pt c - S)) in *. clearbody d.
  assert (D2 : 0 <= d * d <= 1073741824) by nia.
  assert (S2 : 0 <= e_pterr c * e_pterr c <= 536848900) by nia.
  rewrite (i32_Ok (d * d)) by lia. cbn [bind]. rewrite (i32_Ok (e_pterr c * e_pterr c)) by lia. cbn [bind].
  set (s2 := e_pterr c * e_pterr c) in *. clearbody s2.
  rewrite (i32_Ok (s2 * 4)) by lia. cbn [bind].
  assert (Z.shiftr s2 1 = s2 / 2) as -> by (rewrite Z.shiftr_div_pow2 by lia; reflexivity).
  rewrite (i32_Ok (s2 + s2 / 2)) by (pose proof (Z.div_le_upper_bound s2 2 s2); pose proof (Z.div_pos s2 2); lia). cbn [bind].
  destruct (_ || _); [eauto|]. destruct (d >? 0); eauto.
Qed.

Lemma drdpt_total had track : Forall (fun t => 0 <= t_pterr t) track ->
  exists l, tk2calo_link_drdpt had track = Ok l /\ length l = length track.
Proof.
  intros F. unfold tk2calo_link_drdpt, tk2calo_drdptvals.
  destruct (mapM_total (tk2calo_drdptvals_row DR2MAX_TK_CALO had) track) as [r Hr].
  { intros tk Hin. rewrite Forall_forall in F. unfold tk2calo_drdptvals_row. cbv zeta.
    rewrite calc_dptscale_spec by (apply F; assumption). cbn [bind]. eauto. }
  rewrite Hr. cbn [bind]. eexists; split; [reflexivity|]. unfold pick_closest. rewrite map_length. eapply mapM_length; eauto.
Qed.

Lemma drdpt_neg had track : Exists (fun t => t_pterr t < 0) track -> tk2calo_link_drdpt had track = UB OutOfBounds.
Proof.
  intros E. unfold tk2calo_link_drdpt, tk2calo_drdptvals. rewrite (mapM_UB _ _ OutOfBounds); [reflexivity| |].
  - intros tk _. unfold tk2calo_drdptvals_row. cbv zeta. destruct (Z.le_gt_cases 0 (t_pterr tk)).
    + rewrite calc_dptscale_spec by assumption. cbn [bind]. left; eauto.
    + right. unfold calc_dptscale, rdZ. destruct (Z.ltb_spec (t_pterr tk) 512); [|lia]. destruct (Z.ltb_spec (t_pterr tk) 0); [|lia]. reflexivity.
  - apply Exists_exists in E as (tk & Hin & Ht). exists tk. split; [assumption|]. unfold tk2calo_drdptvals_row. cbv zeta.
    unfold calc_dptscale, rdZ. destruct (Z.ltb_spec (t_pterr tk) 512); [|lia]. destruct (Z.ltb_spec (t_pterr tk) 0); [|lia]. reflexivity.
Qed.

Lemma sum_combine_le {A B} (la : list A) (le : list Z) (lb : list B) : (forall e, In e le -> 0 <= e) ->
  sumZ (map (fun p => snd (fst p)) (combine (combine la le) lb)) <= sumZ le.
Proof.
  revert le lb; induction la as [|a la IH]; intros le lb H; cbn [combine map].
  - cbn. apply sumZ_nonneg; assumption.
  - destruct le as [|e le]; [reflexivity|]. cbn [combine].
    assert (0 <= sumZ (e :: le)) by (apply sumZ_nonneg; assumption).
    destruct lb as [|b lb]; [cbn; assumption|]. cbn [combine map fst snd].
    change (e + sumZ (map (fun p => snd (fst p)) (combine (combine la le) lb)) <= e + sumZ le).
    specialize (IH le lb). assert (forall e', In e' le -> 0 <= e') by (intros; apply H; right; assumption). specialize (IH H1). lia.
Qed.

Lemma sumtk_one_total track isEle isMu link k :
  sumZ (map (fun t => t_pterr t * t_pterr t) track) <= 1431655765 ->
  exists s e, tk2calo_sumtk_one track isEle isMu (tk2calo_tkerr2 track) link k = Ok (s, e) /\ 0 <= e <= 1431655765.
Proof.
  intros HS. unfold tk2calo_sumtk_one.
  assert (NN : forall e, In e (tk2calo_tkerr2 track) -> 0 <= e).
  { intros e Hin. unfold tk2calo_tkerr2 in Hin. apply in_map_iff in Hin as (t & <- & _). nia. }
  pose proof (sum_combine_le (combine track (combine isEle isMu)) (tk2calo_tkerr2 track) link NN) as B.
  assert (NNl : forall p, In p (combine (combine (combine track (combine isEle isMu)) (tk2calo_tkerr2 track)) link) -> 0 <= snd (fst p)).
  { intros [[x e] b] Hin. apply in_combine_l in Hin. apply in_combine_r in Hin. apply NN in Hin. exact Hin. }
  set (l := combine (combine (combine track (combine isEle isMu)) (tk2calo_tkerr2 track)) link) in *. clearbody l.
  unfold tk2calo_tkerr2 in B at 1.
  assert (G : forall l s e, (forall p, In p l -> 0 <= snd (fst p)) -> 0 <= e ->
     e + sumZ (map (fun p : (Tk * (bool * bool)) * Z * list bool => snd (fst p)) l) <= 1431655765 ->
     exists s' e', foldM (fun '(sum, sumerr) '(((tk, (ele, mu)), err2), bits) =>
           if negb ele && nth k bits false && negb mu
           then do e <- i32 (sumerr + err2); Ok (pt_t (sum + t_pt tk), e)
           else Ok (sum, sumerr)) l (s, e) = Ok (s', e') /\ 0 <= e' <= 1431655765).
  { clear. induction l as [|[[[tk [ele mu]] err2] bits] l IH]; intros s e Hl He Hs; cbn [foldM].
    - exists s, e. cbn in Hs. split; [reflexivity|lia].
    - cbn [map fst snd] in Hs. change (e + (err2 + sumZ (map (fun p : (Tk * (bool * bool)) * Z * list bool => snd (fst p)) l)) <= 1431655765) in Hs.
      assert (0 <= err2) by (apply (Hl (tk, (ele, mu), err2, bits)); left; reflexivity).
      assert (0 <= sumZ (map (fun p : (Tk * (bool * bool)) * Z * list bool => snd (fst p)) l)).
      { apply sumZ_nonneg. intros x Hx. apply in_map_iff in Hx as (p & <- & Hp). apply Hl. right; assumption. }
      destruct (_ && _).
      + rewrite i32_Ok by lia. cbn [bind]. apply IH; [intros; apply Hl; right; assumption|lia|lia].
      + cbn [bind]. apply IH; [intros; apply Hl; right; assumption|lia|lia]. }
  apply G; [assumption|lia|lia].
Qed.

Lemma caloalgo_one_total c s e old : 0 <= e <= 1431655765 -> exists r, tk2calo_caloalgo_one c s e old = Ok r.
Proof.
  intros H. unfold tk2calo_caloalgo_one. destruct (s =? 0); [cbn; eauto|]. cbv zeta.
  assert (Z.shiftr e 1 = e / 2) as -> by (rewrite Z.shiftr_div_pow2 by lia; reflexivity).
  rewrite (i32_Ok (e + e / 2)) by (pose proof (Z.mul_div_le e 2); pose proof (Z.div_pos e 2); lia).
  destruct (_ >? 0); cbn; eauto.
Qed.

(** what the memory-safety and overflow argument needs, and nothing else *)
Definition defined_domain (em : list EmCalo) (track : list Tk) : Prop :=
  Forall (fun t => 0 <= t_pterr t) track /\
  sumZ (map (fun t => t_pterr t * t_pterr t) track) <= 1431655765 /\
  Forall (fun e => Z.abs (e_pterr e) <= 23170) em.

Lemma emalgo_total em sums : Forall (fun e => Z.abs (e_pterr e) <= 23170) em -> exists r, tk2em_emalgo em sums = Ok r.
Proof.
  intros F. unfold tk2em_emalgo. apply mapM_total. intros [c s] Hin. apply in_combine_l in Hin.
  rewrite Forall_forall in F. apply emalgo_one_total. apply F; assumption.
Qed.

Lemma pf_total mem nsel em had track mu : defined_domain em track ->
  exists out, pfalgo3_full mem nsel em had track mu = Ok out.
Proof.
  intros (F1 & F2 & F3). unfold pfalgo3_full. cbv zeta.
  destruct (mualgo_total mu track) as (om & isMu & E1 & L1 & L2). rewrite E1. cbn [bind].
  set (eml := tk2em_link em track isMu).
  destruct (emalgo_total em (tk2em_sumtk track eml (length em)) F3) as [r Hr]. rewrite Hr. cbn [bind].
  set (hs := em2calo_sub _ _).
  destruct (drdpt_total hs track F1) as (l & E2 & L3). rewrite E2. cbn [bind].
  set (ie := tk2em_elealgo _ _).
  destruct (mapM_total (tk2calo_sumtk_one track ie isMu (tk2calo_tkerr2 track) l) (seq 0 (length had))) as [sums Hs].
  { intros k _. destruct (sumtk_one_total track ie isMu l k F2) as (s & e & H & _). eauto. }
  unfold tk2calo_sumtk. rewrite Hs. cbn [bind].
  assert (FS : Forall (fun p => 0 <= snd p <= 1431655765) sums).
  { apply mapM_Ok_inv in Hs. apply Forall_forall. intros p Hp. apply In_nth_error in Hp as [i Hi].
    apply Forall2_nth_error in Hs as [LL HH]. assert (i < length (seq 0 (length had)))%nat by (rewrite LL; apply nth_error_Some; congruence).
    destruct (nth_error_lt _ _ H) as [k Hk]. specialize (HH i k p Hk Hi).
    destruct (sumtk_one_total track ie isMu l k F2) as (s & e & HE & R). rewrite HE in HH. inversion HH; subst. exact R. }
  destruct (mapM_total (fun '(i, (c, (s, e))) => tk2calo_caloalgo_one c s e (junk_ne_all mem i)) (indexed (combine hs sums))) as [ne Hne].
  { intros [i [c [s e]]] Hin. apply in_indexed in Hin. apply caloalgo_one_total. apply nth_error_In in Hin. apply in_combine_r in Hin.
    rewrite Forall_forall in FS. apply (FS (s, e)). assumption. }
  unfold tk2calo_caloalgo. rewrite Hne. cbn [bind].
  rewrite ptsort_hwopt_fold by reflexivity. cbn [bind]. eauto.
Qed.

Lemma pf_neg_err mem nsel em had track mu :
  Forall (fun e => Z.abs (e_pterr e) <= 23170) em -> Exists (fun t => t_pterr t < 0) track ->
  pfalgo3_full mem nsel em had track mu = UB OutOfBounds.
Proof.
  intros F3 E. unfold pfalgo3_full. cbv zeta.
  destruct (mualgo_total mu track) as (om & isMu & E1 & L1 & L2). rewrite E1. cbn [bind].
  destruct (emalgo_total em (tk2em_sumtk track (tk2em_link em track isMu) (length em)) F3) as [r Hr]. rewrite Hr. cbn [bind].
  rewrite drdpt_neg by assumption. reflexivity.
Qed.

(** the structure of any run that has a defined result *)
Lemma pf_shape mem nsel em had track mu out : pfalgo3_full mem nsel em had track mu = Ok out ->
  length (o_ch out) = length track /\ length (o_pho out) = length em /\ length (o_ne out) = nsel /\ length (o_mu out) = length mu /\
  (forall i tk, nth_error track i = Some tk -> exists c, nth_error (o_ch out) i = Some c /\
     ((c_pt c = t_pt tk /\ c_eta c = t_eta tk /\ c_phi c = t_phi tk /\ c_z0 c = t_z0 tk) \/ c = mkCh 0 0 0 0 0)) /\
  (forall k e, nth_error em k = Some e -> exists p, nth_error (o_pho out) k = Some p /\
     ((n_eta p = e_eta e /\ n_phi p = e_phi e /\ n_pt p <> 0 /\ n_id p = PID_Photon) \/
      (n_pt p = 0 /\ n_eta p = 0 /\ n_phi p = 0 /\ n_id p = 0))).
Proof.
  unfold pfalgo3_full. cbv zeta. intros H.
  destruct (mualgo_total mu track) as (om & isMu & E1 & L1 & L2). rewrite E1 in H. cbn [bind] in H.
  apply bind_Ok in H as (r & Hr & H). apply bind_Ok in H as (l & Hl & H). apply bind_Ok in H as (sums & Hs & H).
  apply bind_Ok in H as (ne & Hne & H). apply bind_Ok in H as (outne & Hsort & H). inversion H; subst; clear H. cbn [o_ch o_pho o_ne o_mu].
  assert (LR : length r = length em).
  { apply mapM_length in Hr. rewrite combine_length in Hr. unfold tk2em_sumtk in Hr. rewrite map_length, seq_length in Hr. lia. }
  assert (LL : length l = length track).
  { unfold tk2calo_link_drdpt in Hl. apply bind_Ok in Hl as (v & Hv & Hl). inversion Hl; subst. unfold pick_closest. rewrite map_length. eapply mapM_length; eauto. }
  assert (LE : length (tk2em_elealgo (tk2em_link em track isMu) (map fst r)) = length track).
  { unfold tk2em_elealgo, tk2em_link, pick_closest, tk2em_drvals. rewrite !map_length, combine_length. lia. }
  set (ie := tk2em_elealgo _ _) in *. clearbody ie.
  split; [unfold tk2calo_tkalgo; rewrite map_length, !combine_length; lia|].
  split; [unfold tk2em_photons; rewrite length_mapi, combine_length, map_length; lia|].
  split.
  { rewrite ptsort_hwopt_fold in Hsort by reflexivity. inversion Hsort as [Hs']. rewrite firstn_length, length_fold_insle, map_length, seq_length. lia. }
  split; [assumption|]. split.
  - intros i tk Hi. assert (Li : (i < length track)%nat) by (apply nth_error_Some; congruence).
    destruct (nth_error_lt ie i) as [a Ha]; [lia|]. destruct (nth_error_lt isMu i) as [b Hb]; [lia|]. destruct (nth_error_lt l i) as [bits Hbits]; [lia|].
    eexists. split.
    + unfold tk2calo_tkalgo. rewrite nth_error_map', nth_error_combine, nth_error_combine, nth_error_combine, Hi, Ha, Hb, Hbits. cbn [option_map]. reflexivity.
    + unfold tk2calo_tkalgo_one. cbv zeta. destruct (_ || _); [left; cbn; auto|right; reflexivity].
  - intros k e Hk. assert (Lk : (k < length em)%nat) by (apply nth_error_Some; congruence).
    destruct (nth_error_lt (map snd r) k) as [p Hp]; [rewrite map_length; lia|].
    eexists. split.
    + unfold tk2em_photons. rewrite nth_error_mapi, nth_error_combine, Hk, Hp. cbn [option_map]. reflexivity.
    + unfold tk2em_photons_one. cbv zeta. destruct (Z.eqb_spec p 0) as [Z0|Z0]; cbn; [right|left]; auto.
Qed.
