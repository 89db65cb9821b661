(** The reference model computes the specification of SpecPF on the physical domain
    where the sums formed for each cluster fit. *)
From Verif Require Import Base BaseFacts Data PFHw PFRef SpecLink SpecPF LinkFacts PFMatch MapiFacts SortFacts PFHwSpec PFWrap.

Section Scatter.
Variables (em : list EmCalo) (ismu : nat -> bool).
Definition rmatch (i : nat) (tk : Tk) : option nat :=
  if (0 <? t_pt tk) && negb (ismu i) then best (cand_tk_em em tk) else None.
Lemma rmatch_lt i tk k : rmatch i tk = Some k -> (k < length em)%nat.
Proof.
  unfold rmatch. destruct (_ && _); [|discriminate]. intros H. apply best_lt in H.
  unfold cand_tk_em in H. rewrite map_length in H. assumption.
Qed.

Lemma upd_mapi {A B} (f g : nat -> A -> B) (l : list A) k v :
  (forall i x, nth_error l i = Some x -> i <> k -> f i x = g i x) ->
  (forall x, nth_error l k = Some x -> g k x = v) -> (k < length l)%nat ->
  upd (mapi f l) k v = mapi g l.
Proof.
  intros H1 H2 L. apply nth_error_ext; intros i. rewrite nth_error_mapi. destruct (Nat.eq_dec k i) as [<-|N].
  - rewrite nth_error_upd_eq by (rewrite length_mapi; assumption). destruct (nth_error_lt l k L) as [x Hx]. rewrite Hx.
    cbn. rewrite (H2 x Hx). reflexivity.
  - rewrite (nth_error_upd_ne _ _ i) by assumption. rewrite nth_error_mapi. destruct (nth_error l i) eqn:E; [|reflexivity].
    cbn. rewrite (H1 i a E) by auto. reflexivity.
Qed.

Lemma em_ref_tracks l :
  foldM (em_ref_track_step em) (mapi (fun i tk => (tk, ismu i)) l) ([], map (fun _ => 0) em)
  = Ok (mapi rmatch l, mapi (fun k _ => pt_t (sum_where (fun i tk => opt_is (rmatch i tk) k) t_pt l)) em).
Proof.
  induction l as [|t l IH] using rev_ind.
  - cbn. f_equal. f_equal. apply map_as_mapi.
  - rewrite !mapi_snoc, foldM_app, IH. cbn [bind foldM em_ref_track_step].
    rewrite best_match_ref_em.
    assert (SN : forall k, sum_where (fun i tk => opt_is (rmatch i tk) k) t_pt (l ++ [t]) =
       sum_where (fun i tk => opt_is (rmatch i tk) k) t_pt l + (if opt_is (rmatch (length l) t) k then t_pt t else 0)).
    { intros k. rewrite sum_where_snoc. reflexivity. }
    destruct ((t_pt t >? 0) && negb (ismu (length l))) eqn:C.
    + assert (RM : rmatch (length l) t = best (cand_tk_em em t)).
      { unfold rmatch. replace (0 <? t_pt t) with (t_pt t >? 0) by lia. rewrite C. reflexivity. }
      rewrite <- RM. destruct (rmatch (length l) t) as [k|] eqn:E.
      * pose proof (rmatch_lt _ _ _ E) as L. destruct (nth_error_lt em k L) as [e He].
        unfold rd, wr. rewrite nth_error_mapi, He, length_mapi. cbn [option_map bind].
        destruct (Nat.ltb_spec k (length em)); [|lia]. cbn [bind]. do 2 f_equal.
        apply upd_mapi; [| |assumption].
        -- intros i x _ N. rewrite SN. cbn [opt_is]. destruct (Nat.eqb_spec k i); [congruence|]. rewrite Z.add_0_r. reflexivity.
        -- intros x _. rewrite SN. cbn [opt_is]. rewrite Nat.eqb_refl.
           unfold pt_t. rewrite wrapS_wrapS_add by lia. reflexivity.
      * cbn [bind]. do 2 f_equal. apply mapi_ext_in. intros k e _. rewrite SN. cbn [opt_is]. rewrite Z.add_0_r. reflexivity.
    + assert (RM : rmatch (length l) t = None).
      { unfold rmatch. replace (0 <? t_pt t) with (t_pt t >? 0) by lia. rewrite C. reflexivity. }
      rewrite RM in SN |- *. cbn [bind]. do 2 f_equal. apply mapi_ext_in. intros k e _. rewrite SN. cbn [opt_is]. rewrite Z.add_0_r. reflexivity.
Qed.
End Scatter.

Section Dom.
Variables (em : list EmCalo) (had : list HadCalo) (track : list Tk) (mu : list Mu) (kv : bool).
Hypothesis (HP : phys em had track mu) (HO : sums_fit em had track mu None kv) (HC : clean_empty track).

Notation rm := (rmatch em (is_mu track mu)).
(** the reference ignores tracks of pt 0 *)
Definition rele (i : nat) (tk : Tk) : bool := (0 <? t_pt tk) && is_ele em track mu i tk.

Lemma rm_em_match i tk : 0 < t_pt tk -> rm i tk = em_match em track mu i tk.
Proof. intros H. unfold rmatch, em_match. destruct (Z.ltb_spec 0 (t_pt tk)); [|lia]. destruct (is_mu track mu i); reflexivity. Qed.
Lemma rm_none i tk : t_pt tk = 0 -> rm i tk = None.
Proof. intros H. unfold rmatch. rewrite H. reflexivity. Qed.

Lemma ref_em_sum k : sum_where (fun i tk => opt_is (rm i tk) k) t_pt track = em_tksum em track mu k.
Proof.
  apply sum_where_ext. intros i tk Hi. pose proof (tk_at _ _ _ _ HP _ _ Hi) as [_ [P _]].
  destruct (Z.eq_dec (t_pt tk) 0) as [Z0|N].
  - rewrite rm_none, Z0 by assumption. cbn. destruct (opt_is _ _); reflexivity.
  - rewrite rm_em_match by lia. reflexivity.
Qed.

Lemma ref_photon_one e S : em_phys e -> (S <> 0 -> e_pterr e <= 23170) -> 0 <= S <= 32767 ->
  em_ref_photon e S = Ok (em_class e S, pho_pt e S).
Proof.
  intros He HE' HS. destruct (Z.eq_dec S 0) as [->|NS]; [reflexivity|]. pose proof (HE' NS) as HE. rewrite <- emalgo_one by assumption. unfold em_ref_photon, tk2em_emalgo_one.
  destruct (Z.gtb_spec S 0) as [G|G]; destruct (Z.eqb_spec S 0) as [E|E]; try lia.
  cbv zeta. destruct He as [(P & Er & _) [HPt HE0]]. unfold inS in P, Er. simpl in P, Er.
  unfold pt_t. rewrite wrapS16_id by lia. set (d := e_pt e - S). assert (Hd : -32767 <= d <= 32767) by lia.
  set (q := e_pterr e * e_pterr e). assert (Hq : 0 <= q <= 536848900) by (unfold q; nia).
  assert (0 <= q / 2 <= q) by (split; [apply Z.div_pos; lia|apply Z.div_le_upper_bound; lia]).
  rewrite (i32_Ok q), (i32_Ok (d * d)) by nia. cbn [bind].
  rewrite Z.shiftr_div_pow2 by lia. change (2 ^ 1) with 2.
  replace (4 * q) with (q * 4) by lia. rewrite (i32_Ok (q * 4)), (i32_Ok (q + q / 2)) by lia. reflexivity.
Qed.

Lemma had_keep_fold h : forall l s k0,
  inS 16 s ->
  fold_left (fun '(sub, keep) '((e, isem), m) =>
                 match m with
                 | Some k => if (k =? h)%nat
                             then (if (isem : bool) then (pt_t (sub + e_pt e), keep) else (sub, kv))
                             else (sub, keep)
                 | None => (sub, keep)
                 end) l (s, k0) =
  (pt_t (s + sumZ (map (fun '((e, isem), m) => if (isem : bool) && opt_is m h then e_pt e else 0) l)),
   if existsb (fun '((e, isem), m) => negb (isem : bool) && opt_is m h) l then kv else k0).
Proof.
  induction l as [|[[e isem] m] l IH]; intros s k0 Hs; cbn [fold_left map existsb].
  - cbn. rewrite Z.add_0_r. unfold pt_t. rewrite wrapS_id; [reflexivity|lia|assumption].
  - unfold opt_is at 1 3. destruct m as [k|].
    + destruct (k =? h)%nat.
      * destruct isem; cbn [andb negb orb].
        -- rewrite IH by (unfold pt_t; apply wrapS_range; lia). cbn [sumZ fold_right]. f_equal.
           unfold pt_t. rewrite wrapS_wrapS_add by lia. f_equal. unfold sumZ. lia.
        -- rewrite IH by assumption. cbn [sumZ fold_right]. f_equal.
           match goal with |- (if ?x then _ else _) = _ => destruct x; reflexivity end.
      * rewrite IH by assumption. rewrite !andb_false_r. reflexivity.
    + rewrite IH by assumption. rewrite !andb_false_r. reflexivity.
Qed.

Lemma ref_emsum_rg h c : nth_error had h = Some c -> 0 <= had_emsum em had track mu h <= 32767.
Proof.
  intros Hh. destruct HO as [_ F]. destruct (F h c Hh) as [R _]. split; [|exact R]. apply (fit_emsum_nn em had track mu HP).
Qed.

Definition ref_sub (h : nat) (c : HadCalo) : HadCalo :=
  em_ref_had kv em (mapi (is_em em track mu) em) (map (best_match_em_ref DR2MAX_EM_CALO had) em) h c.

Lemma ref_sub_spec h c : nth_error had h = Some c ->
  h_pt (ref_sub h c) = had_left_pt em had track mu kv h c /\
  h_eta (ref_sub h c) = h_eta c /\ h_phi (ref_sub h c) = h_phi c.
Proof.
  intros Hh. unfold ref_sub, em_ref_had. rewrite had_keep_fold by (unfold inS; simpl; lia).
  assert (E1 : map (best_match_em_ref DR2MAX_EM_CALO had) em = map (fun e => best (cand_em_had had e)) em).
  { apply map_ext_in. intros e He. apply best_match_em_ref_spec.
    pose proof (Hem _ _ _ _ HP) as F. rewrite Forall_forall in F. apply F; assumption. }
  rewrite E1, combine_mapi_r, (map_as_mapi (fun e => best _)), combine_mapi, map_mapi.
  rewrite Z.add_0_l.
  pose proof (ref_emsum_rg h c Hh) as RE.
  assert (S1 : pt_t (sumZ (mapi (fun i x => if is_em em track mu i x && opt_is (best (cand_em_had had x)) h then e_pt x else 0) em))
          = had_emsum em had track mu h).
  { change (pt_t (had_emsum em had track mu h) = had_emsum em had track mu h). apply wrapS16_id. lia. }
  rewrite S1.
  assert (K : (if existsb (fun '((e, isem), m) => negb (isem : bool) && opt_is m h)
                 (mapi (fun i x => (x, is_em em track mu i x, best (cand_em_had had x))) em) then kv else false)
              = had_keep em had track mu kv h).
  { unfold had_keep. unfold mapi.
    assert (X : forall l, existsb (fun '((e, isem), m) => negb (isem : bool) && opt_is m h)
               (map (fun p => (snd p, is_em em track mu (fst p) (snd p), best (cand_em_had had (snd p)))) l)
             = existsb (fun '(k, e) => negb (is_em em track mu k e) && opt_is (best (cand_em_had had e)) h) l).
    { induction l as [|[k e] l IH]; [reflexivity|]. cbn [map existsb fst snd]. rewrite IH. reflexivity. }
    rewrite X. destruct (existsb _ _), kv; reflexivity. }
  rewrite K. cbv zeta.
  destruct (had_at _ _ _ _ HP _ _ Hh) as [(P & A & B & C) [HPt HEm]]. unfold inS in P, C. simpl in P, C.
  unfold had_left_pt. cbv zeta. set (E := had_emsum em had track mu h) in *. unfold pt_t. rewrite !wrapS16_id by lia.
  rewrite !Z.shiftr_div_pow2 by lia. change (2 ^ 4) with 16. change (2 ^ 3) with 8.
  destruct (h_pt c - E <=? h_pt c / 16); cbn [orb]; [auto|].
  destruct (h_isem c && (h_empt c - E <=? h_empt c / 8) && negb (had_keep em had track mu kv h)); auto.
Qed.

Lemma ref_em : forall old,
  pfalgo3_em_ref kv em had track (mapi (fun i _ => is_mu track mu i) track) old
  = Ok (mapi rele track, mapi (sp_pho em track mu (fun k => n_puppi (old k))) em, mapi ref_sub had).
Proof.
  intros old. unfold pfalgo3_em_ref. rewrite combine_mapi_r.
  rewrite em_ref_tracks.
  cbn [bind]. rewrite combine_mapi_r.
  rewrite (mapM_mapi _ _ (fun k e => (is_em em track mu k e, pho_pt e (em_tksum em track mu k)))).
  2:{ intros k e Hk. rewrite ref_em_sum. destruct HO as [F _]. destruct (F k e Hk) as [R1 R2].
      pose proof (fit_tksum_nn em had track mu HP (fun i tk => opt_is (em_match em track mu i tk) k)) as N. fold (em_tksum em track mu k) in N.
      unfold pt_t. rewrite wrapS16_id by lia. apply ref_photon_one; [eapply em_at; eauto|exact R2|lia]. }
  cbn [bind]. cbv zeta. rewrite map_mapi. cbn [fst].
  change (mapi (fun i x => is_em em track mu i x) em) with (mapi (is_em em track mu) em).
  rewrite (mapM_mapi _ _ rele).
  2:{ intros i tk Hi. unfold rele, is_ele. pose proof (tk_at _ _ _ _ HP _ _ Hi) as [_ [P _]].
      destruct (Z.eq_dec (t_pt tk) 0) as [Z0|N].
      - rewrite rm_none, Z0 by assumption. reflexivity.
      - rewrite rm_em_match by lia. destruct (Z.ltb_spec 0 (t_pt tk)); [|lia]. cbn [andb].
        destruct (em_match em track mu i tk) as [k|] eqn:E; [|reflexivity].
        unfold rd. rewrite nth_error_mapi. destruct (nth_error_lt em k (em_match_lt _ _ _ _ _ _ E)) as [e He].
        rewrite He. reflexivity. }
  cbn [bind]. f_equal. f_equal. f_equal.
  - rewrite combine_mapi_r, mapi_mapi. apply mapi_ext_in. intros k e _. unfold sp_pho. apply ne_obj_match.
Qed.

(** ** hadronic step *)
Definition rin_had (h i : nat) (tk : Tk) : bool :=
  (0 <? t_pt tk) && negb (rele i tk) && negb (is_mu track mu i) && opt_is (had_match em had track mu None kv tk) h.

Lemma ref_had_match tk : tk_phys tk ->
  best_match_with_pt_ref DR2MAX_TK_CALO (mapi ref_sub had) tk = Ok (had_match em had track mu None kv tk).
Proof.
  intros Ht. rewrite best_match_with_pt_ref_spec by assumption. f_equal. unfold had_match, had_left. f_equal.
  apply cand_tk_had_sub. intros h c Hh. destruct (ref_sub_spec h c Hh) as (E1 & E2 & E3).
  cbn [h_pt h_eta h_phi]. rewrite E1, E2, E3. auto.
Qed.

Definition rgood (i : nat) (tk : Tk) : bool :=
  (t_pt tk <? (if t_tight tk then 80 else 40)) || rele i tk || is_mu track mu i
  || ((0 <? t_pt tk) && match had_match em had track mu None kv tk with Some _ => true | None => false end).

Lemma had_ref_tracks l : Forall tk_phys l ->
  (forall h c, nth_error had h = Some c -> sum_where (rin_had h) (fun t => t_pterr t * t_pterr t) l <= 2147483647) ->
  foldM (had_ref_track_step (mapi ref_sub had)) (mapi (fun i tk => (tk, (rele i tk, is_mu track mu i))) l)
     ([], map (fun _ => 0) had, map (fun _ => 0) had)
  = Ok (mapi rgood l, mapi (fun h _ => pt_t (sum_where (rin_had h) t_pt l)) had,
        mapi (fun h _ => sum_where (rin_had h) (fun t => t_pterr t * t_pterr t) l) had).
Proof.
  induction l as [|t l IH] using rev_ind; intros F H2.
  - cbn. rewrite !map_as_mapi. reflexivity.
  - apply Forall_app in F as [Fl Ft]. inversion Ft as [|? ? Ht _]; subst.
    pose proof Ht as [_ [HPt HEr]].
    assert (Q : 0 <= t_pterr t * t_pterr t) by nia.
    set (n := length l).
    assert (SN : forall k (f : Tk -> Z), sum_where (rin_had k) f (l ++ [t]) =
       sum_where (rin_had k) f l + (if rin_had k n t then f t else 0)).
    { intros k f. apply sum_where_snoc. }
    rewrite !mapi_snoc, foldM_app, IH.
    2:{ exact Fl. }
    2:{ intros h c Hh. specialize (H2 h c Hh). rewrite SN in H2. destruct (rin_had h n t); lia. }
    fold n. cbn [bind foldM had_ref_track_step].
    rewrite (ref_had_match t Ht).
    replace (t_pt t >? 0) with (0 <? t_pt t) by lia.
    unfold TK_MAXINVPT_TIGHT, TK_MAXINVPT_LOOSE.
    assert (RG : rgood n t = (t_pt t <? (if t_tight t then 80 else 40)) || rele n t || is_mu track mu n
      || ((0 <? t_pt t) && match had_match em had track mu None kv t with Some _ => true | None => false end)) by reflexivity.
    rewrite RG. clear RG.
    destruct ((0 <? t_pt t) && negb (rele n t) && negb (is_mu track mu n)) eqn:C.
    + cbn [bind]. 
      assert (P0 : 0 <? t_pt t = true) by (destruct (0 <? t_pt t); [reflexivity|discriminate]). rewrite P0. cbn [andb].
      assert (RI : forall k, rin_had k n t = opt_is (had_match em had track mu None kv t) k).
      { intros k. unfold rin_had. rewrite C. reflexivity. }
      destruct (had_match em had track mu None kv t) as [k|] eqn:E.
      * pose proof (had_match_lt _ _ _ _ _ _ _ _ E) as L. destruct (nth_error_lt had k L) as [c Hc].
        unfold rd, wr. rewrite !nth_error_mapi, Hc, !length_mapi. cbn [option_map bind].
        destruct (Nat.ltb_spec k (length had)); [|lia]. cbn [bind].
        pose proof (sum_where_le (rin_had k) (fun t => t_pterr t * t_pterr t) l ltac:(intros; nia)) as R2. cbv beta in R2.
        pose proof (H2 k c Hc) as R1. rewrite SN, RI in R1. cbn [opt_is] in R1. rewrite Nat.eqb_refl in R1.
        rewrite i32_Ok by lia. cbn [bind]. rewrite orb_true_r. do 2 f_equal; [f_equal|].
        -- apply upd_mapi; [| |assumption].
           ++ intros i x _ N. rewrite SN, RI. cbn [opt_is]. destruct (Nat.eqb_spec k i); [congruence|]. rewrite Z.add_0_r. reflexivity.
           ++ intros x _. rewrite SN, RI. cbn [opt_is]. rewrite Nat.eqb_refl. unfold pt_t. rewrite wrapS_wrapS_add by lia. reflexivity.
        -- apply upd_mapi; [| |assumption].
           ++ intros i x _ N. rewrite SN, RI. cbn [opt_is]. destruct (Nat.eqb_spec k i); [congruence|]. lia.
           ++ intros x _. rewrite SN, RI. cbn [opt_is]. rewrite Nat.eqb_refl. lia.
      * cbn [bind]. rewrite orb_false_r. do 2 f_equal; [f_equal|]; apply mapi_ext_in; intros k c _; rewrite SN, RI; cbn [opt_is]; rewrite Z.add_0_r; reflexivity.
    + assert (RI : forall k, rin_had k n t = false).
      { intros k. unfold rin_had. rewrite C. reflexivity. }
      cbn [bind]. do 2 f_equal; [f_equal|].
      * f_equal. f_equal.
        destruct (Z.ltb_spec 0 (t_pt t)) as [P0|P0]; cbn [andb] in C |- *; [|rewrite orb_false_r; reflexivity].
        destruct (rele n t); [rewrite !orb_true_r; reflexivity|].
        destruct (is_mu track mu n); [rewrite !orb_true_r; reflexivity|]. discriminate.
      * apply mapi_ext_in; intros k c _; rewrite SN, RI; rewrite Z.add_0_r; reflexivity.
      * apply mapi_ext_in; intros k c _; rewrite SN, RI; rewrite Z.add_0_r; reflexivity.
Qed.

Lemma rin_had_sum h : sum_where (rin_had h) t_pt track = had_tksum em had track mu None kv h.
Proof.
  apply sum_where_ext. intros i tk Hi. pose proof (tk_at _ _ _ _ HP _ _ Hi) as [_ [P _]].
  unfold rin_had, in_had, rele. destruct (Z.ltb_spec 0 (t_pt tk)); [reflexivity|].
  assert (t_pt tk = 0) as -> by lia. cbn [andb]. destruct (_ && _); reflexivity.
Qed.
Lemma rin_had_err h : sum_where (rin_had h) (fun t => t_pterr t * t_pterr t) track = had_err2 em had track mu None kv h.
Proof.
  apply sum_where_ext. intros i tk Hi. pose proof (tk_at _ _ _ _ HP _ _ Hi) as [_ [P _]].
  unfold rin_had, in_had, rele. destruct (Z.ltb_spec 0 (t_pt tk)); [reflexivity|].
  assert (Z0 : t_pt tk = 0) by lia.
  unfold clean_empty in HC. rewrite Forall_forall in HC. rewrite (HC tk (nth_error_In _ _ Hi) Z0).
  cbn [andb]. destruct (_ && _); reflexivity.
Qed.

Lemma had_left_rg_kv h c : nth_error had h = Some c -> 0 <= had_left_pt em had track mu kv h c <= 32767.
Proof.
  intros Hh. destruct (had_at _ _ _ _ HP _ _ Hh) as [(P & _) [HPt _]]. unfold inS in P; simpl in P.
  pose proof (ref_emsum_rg h c Hh) as RE.
  unfold had_left_pt. cbv zeta. set (E := had_emsum em had track mu h) in *.
  destruct (Z.leb_spec (h_pt c - E) (h_pt c / 16)); cbn [orb]; [lia|].
  assert (0 <= h_pt c / 16) by (apply Z.div_pos; lia).
  destruct (_ && _); lia.
Qed.

(** what the reference writes in charged slot i *)
Definition ref_ch (i : nat) (tk : Tk) : PFCh :=
  if t_pt tk =? 0 then mkCh 0 (t_eta tk) (t_phi tk) (if is_mu track mu i then PID_Muon else PID_Charged) (t_z0 tk)
  else sp_ch em had track mu None kv i tk.

Theorem pfalgo3_full_ref_spec mem nsel : (nsel <= length had)%nat ->
  pfalgo3_full_ref_gen kv mem nsel em had track mu =
  Ok (mkOut (mapi ref_ch track)
            (mapi (sp_pho em track mu (fun k => n_puppi (old_outpho mem k))) em)
            (firstn nsel (sorted_cands n_pt
                (mapi (sp_ne em had track mu None kv (fun h => n_puppi (junk_ne_all mem h))) had)))
            (map (sp_mu track) mu)).
Proof.
  intros Hn. unfold pfalgo3_full_ref_gen. rewrite ref_mu. cbn [bind]. rewrite ref_em. cbn [bind].
  rewrite combine_mapi, combine_mapi_r.
  rewrite had_ref_tracks.
  2:{ exact (Htk _ _ _ _ HP). }
  2:{ intros h c Hh. rewrite rin_had_err. destruct HO as [_ F]. destruct (F h c Hh) as (_ & _ & R). lia. }
  cbn [bind]. rewrite combine_mapi, combine_mapi.
  rewrite (mapM_mapi _ _ (fun h c => ne_pt em had track mu None kv h c)).
  2:{ intros h c Hh. rewrite rin_had_sum, rin_had_err. destruct (ref_sub_spec h c Hh) as (E1 & _ & _).
      unfold had_ref_subpt, ne_pt, ne_balance. rewrite E1.
      pose proof (had_left_rg_kv h c Hh) as RL. set (P := had_left_pt em had track mu kv h c) in *.
      destruct HO as [_ F]. destruct (F h c Hh) as (_ & RS & RR).
      pose proof (fit_tksum_nn em had track mu HP (in_had em had track mu None kv h)) as NS. fold (had_tksum em had track mu None kv h) in NS.
      pose proof (sum_where_le (in_had em had track mu None kv h) (fun t => t_pterr t * t_pterr t) track ltac:(intros; nia)) as NR.
      apply proj1 in NR. fold (had_err2 em had track mu None kv h) in NR.
      replace (pt_t (had_tksum em had track mu None kv h)) with (had_tksum em had track mu None kv h) by (symmetry; apply wrapS16_id; lia).
      set (S := had_tksum em had track mu None kv h) in *.
      set (R := had_err2 em had track mu None kv h) in *.
      destruct (Z.gtb_spec S 0) as [G|G]; destruct (Z.eqb_spec S 0); try lia; [|reflexivity].
      cbv zeta. unfold pt_t. rewrite wrapS16_id by lia. rewrite Z.shiftr_div_pow2 by lia. change (2 ^ 1) with 2.
      assert (0 <= R / 2 /\ 2 * (R / 2) <= R) by (split; [apply Z.div_pos; lia|apply Z.mul_div_le; lia]).
      rewrite i32_Ok by lia. cbn [bind].
      replace (P - S >? 0) with (0 <? P - S) by lia. replace ((P - S) * (P - S) >? R + R / 2) with (R + R / 2 <? (P - S) * (P - S)) by lia.
      reflexivity. }
  cbn [bind]. cbv zeta.
  assert (NE : mapi (fun i '(c, p) => had_ref_ne c p (junk_ne_all mem i))
                 (combine (mapi ref_sub had) (mapi (fun h c => ne_pt em had track mu None kv h c) had))
             = mapi (sp_ne em had track mu None kv (fun h => n_puppi (junk_ne_all mem h))) had).
  { rewrite combine_mapi, mapi_mapi. apply mapi_ext_in. intros h c Hh. destruct (ref_sub_spec h c Hh) as (_ & E2 & E3).
    unfold had_ref_ne, sp_ne, ne_obj. rewrite E2, E3.
    pose proof (ne_pt_nonneg em had track mu None kv h c (proj1 (had_left_rg_kv h c Hh))) as NN.
    destruct (Z.gtb_spec (ne_pt em had track mu None kv h c) 0); destruct (Z.eqb_spec (ne_pt em had track mu None kv h c) 0); try lia; reflexivity. }
  rewrite NE.
  rewrite ptsort_ref_sorted.
  - cbn [bind]. rewrite map_length, seq_length. f_equal. f_equal.
    rewrite combine_mapi, map_mapi. apply mapi_ext_in. intros i tk Hi.
    pose proof (tk_at _ _ _ _ HP _ _ Hi) as [_ [P _]].
    unfold had_ref_ch, ref_ch, rgood, rele, sp_ch, ch_kept. destruct (Z.eqb_spec (t_pt tk) 0) as [Z0|N].
    + rewrite Z0. cbn [andb]. destruct (t_tight tk); reflexivity.
    + destruct (Z.ltb_spec 0 (t_pt tk)); [|lia]. cbn [andb].
      destruct (is_mu track mu i), (is_ele em track mu i tk), (t_pt tk <? (if t_tight tk then 80 else 40)); reflexivity.
  - intros x. reflexivity.
  - intros x Hx. apply in_mapi in Hx as (h & c & Hh & ->). unfold sp_ne, ne_obj.
    pose proof (ne_pt_nonneg em had track mu None kv h c (proj1 (had_left_rg_kv h c Hh))).
    destruct (_ =? 0); cbn; lia.
  - rewrite map_length, seq_length, length_mapi. assumption.
Qed.
End Dom.
