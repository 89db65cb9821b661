(** The reference model computes the specification of SpecPFRef on the whole
    physical domain, or overflows an [int]. *)
From Verif Require Import Base BaseFacts Data PFHw PFRef SpecLink SpecPF SpecPFWrap SpecPFRef LinkFacts PFMatch MapiFacts SortFacts
  PFHwSpec PFTotal PFWrap PFRefSpec.

Lemma all_or_not {A} (P : nat -> A -> Prop) (l : list A) :
  (forall i x, nth_error l i = Some x -> P i x \/ ~ P i x) ->
  (forall i x, nth_error l i = Some x -> P i x) \/ exists i x, nth_error l i = Some x /\ ~ P i x.
Proof.
  revert P. induction l as [|a l IH]; intros P D; [left; intros [|i] x Hx; discriminate|].
  destruct (D 0%nat a eq_refl) as [H0|H0]; [|right; exists 0%nat, a; auto].
  destruct (IH (fun i => P (S i)) (fun i x Hi => D (S i) x Hi)) as [H|(i & x & Hi & H)].
  - left. intros [|i] x Hx; [cbn in Hx; injection Hx as <-; exact H0|apply H; exact Hx].
  - right. exists (S i), x. auto.
Qed.

Section Dom.
Variables (em : list EmCalo) (had : list HadCalo) (track : list Tk) (mu : list Mu) (kv : bool).
Hypothesis (HP : phys em had track mu).

Notation rm := (rmatch em (is_mu track mu)).
Notation emS := (em_tksum_r em track mu).
Definition rele_r (i : nat) (tk : Tk) : bool := (0 <? t_pt tk) && is_ele_r em track mu i tk.

Lemma ref_photon_r e W : em_phys e -> -32768 <= W <= 32767 ->
  ((Z.max 0 W <> 0 -> 4 * (e_pterr e * e_pterr e) < 2 ^ 31) ->
     em_ref_photon e W = Ok (em_class e (Z.max 0 W), pho_pt e (Z.max 0 W))) /\
  (Z.max 0 W <> 0 -> 2 ^ 31 <= 4 * (e_pterr e * e_pterr e) -> em_ref_photon e W = UB SignedOverflow).
Proof.
  intros He HW. destruct (Z.le_gt_cases W 0) as [N|G].
  - assert (Z.max 0 W = 0) as -> by lia. unfold em_ref_photon. destruct (Z.gtb_spec W 0); [lia|]. split; [reflexivity|intros F; elim F; reflexivity].
  - replace (Z.max 0 W) with W by lia. split.
    + intros HF. specialize (HF ltac:(lia)). destruct He as [H0 [H1 H2]]. apply ref_photon_one; [repeat split; try apply H0; assumption| |lia].
      intros _. nia.
    + intros _ HB. unfold em_ref_photon. destruct (Z.gtb_spec W 0); [|lia]. cbv zeta.
      destruct He as [(_ & Er & _) [_ HE]]. unfold inS in Er. simpl in Er. change (2 ^ 31) with 2147483648 in HB.
      rewrite i32_Ok by nia. cbn [bind]. rewrite i32_over by lia. reflexivity.
Qed.

Definition em_fit_r (k : nat) (e : EmCalo) : Prop := emS k <> 0 -> 4 * (e_pterr e * e_pterr e) < 2 ^ 31.

Definition ref_sub_r (h : nat) (c : HadCalo) : HadCalo :=
  em_ref_had kv em (mapi (is_em_r em track mu) em) (map (best_match_em_ref DR2MAX_EM_CALO had) em) h c.

Lemma ref_sub_r_spec h c : nth_error had h = Some c ->
  h_pt (ref_sub_r h c) = had_left_pt_r em had track mu kv h c /\
  h_eta (ref_sub_r h c) = h_eta c /\ h_phi (ref_sub_r h c) = h_phi c.
Proof.
  intros Hh. unfold ref_sub_r, em_ref_had. rewrite had_keep_fold by (unfold inS; simpl; lia).
  assert (E1 : map (best_match_em_ref DR2MAX_EM_CALO had) em = map (fun e => best (cand_em_had had e)) em).
  { apply map_ext_in. intros e He. apply best_match_em_ref_spec.
    pose proof (Hem _ _ _ _ HP) as F. rewrite Forall_forall in F. apply F; assumption. }
  rewrite E1, combine_mapi_r, (map_as_mapi (fun e => best _)), combine_mapi, map_mapi.
  rewrite Z.add_0_l.
  assert (S1 : pt_t (sumZ (mapi (fun i x => if is_em_r em track mu i x && opt_is (best (cand_em_had had x)) h then e_pt x else 0) em))
          = had_emsum_r em had track mu h) by reflexivity.
  rewrite S1.
  assert (K : (if existsb (fun '((e, isem), m) => negb (isem : bool) && opt_is m h)
                 (mapi (fun i x => (x, is_em_r em track mu i x, best (cand_em_had had x))) em) then kv else false)
              = had_keep_r em had track mu kv h).
  { unfold had_keep_r. unfold mapi.
    assert (X : forall l, existsb (fun '((e, isem), m) => negb (isem : bool) && opt_is m h)
               (map (fun p => (snd p, is_em_r em track mu (fst p) (snd p), best (cand_em_had had (snd p)))) l)
             = existsb (fun '(k, e) => negb (is_em_r em track mu k e) && opt_is (best (cand_em_had had e)) h) l).
    { induction l as [|[k e] l IH]; [reflexivity|]. cbn [map existsb fst snd]. rewrite IH. reflexivity. }
    rewrite X. destruct (existsb _ _), kv; reflexivity. }
  rewrite K. cbv zeta. unfold had_left_pt_r. cbv zeta. set (E := had_emsum_r em had track mu h).
  change (pt_t (h_pt c - E)) with (w16 (h_pt c - E)). change (pt_t (h_empt c - E)) with (w16 (h_empt c - E)).
  rewrite !Z.shiftr_div_pow2 by lia. change (2 ^ 4) with 16. change (2 ^ 3) with 8.
  destruct (w16 (h_pt c - E) <=? h_pt c / 16); cbn [orb]; [auto|].
  destruct (h_isem c && (w16 (h_empt c - E) <=? h_empt c / 8) && negb (had_keep_r em had track mu kv h)); auto.
Qed.

Lemma left_r_rg h c : nth_error had h = Some c -> 0 <= had_left_pt_r em had track mu kv h c <= 32767.
Proof.
  intros Hh. destruct (had_at _ _ _ _ HP _ _ Hh) as [(P & _) [HPt _]]. unfold inS in P; simpl in P.
  unfold had_left_pt_r. cbv zeta. set (E := had_emsum_r em had track mu h). pose proof (w16_rg (h_pt c - E)).
  destruct (Z.leb_spec (w16 (h_pt c - E)) (h_pt c / 16)); cbn [orb]; [lia|].
  assert (0 <= h_pt c / 16) by (apply Z.div_pos; lia). destruct (_ && _); lia.
Qed.

Lemma ref_em_r old :
  ((forall k e, nth_error em k = Some e -> em_fit_r k e) /\
   pfalgo3_em_ref kv em had track (mapi (fun i _ => is_mu track mu i) track) old
   = Ok (mapi rele_r track, mapi (sp_pho_r em track mu (fun k => n_puppi (old k))) em, mapi ref_sub_r had)) \/
  (~ (forall k e, nth_error em k = Some e -> em_fit_r k e) /\
   pfalgo3_em_ref kv em had track (mapi (fun i _ => is_mu track mu i) track) old = UB SignedOverflow).
Proof.
  unfold pfalgo3_em_ref. rewrite combine_mapi_r. rewrite em_ref_tracks. cbn [bind]. rewrite combine_mapi_r.
  assert (SW : forall k, pt_t (sum_where (fun i tk => opt_is (rm i tk) k) t_pt track) = w16 (em_tksum em track mu k)).
  { intros k. rewrite (ref_em_sum em had track mu HP k). reflexivity. }
  rewrite (mapi_ext_in (fun i x => (x, pt_t _)) (fun k e => (e, w16 (em_tksum em track mu k))) em).
  2:{ intros k e _. rewrite SW. reflexivity. }
  edestruct (mapM_mapi_or (fun '(c, s) => em_ref_photon c s) (fun k e => (e, w16 (em_tksum em track mu k)))
    (fun k e => (is_em_r em track mu k e, pho_pt e (emS k))) em_fit_r SignedOverflow em) as [[F E]|[F E]].
  - intros k e _. unfold em_fit_r. destruct (Z.eq_dec (emS k) 0); [left; intros; contradiction|].
    destruct (Z.lt_ge_cases (4 * (e_pterr e * e_pterr e)) (2 ^ 31)); [left; auto|right; intros H0; specialize (H0 n); lia].
  - intros k e Hk HF. apply ref_photon_r; [eapply em_at; eauto|apply w16_rg|exact HF].
  - intros k e Hk HF. unfold em_fit_r in HF. apply ref_photon_r; [eapply em_at; eauto|apply w16_rg| |].
    + intros Z0. apply HF. intros X. elim X. exact Z0.
    + destruct (Z.le_gt_cases (2 ^ 31) (4 * (e_pterr e * e_pterr e))); [assumption|]. elim HF. intros _. assumption.
  - left. split; [exact F|]. rewrite E. cbn [bind]. cbv zeta. rewrite map_mapi. cbn [fst].
    change (mapi (fun i x => is_em_r em track mu i x) em) with (mapi (is_em_r em track mu) em).
    rewrite (mapM_mapi _ _ rele_r).
    2:{ intros i tk Hi. unfold rele_r, is_ele_r. pose proof (tk_at _ _ _ _ HP _ _ Hi) as [_ [P _]].
        destruct (Z.eq_dec (t_pt tk) 0) as [Z0|N].
        - rewrite (rm_none em track mu) by assumption. rewrite Z0. reflexivity.
        - rewrite rm_em_match by lia. destruct (Z.ltb_spec 0 (t_pt tk)); [|lia]. cbn [andb].
          destruct (em_match em track mu i tk) as [k|] eqn:EM; [|reflexivity].
          unfold rd. rewrite nth_error_mapi. destruct (nth_error_lt em k (em_match_lt _ _ _ _ _ _ EM)) as [e He].
          rewrite He. reflexivity. }
    cbn [bind]. f_equal. f_equal. f_equal.
    rewrite combine_mapi_r, mapi_mapi. apply mapi_ext_in. intros k e _. unfold sp_pho_r. apply ne_obj_match.
  - right. split; [exact F|]. rewrite E. reflexivity.
Qed.

(** ** hadronic step *)
Lemma ref_had_match_r tk : tk_phys tk ->
  best_match_with_pt_ref DR2MAX_TK_CALO (mapi ref_sub_r had) tk = Ok (had_match_r em had track mu kv tk).
Proof.
  intros Ht. rewrite best_match_with_pt_ref_spec by assumption. f_equal. unfold had_match_r, had_left_r. f_equal.
  apply cand_tk_had_sub. intros h c Hh. destruct (ref_sub_r_spec h c Hh) as (E1 & E2 & E3).
  cbn [h_pt h_eta h_phi]. rewrite E1, E2, E3. auto.
Qed.
Lemma had_match_r_lt tk k : had_match_r em had track mu kv tk = Some k -> (k < length had)%nat.
Proof.
  unfold had_match_r. intros H. apply best_lt in H. unfold cand_tk_had, had_left_r in H.
  rewrite map_length, length_mapi in H. assumption.
Qed.

Definition rgood_r (i : nat) (tk : Tk) : bool :=
  (t_pt tk <? (if t_tight tk then 80 else 40)) || rele_r i tk || is_mu track mu i
  || ((0 <? t_pt tk) && match had_match_r em had track mu kv tk with Some _ => true | None => false end).

Notation inr_ := (in_had_r em had track mu kv).
Definition err_sum (l : list Tk) (h : nat) : Z := sum_where (inr_ h) (fun t => t_pterr t * t_pterr t) l.

Lemma had_ref_tracks_r l : Forall tk_phys l ->
  ((forall h c, nth_error had h = Some c -> err_sum l h < 2 ^ 31) ->
    foldM (had_ref_track_step (mapi ref_sub_r had)) (mapi (fun i tk => (tk, (rele_r i tk, is_mu track mu i))) l)
     ([], map (fun _ => 0) had, map (fun _ => 0) had)
    = Ok (mapi rgood_r l, mapi (fun h _ => w16 (sum_where (inr_ h) t_pt l)) had, mapi (fun h _ => err_sum l h) had)) /\
  (~ (forall h c, nth_error had h = Some c -> err_sum l h < 2 ^ 31) ->
    foldM (had_ref_track_step (mapi ref_sub_r had)) (mapi (fun i tk => (tk, (rele_r i tk, is_mu track mu i))) l)
     ([], map (fun _ => 0) had, map (fun _ => 0) had) = UB SignedOverflow).
Proof.
  change (2 ^ 31) with 2147483648.
  induction l as [|t l IH] using rev_ind; intros F.
  - split.
    + intros _. cbn. rewrite !map_as_mapi. reflexivity.
    + intros N. elim N. intros h c _. cbn. lia.
  - apply Forall_app in F as [Fl Ft]. inversion Ft as [|? ? Ht _]; subst. destruct (IH Fl) as [IY IN]. clear IH.
    pose proof Ht as [_ [HPt HEr]].
    assert (Q : 0 <= t_pterr t * t_pterr t) by nia.
    set (n := length l).
    assert (SN : forall k (f : Tk -> Z), sum_where (inr_ k) f (l ++ [t]) =
       sum_where (inr_ k) f l + (if inr_ k n t then f t else 0)).
    { intros k f. apply sum_where_snoc. }
    assert (SE : forall k, err_sum (l ++ [t]) k = err_sum l k + (if inr_ k n t then t_pterr t * t_pterr t else 0)).
    { intros k. unfold err_sum. rewrite SN. reflexivity. }
    rewrite !mapi_snoc, foldM_app.
    destruct (all_or_not (fun h (_ : HadCalo) => err_sum l h < 2147483648) had ltac:(intros; cbv beta; lia)) as [A|(h & c & Hh & NA)].
    2:{ assert (N : ~ (forall h c, nth_error had h = Some c -> err_sum l h < 2147483648)) by (intros X; apply NA; eapply X; eauto).
        rewrite (IN N). cbn [bind]. split; [|reflexivity]. intros X. specialize (X h c Hh). rewrite SE in X.
        destruct (inr_ h n t); lia. }
    rewrite (IY A). clear IY IN.
    fold n. cbn [bind foldM had_ref_track_step].
    rewrite (ref_had_match_r t Ht).
    replace (t_pt t >? 0) with (0 <? t_pt t) by lia.
    unfold TK_MAXINVPT_TIGHT, TK_MAXINVPT_LOOSE.
    assert (RG : rgood_r n t = (t_pt t <? (if t_tight t then 80 else 40)) || rele_r n t || is_mu track mu n
      || ((0 <? t_pt t) && match had_match_r em had track mu kv t with Some _ => true | None => false end)) by reflexivity.
    rewrite RG. clear RG.
    assert (RR : (0 <? t_pt t) && negb (rele_r n t) = (0 <? t_pt t) && negb (is_ele_r em track mu n t)).
    { unfold rele_r. destruct (0 <? t_pt t); reflexivity. }
    destruct ((0 <? t_pt t) && negb (rele_r n t) && negb (is_mu track mu n)) eqn:C.
    + cbn [bind]. 
      assert (P0 : 0 <? t_pt t = true) by (destruct (0 <? t_pt t); [reflexivity|discriminate]). 
      assert (RI : forall k, inr_ k n t = opt_is (had_match_r em had track mu kv t) k).
      { intros k. unfold in_had_r. rewrite <- RR, C. reflexivity. }
      rewrite P0. cbn [andb].
      destruct (had_match_r em had track mu kv t) as [k|] eqn:E.
      * pose proof (had_match_r_lt _ _ E) as L. destruct (nth_error_lt had k L) as [c Hc].
        unfold rd, wr. rewrite !nth_error_mapi, Hc, !length_mapi. cbn [option_map bind].
        destruct (Nat.ltb_spec k (length had)); [|lia]. cbn [bind].
        pose proof (sum_where_le (inr_ k) (fun t => t_pterr t * t_pterr t) l ltac:(intros; nia)) as R2. cbv beta in R2.
        fold (err_sum l k) in R2.
        assert (SK : err_sum (l ++ [t]) k = err_sum l k + t_pterr t * t_pterr t).
        { rewrite SE, RI. cbn [opt_is]. rewrite Nat.eqb_refl. reflexivity. }
        split.
        -- intros H2. pose proof (H2 k c Hc) as R1. rewrite SK in R1.
           rewrite i32_Ok by lia. cbn [bind]. rewrite orb_true_r. do 2 f_equal; [f_equal|].
           ++ apply upd_mapi; [| |assumption].
              ** intros i x _ N. rewrite SN, RI. cbn [opt_is]. destruct (Nat.eqb_spec k i); [congruence|]. rewrite Z.add_0_r. reflexivity.
              ** intros x _. rewrite SN, RI. cbn [opt_is]. rewrite Nat.eqb_refl. unfold w16, pt_t. rewrite wrapS_wrapS_add by lia. reflexivity.
           ++ apply upd_mapi; [| |assumption].
              ** intros i x _ N. rewrite SE, RI. cbn [opt_is]. destruct (Nat.eqb_spec k i); [congruence|]. lia.
              ** intros x _. exact SK.
        -- intros N. rewrite i32_over; [reflexivity|].
           destruct (Z.le_gt_cases (err_sum l k + t_pterr t * t_pterr t) 2147483647) as [LE|GT]; [|lia].
           elim N. intros h d Hd. destruct (Nat.eq_dec h k) as [->|NE]; [rewrite SK; lia|].
           rewrite SE, RI. cbn [opt_is]. destruct (Nat.eqb_spec k h); [congruence|]. specialize (A h d Hd). cbv beta in A. lia.
      * cbn [bind]. split.
        -- intros _. rewrite orb_false_r. do 2 f_equal; [f_equal|]; apply mapi_ext_in; intros k c _; rewrite ?SE, ?SN, ?RI; cbn [opt_is]; rewrite Z.add_0_r; reflexivity.
        -- intros N. elim N. intros h c Hc. rewrite SE, RI. cbn [opt_is]. specialize (A h c Hc). cbv beta in A. lia.
    + assert (RI : forall k, inr_ k n t = false).
      { intros k. unfold in_had_r. rewrite <- RR, C. reflexivity. }
      cbn [bind]. split.
      2:{ intros N. elim N. intros h c Hc. rewrite SE, RI. specialize (A h c Hc). cbv beta in A. lia. }
      intros _. do 2 f_equal; [f_equal|].
      * f_equal. f_equal.
        destruct (Z.ltb_spec 0 (t_pt t)) as [P0|P0]; cbn [andb] in C |- *; [|rewrite orb_false_r; reflexivity].
        destruct (rele_r n t); [rewrite !orb_true_r; reflexivity|].
        destruct (is_mu track mu n); [rewrite !orb_true_r; reflexivity|]. discriminate.
      * apply mapi_ext_in; intros k c _; rewrite SN, RI; rewrite Z.add_0_r; reflexivity.
      * apply mapi_ext_in; intros k c _; rewrite SE, RI; rewrite Z.add_0_r; reflexivity.
Qed.

Notation errs := (had_err2_r em had track mu kv).
Notation tks := (had_tksum_r em had track mu kv).
Notation lft := (had_left_pt_r em had track mu kv).

Lemma errs_nonneg h : 0 <= errs h.
Proof. apply (sum_where_le (inr_ h) (fun t => t_pterr t * t_pterr t) track). intros; nia. Qed.

Definition ne_fit_r (h : nat) (c : HadCalo) : Prop := tks h <> 0 -> errs h + errs h / 2 < 2 ^ 31.

Lemma subpt_r h c W : nth_error had h = Some c -> tks h = Z.max 0 W -> -32768 <= W <= 32767 -> errs h < 2 ^ 31 ->
  (ne_fit_r h c -> had_ref_subpt (ref_sub_r h c) W (errs h) = Ok (ne_pt_r em had track mu kv h c)) /\
  (~ ne_fit_r h c -> had_ref_subpt (ref_sub_r h c) W (errs h) = UB SignedOverflow).
Proof.
  intros Hh EW RW HE. unfold ne_fit_r, ne_pt_r, had_ref_subpt, ne_balance. destruct (ref_sub_r_spec h c Hh) as (-> & _ & _).
  pose proof (left_r_rg h c Hh) as RL. set (P := lft h c) in *. rewrite EW. pose proof (errs_nonneg h) as NR. change (2 ^ 31) with 2147483648 in *.
  set (R := errs h) in *. clearbody P R.
  rewrite Z.shiftr_div_pow2 by lia. change (2 ^ 1) with 2.
  assert (R2 : 0 <= R / 2 /\ 2 * (R / 2) <= R) by (split; [apply Z.div_pos; lia|apply Z.mul_div_le; lia]).
  destruct (Z.gtb_spec W 0) as [G|G]; destruct (Z.eqb_spec (Z.max 0 W) 0); try lia.
  - cbv zeta. replace (Z.max 0 W) with W by lia. unfold pt_t. rewrite wrapS16_id by lia. split.
    + intros HF. rewrite i32_Ok by (specialize (HF ltac:(lia)); lia). cbn [bind].
      replace (P - W >? 0) with (0 <? P - W) by lia. replace ((P - W) * (P - W) >? R + R / 2) with (R + R / 2 <? (P - W) * (P - W)) by lia.
      reflexivity.
    + intros HF. rewrite i32_over; [reflexivity|]. destruct (Z.lt_ge_cases (R + R / 2) 2147483648); [elim HF; auto|lia].
  - split; [reflexivity|]. intros HF. elim HF. intros X. elim X. assumption.
Qed.

Lemma ne_pt_r_nonneg h c : nth_error had h = Some c -> 0 <= ne_pt_r em had track mu kv h c <= 32767.
Proof.
  intros Hh. pose proof (left_r_rg h c Hh). unfold ne_pt_r, ne_balance. destruct (_ =? 0); [assumption|]. cbv zeta.
  assert (0 <= tks h) by (unfold had_tksum_r; lia).
  destruct (Z.ltb_spec 0 (lft h c - tks h)); cbn [andb]; [|lia]. destruct (_ <? _); lia.
Qed.

Theorem pfalgo3_full_ref_wrap mem nsel : (nsel <= length had)%nat ->
  (ints_fit_r em had track mu kv /\ pfalgo3_full_ref_gen kv mem nsel em had track mu =
     Ok (mkOut (mapi (sp_ch_r em had track mu kv) track)
            (mapi (sp_pho_r em track mu (fun k => n_puppi (old_outpho mem k))) em)
            (firstn nsel (sorted_cands n_pt (mapi (sp_ne_r em had track mu kv (fun h => n_puppi (junk_ne_all mem h))) had)))
            (map (sp_mu track) mu))) \/
  (~ ints_fit_r em had track mu kv /\ pfalgo3_full_ref_gen kv mem nsel em had track mu = UB SignedOverflow).
Proof.
  intros Hn. unfold pfalgo3_full_ref_gen. rewrite ref_mu. cbn [bind].
  destruct (ref_em_r (old_outpho mem)) as [[FE ->]|[NE ->]].
  2:{ right. split; [|reflexivity]. intros [F _]. apply NE. exact F. }
  cbn [bind]. rewrite combine_mapi, combine_mapi_r.
  destruct (had_ref_tracks_r track (Htk _ _ _ _ HP)) as [TY TN].
  destruct (all_or_not (fun h (_ : HadCalo) => errs h < 2 ^ 31) had ltac:(intros; cbv beta; lia)) as [A|(h & c & Hh & NA)].
  2:{ rewrite TN by (intros X; apply NA; exact (X h c Hh)). right. split; [|reflexivity]. intros [_ F]. apply NA. apply (F h c Hh). }
  rewrite TY by exact A. clear TY TN. cbn [bind]. rewrite combine_mapi, combine_mapi.
  edestruct (mapM_mapi_or (fun '(c, (s, e)) => had_ref_subpt c s e)
    (fun h c => (ref_sub_r h c, (w16 (sum_where (inr_ h) t_pt track), err_sum track h)))
    (ne_pt_r em had track mu kv) ne_fit_r SignedOverflow had) as [[F E]|[F E]].
  - intros h c _. unfold ne_fit_r. destruct (Z.eq_dec (tks h) 0); [left; intros; contradiction|].
    destruct (Z.lt_ge_cases (errs h + errs h / 2) (2 ^ 31)); [left; auto|right; intros H0; specialize (H0 n); lia].
  - intros h c Hh HF. apply (subpt_r h c _ Hh eq_refl); [apply w16_rg|apply (A h c Hh)|exact HF].
  - intros h c Hh HF. apply (subpt_r h c _ Hh eq_refl); [apply w16_rg|apply (A h c Hh)|exact HF].
  - rewrite E. clear E. left. split; [split; [exact FE|]; intros h c Hh; split; [exact (A h c Hh)|exact (F h c Hh)]|].
    cbn [bind]. cbv zeta.
    assert (NE : mapi (fun i '(c, p) => had_ref_ne c p (junk_ne_all mem i))
                   (combine (mapi ref_sub_r had) (mapi (ne_pt_r em had track mu kv) had))
               = mapi (sp_ne_r em had track mu kv (fun h => n_puppi (junk_ne_all mem h))) had).
    { rewrite combine_mapi, mapi_mapi. apply mapi_ext_in. intros h c Hh. destruct (ref_sub_r_spec h c Hh) as (_ & E2 & E3).
      unfold had_ref_ne, sp_ne_r, ne_obj. rewrite E2, E3. pose proof (ne_pt_r_nonneg h c Hh) as NN.
      destruct (Z.gtb_spec (ne_pt_r em had track mu kv h c) 0); destruct (Z.eqb_spec (ne_pt_r em had track mu kv h c) 0); try lia; reflexivity. }
    rewrite NE. rewrite ptsort_ref_sorted.
    + cbn [bind]. rewrite map_length, seq_length. f_equal. f_equal.
      rewrite combine_mapi, map_mapi. apply mapi_ext_in. intros i tk Hi.
      unfold had_ref_ch, rgood_r, rele_r, sp_ch_r, ch_kept_r.
      destruct (Z.ltb_spec 0 (t_pt tk)) as [P0|P0]; cbn [andb].
      * destruct (is_mu track mu i), (is_ele_r em track mu i tk), (t_pt tk <? (if t_tight tk then 80 else 40)); reflexivity.
      * replace (t_pt tk <? (if t_tight tk then 80 else 40)) with true by (destruct (t_tight tk); symmetry; apply Z.ltb_lt; lia).
        cbn [orb]. rewrite !orb_true_r. reflexivity.
    + intros x. reflexivity.
    + intros x Hx. apply in_mapi in Hx as (h & c & Hh & ->). unfold sp_ne_r, ne_obj.
      pose proof (ne_pt_r_nonneg h c Hh). destruct (_ =? 0); cbn; lia.
    + rewrite map_length, seq_length, length_mapi. assumption.
  - right. rewrite E. split; [|reflexivity]. intros [_ G]. apply F. intros h c Hh. exact (proj2 (G h c Hh)).
Qed.
End Dom.
