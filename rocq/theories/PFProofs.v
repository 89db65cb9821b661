(** Proofs of the particle-flow properties C01, C03-C09, C52. *)
From Coq Require Import Permutation Sorted.
From Verif Require Import Base BaseFacts Data PFHw PFRef TestUtils SpecLink SpecPF SpecOut SpecSort
  LinkFacts PFMatch MapiFacts SortFacts RankFacts SpecPFWrap PFHwSpec PFWrap PFRefSpec.

(** ** the boolean and propositional specifications agree *)
Lemma mu_match_spec track m i : mu_match track m = Some i <-> 0 < m_pt m /\ is_best (cand_mu_tk track m) i.
Proof.
  unfold mu_match. destruct (Z.ltb_spec 0 (m_pt m)); rewrite <- ?best_spec; split; try tauto; try discriminate; intros [? ?]; lia.
Qed.
Lemma is_mu_spec track mu i : is_mu track mu i = true <-> MuTrack track mu i.
Proof.
  unfold is_mu, MuTrack. rewrite existsb_exists. split; intros (m & Hin & H); exists m.
  - apply opt_is_Some in H. apply mu_match_spec in H. tauto.
  - split; [assumption|]. apply opt_is_Some. apply mu_match_spec. assumption.
Qed.
Lemma em_match_spec em track mu i tk k : em_match em track mu i tk = Some k <-> EmLinked em track mu i tk k.
Proof.
  unfold em_match, EmLinked. rewrite <- is_mu_spec, <- best_spec. destruct (is_mu track mu i).
  - split; [discriminate|]. intros [H _]. congruence.
  - split; [intros H; split; [discriminate|assumption]|]. intros [_ H]. assumption.
Qed.
Lemma is_ele_spec em track mu i tk : is_ele em track mu i tk = true <-> Electron em track mu i tk.
Proof.
  unfold is_ele, Electron, is_em. split.
  - destruct (em_match em track mu i tk) as [k|] eqn:E; [|discriminate].
    destruct (nth_error em k) as [e|] eqn:Ee; [|discriminate]. intros H. exists k, e. rewrite <- em_match_spec. auto.
  - intros (k & e & Hk & He & Hc). apply em_match_spec in Hk. rewrite Hk, He. assumption.
Qed.
Lemma had_match_spec em had track mu tk h :
  had_match em had track mu (Some 131071) false tk = Some h <-> HadLinked em had track mu tk h.
Proof. unfold had_match, HadLinked. apply best_spec. Qed.

(** ** C01 *)
Definition strip (n : PFNe) : PFNe := mkNe (n_pt n) (n_eta n) (n_phi n) (n_id n) 0.

Lemma ne_equals_strip a b : strip a = strip b -> pf_equals_ne a b = true.
Proof.
  destruct a, b. unfold strip, pf_equals_ne; cbn. intros H; inversion H; subst. rewrite !Z.eqb_refl.
  destruct (_ =? 0); reflexivity.
Qed.
Lemma ch_equals_refl a : pf_equals_ch a a = true.
Proof. unfold pf_equals_ch. rewrite !Z.eqb_refl. destruct (_ =? 0); reflexivity. Qed.
Lemma Forall2_refl {A} (R : A -> A -> Prop) l : (forall x, R x x) -> Forall2 R l l.
Proof. intros H. induction l; constructor; auto. Qed.
Lemma ne_Forall2_strip l1 l2 : map strip l1 = map strip l2 -> Forall2 (fun a b => pf_equals_ne a b = true) l1 l2.
Proof.
  revert l2; induction l1 as [|a l1 IH]; intros [|b l2] H; cbn in H; try discriminate; constructor.
  - apply ne_equals_strip. congruence.
  - apply IH. congruence.
Qed.

Lemma strip_ne_obj p eta phi id pup : strip (ne_obj p eta phi id pup) = ne_obj p eta phi id 0.
Proof. unfold ne_obj. destruct (p =? 0); reflexivity. Qed.

Section Agree.
Variables (em : list EmCalo) (had : list HadCalo) (track : list Tk) (mu : list Mu) (kv : bool).
Hypothesis (HP : phys em had track mu) (HO : sums_fit em had track mu (Some 131071) false) (HC : clean_empty track)
  (H1 : Forall (fun t => t_pterr t <> 1) track)
  (HK : kv = false \/ ~ KeepConflict em had track mu).

Lemma left_pt_kv h c : nth_error had h = Some c ->
  had_left_pt em had track mu kv h c = had_left_pt em had track mu false h c.
Proof.
  intros Hh. destruct HK as [->|K]; [reflexivity|]. unfold had_left_pt. cbv zeta.
  destruct (h_isem c) eqn:EI; [|reflexivity].
  assert (KF : had_keep em had track mu kv h = false).
  { unfold had_keep. destruct kv; [|reflexivity]. cbn [andb]. apply not_true_is_false. intros X.
    apply existsb_exists in X as ([k e] & Hin & Hke). apply in_indexed in Hin. apply andb_true_iff in Hke as [A B].
    apply negb_true_iff in A. apply opt_is_Some in B. apply best_spec in B. apply K. exists h, c, k, e. auto. }
  rewrite KF. reflexivity.
Qed.
Lemma left_kv : had_left em had track mu kv = had_left em had track mu false.
Proof. unfold had_left. apply mapi_ext_in. intros h c Hh. rewrite left_pt_kv by assumption. reflexivity. Qed.
Lemma match_kv i tk : nth_error track i = Some tk ->
  had_match em had track mu None kv tk = had_match em had track mu (Some 131071) false tk.
Proof.
  intros Hi. unfold had_match. rewrite left_kv. f_equal. symmetry. apply cand_tk_had_cap; [eapply tk_at; eauto|].
  rewrite Forall_forall in H1. apply H1. eapply nth_error_In; eauto.
Qed.
Lemma ne_pt_kv h c : nth_error had h = Some c ->
  ne_pt em had track mu None kv h c = ne_pt em had track mu (Some 131071) false h c.
Proof.
  intros Hh. unfold ne_pt. rewrite left_pt_kv by assumption. f_equal.
  - apply sum_where_ext. intros i tk Hi. unfold in_had. rewrite (match_kv _ _ Hi). reflexivity.
  - apply sum_where_ext. intros i tk Hi. unfold in_had. rewrite (match_kv _ _ Hi). reflexivity.
Qed.

Lemma fit_kv : sums_fit em had track mu None kv.
Proof.
  destruct HO as [A B]. split; [exact A|]. intros h c Hh. destruct (B h c Hh) as (B1 & B2 & B3). split; [exact B1|].
  assert (E : forall f, sum_where (in_had em had track mu None kv h) f track = sum_where (in_had em had track mu (Some 131071) false h) f track).
  { intros f. apply sum_where_ext. intros i tk Hi. unfold in_had. rewrite (match_kv _ _ Hi). reflexivity. }
  unfold had_tksum, had_err2. rewrite !E. split; assumption.
Qed.

Lemma hw_ref_agree mem1 mem2 nsel : (nsel <= length had)%nat ->
  exists o r, pfalgo3_full mem1 nsel em had track mu = Ok o /\
              pfalgo3_full_ref_gen kv mem2 nsel em had track mu = Ok r /\ agree r o.
Proof.
  intros Hn. eexists. eexists. split; [|split].
  - apply pfalgo3_full_fit; auto.
  - apply pfalgo3_full_ref_spec; auto using fit_kv.
  - unfold agree; cbn [o_ch o_pho o_ne o_mu]. split; [|split; [|split]].
    + assert (G : forall l, (forall i tk, In (i, tk) l -> nth_error track i = Some tk) ->
        Forall2 (fun a b => pf_equals_ch a b = true)
          (map (fun p => ref_ch em had track mu kv (fst p) (snd p)) l)
          (map (fun p => sp_ch em had track mu (Some 131071) false (fst p) (snd p)) l)).
      { induction l as [|[i tk] l IH]; intros Hl; cbn [map]; constructor; [|apply IH; intros; apply Hl; right; assumption].
        specialize (Hl i tk (or_introl eq_refl)). cbn [fst snd]. unfold ref_ch.
        destruct (Z.eqb_spec (t_pt tk) 0) as [Z0|N].
        - unfold pf_equals_ch; cbn [c_pt]. cbn. unfold sp_ch. destruct (ch_kept _ _ _ _ _ _ _ _); cbn [c_pt]; [|reflexivity].
          rewrite Z0; reflexivity.
        - unfold sp_ch, ch_kept. rewrite (match_kv _ _ Hl). apply ch_equals_refl. }
      apply G. intros i tk. apply in_indexed.
    + apply ne_Forall2_strip. rewrite !map_mapi. apply mapi_ext_in. intros k e _. unfold sp_pho. rewrite !strip_ne_obj. reflexivity.
    + apply ne_Forall2_strip. rewrite <- !firstn_map. f_equal.
      rewrite <- !(sorted_cands_map strip n_pt n_pt) by reflexivity. f_equal. rewrite !map_mapi.
      apply mapi_ext_in. intros h c Hh. unfold sp_ne. rewrite !strip_ne_obj. rewrite ne_pt_kv by assumption. reflexivity.
    + apply Forall2_refl. apply ch_equals_refl.
Qed.
End Agree.

(** ** C03-C08, C52 from the specification *)
Section Hw.
Variables (em : list EmCalo) (had : list HadCalo) (track : list Tk) (mu : list Mu) (mem : pfmem) (nsel : nat) (out : pfout).
Hypothesis (HP : phys em had track mu) (HO : sums_fit em had track mu (Some 131071) false) (Hn : (nsel <= length had)%nat)
  (Hrun : pfalgo3_full mem nsel em had track mu = Ok out).

Lemma out_eq : out = mkOut (mapi (sp_ch em had track mu (Some 131071) false) track)
            (mapi (sp_pho em track mu (fun k => n_puppi (old_outpho mem k))) em)
            (firstn nsel (sorted_cands n_pt
                (mapi (sp_ne em had track mu (Some 131071) false (fun h => n_puppi (junk_ne_all mem h))) had)))
            (map (sp_mu track) mu).
Proof.
  rewrite pfalgo3_full_fit in Hrun; auto. inversion Hrun; reflexivity.
Qed.

Lemma out_ch i tk : nth_error track i = Some tk -> nth_error (o_ch out) i = Some (sp_ch em had track mu (Some 131071) false i tk).
Proof. intros H. rewrite out_eq. cbn [o_ch]. rewrite nth_error_mapi, H. reflexivity. Qed.
Lemma out_pho k e : nth_error em k = Some e -> nth_error (o_pho out) k = Some (sp_pho em track mu (fun k => n_puppi (old_outpho mem k)) k e).
Proof. intros H. rewrite out_eq. cbn [o_pho]. rewrite nth_error_mapi, H. reflexivity. Qed.
Lemma out_mu j m : nth_error mu j = Some m -> nth_error (o_mu out) j = Some (sp_mu track m).
Proof. intros H. rewrite out_eq. cbn [o_mu]. rewrite nth_error_map', H. reflexivity. Qed.

Lemma kept_spec i tk : ch_kept em had track mu (Some 131071) false i tk = true <->
  (MuTrack track mu i \/ Electron em track mu i tk \/ t_pt tk < (if t_tight tk then 80 else 40)
   \/ exists h, HadLinked em had track mu tk h).
Proof.
  unfold ch_kept. rewrite !orb_true_iff, is_mu_spec, is_ele_spec, Z.ltb_lt.
  assert (X : (match had_match em had track mu (Some 131071) false tk with Some _ => true | None => false end) = true
              <-> exists h, HadLinked em had track mu tk h).
  { split.
    - destruct (had_match em had track mu (Some 131071) false tk) as [h|] eqn:E; [|discriminate]. intros _. exists h. apply had_match_spec; assumption.
    - intros [h Hh]. apply had_match_spec in Hh. rewrite Hh. reflexivity. }
  rewrite X. tauto.
Qed.

Lemma c03 : length (o_ch out) = length track /\
  forall i tk, nth_error track i = Some tk -> exists c, nth_error (o_ch out) i = Some c /\
    let kept := MuTrack track mu i \/ Electron em track mu i tk \/ t_pt tk < (if t_tight tk then 80 else 40)
                \/ exists h, HadLinked em had track mu tk h in
    (kept -> c_pt c = t_pt tk /\ c_eta c = t_eta tk /\ c_phi c = t_phi tk /\ c_z0 c = t_z0 tk) /\
    (~ kept -> c = mkCh 0 0 0 0 0).
Proof.
  split; [rewrite out_eq; cbn [o_ch]; apply length_mapi|]. intros i tk Hi. eexists. split; [apply out_ch; exact Hi|].
  cbv zeta. rewrite <- kept_spec. unfold sp_ch. destruct (ch_kept em had track mu (Some 131071) false i tk); cbn; split; intros H; auto; congruence.
Qed.

Lemma c07 i tk : nth_error track i = Some tk -> exists c, nth_error (o_ch out) i = Some c /\
  (c_id c = PID_Electron <-> Electron em track mu i tk).
Proof.
  intros Hi. eexists. split; [apply out_ch; exact Hi|]. rewrite <- is_ele_spec. unfold sp_ch, ch_kept.
  destruct (is_ele em track mu i tk) eqn:E.
  - rewrite orb_true_r. cbn. tauto.
  - destruct (_ || _); [|cbn; unfold PID_Electron; split; intros; lia]. cbn.
    destruct (is_mu track mu i); cbn; unfold PID_Electron, PID_Muon, PID_Charged; split; intros; try discriminate; lia.
Qed.

Lemma c06 k e : nth_error em k = Some e ->
  let S := em_tksum em track mu k in let d := e_pt e - S in let s2 := e_pterr e * e_pterr e in
  exists p, nth_error (o_pho out) k = Some p /\
   (S = 0 -> n_pt p = e_pt e) /\
   (S <> 0 -> 0 < d -> d * d > s2 + s2 / 2 -> n_pt p = d) /\
   (S <> 0 -> ~ (0 < d /\ d * d > s2 + s2 / 2) -> n_pt p = 0) /\
   0 <= n_pt p <= e_pt e /\
   (n_pt p <> 0 -> n_eta p = e_eta e /\ n_phi p = e_phi e).
Proof.
  intros Hk. cbv zeta. eexists. split; [apply out_pho; exact Hk|].
  pose proof (em_at _ _ _ _ HP _ _ Hk) as [_ [P _]]. pose proof (fit_tksum_nn em had track mu HP (fun i tk => opt_is (em_match em track mu i tk) k)) as R. fold (em_tksum em track mu k) in R.
  unfold sp_pho, ne_obj, pho_pt. cbv zeta. set (S := em_tksum em track mu k) in *.
  set (s2 := e_pterr e * e_pterr e). set (d := e_pt e - S).
  destruct (Z.eqb_spec S 0) as [S0|SN].
  - destruct (Z.eqb_spec (e_pt e) 0) as [E0|E0]; cbn; repeat split; intros; try lia.
  - assert (B : (0 <? d) && (s2 + s2 / 2 <? d * d) = true <-> 0 < d /\ d * d > s2 + s2 / 2).
    { rewrite andb_true_iff, !Z.ltb_lt. split; intros [? ?]; split; lia. }
    destruct ((0 <? d) && (s2 + s2 / 2 <? d * d)) eqn:E.
    + destruct B as [B _]. specialize (B eq_refl) as [B1 B2].
      destruct (Z.eqb_spec d 0); [lia|]. cbn [n_pt n_eta n_phi]. split; [intros; lia|]. split; [intros; reflexivity|].
      split; [intros _ C; exfalso; apply C; split; assumption|]. split; [unfold d in *; lia|]. intros; split; reflexivity.
    + cbn. assert (NB : ~ (0 < d /\ d * d > s2 + s2 / 2)) by (intros C; apply B in C; discriminate).
      split; [intros; lia|]. split; [intros _ C D; exfalso; apply NB; split; assumption|]. split; [reflexivity|].
      split; [lia|]. intros C; exfalso; apply C; reflexivity.
Qed.

Notation cands := (mapi (sp_ne em had track mu (Some 131071) false (fun h => n_puppi (junk_ne_all mem h))) had).

Lemma out_ne_in n : In n (o_ne out) -> exists h c, nth_error had h = Some c /\
  n = sp_ne em had track mu (Some 131071) false (fun h => n_puppi (junk_ne_all mem h)) h c.
Proof.
  intros Hin. rewrite out_eq in Hin. cbn [o_ne] in Hin.
  assert (In n cands).
  { eapply Permutation_in; [apply (sorted_cands_perm n_pt)|]. rewrite <- (firstn_skipn nsel). apply in_or_app; left; exact Hin. }
  apply in_mapi in H as (h & c & Hh & ->). exists h, c; auto.
Qed.

Lemma c08 n : In n (o_ne out) -> n_pt n <> 0 ->
  exists h c, nth_error had h = Some c /\
    n_eta n = h_eta c /\ n_phi n = h_phi c /\ n_id n = PID_Neutral /\
    let P := h_pt c - had_emsum em had track mu h in
    let S := had_tksum em had track mu (Some 131071) false h in
    let err2 := had_err2 em had track mu (Some 131071) false h in
    0 < n_pt n <= P /\ P <= h_pt c /\
    ((S = 0 /\ n_pt n = P) \/ (S <> 0 /\ n_pt n = P - S /\ n_pt n * n_pt n > err2 + err2 / 2)).
Proof.
  intros Hin Hnz. destruct (out_ne_in n Hin) as (h & c & Hh & ->). exists h, c. split; [assumption|].
  unfold sp_ne, ne_obj in *. destruct (Z.eqb_spec (ne_pt em had track mu (Some 131071) false h c) 0) as [E|E].
  - exfalso. apply Hnz. reflexivity.
  - clear Hnz. cbn [n_pt n_eta n_phi n_id]. split; [reflexivity|]. split; [reflexivity|]. split; [reflexivity|]. cbv zeta.
    pose proof (fit_left_rg em had track mu HP HO h c Hh) as RL.
    pose proof (ne_pt_nonneg em had track mu (Some 131071) false h c (proj1 RL)) as NN.
    pose proof (fit_emsum_nn em had track mu HP (fun k e => is_em em track mu k e && opt_is (best (cand_em_had had e)) h)) as RE.
    fold (had_emsum em had track mu h) in RE.
    pose proof (fit_tksum_nn em had track mu HP (in_had em had track mu (Some 131071) false h)) as RS.
    fold (had_tksum em had track mu (Some 131071) false h) in RS.
    assert (LP : had_left_pt em had track mu false h c = 0 \/ had_left_pt em had track mu false h c = h_pt c - had_emsum em had track mu h).
    { unfold had_left_pt. cbv zeta. destruct (_ || _); auto. }
    unfold ne_pt in *. set (P := had_left_pt em had track mu false h c) in *.
    set (S := had_tksum em had track mu (Some 131071) false h) in *. set (R := had_err2 em had track mu (Some 131071) false h) in *.
    set (Em := had_emsum em had track mu h) in *.
    unfold ne_balance in *. cbv zeta in *. destruct (Z.eqb_spec S 0) as [S0|SN].
    + split; [lia|]. split; [lia|]. left. lia.
    + destruct (Z.ltb_spec 0 (P - S)); cbn [andb] in *; [|lia].
      destruct (Z.ltb_spec (R + R / 2) ((P - S) * (P - S))); [|lia].
      split; [lia|]. split; [lia|]. right. destruct LP as [LP|LP]; [lia|]. rewrite <- LP. split; [assumption|]. split; lia.
Qed.

Lemma c09 : top_n n_pt true nsel
   (mapi (sp_ne em had track mu (Some 131071) false (fun h => n_puppi (junk_ne_all mem h))) had) (o_ne out).
Proof. rewrite out_eq. cbn [o_ne]. exact (top_n_rsort true n_pt nsel cands). Qed.

End Hw.

(** ** C04, C05, C52: on the whole physical domain, from the 16-bit specification *)
Section Wrap.
Variables (em : list EmCalo) (had : list HadCalo) (track : list Tk) (mu : list Mu) (mem : pfmem) (nsel : nat) (out : pfout).
Hypothesis (HP : phys em had track mu) (Hn : (nsel <= length had)%nat)
  (Hrun : pfalgo3_full mem nsel em had track mu = Ok out).

Lemma outw_eq : out = mkOut (mapi (sp_ch_w em had track mu) track)
            (mapi (sp_pho_w em track mu (fun k => n_puppi (old_outpho mem k))) em)
            (firstn nsel (sorted_cands n_pt
                (mapi (sp_ne_w em had track mu (fun h => n_puppi (junk_ne_all mem h))) had)))
            (map (sp_mu track) mu).
Proof.
  destruct (pfalgo3_full_wrap em had track mu HP mem nsel Hn) as [[_ E]|[_ E]]; rewrite E in Hrun; inversion Hrun; reflexivity.
Qed.
Lemma outw_ch i tk : nth_error track i = Some tk -> nth_error (o_ch out) i = Some (sp_ch_w em had track mu i tk).
Proof. intros H. rewrite outw_eq. cbn [o_ch]. rewrite nth_error_mapi, H. reflexivity. Qed.
Lemma outw_mu j m : nth_error mu j = Some m -> nth_error (o_mu out) j = Some (sp_mu track m).
Proof. intros H. rewrite outw_eq. cbn [o_mu]. rewrite nth_error_map', H. reflexivity. Qed.
Lemma outw_ne_in n : In n (o_ne out) -> exists h c, nth_error had h = Some c /\
  n = sp_ne_w em had track mu (fun h => n_puppi (junk_ne_all mem h)) h c.
Proof.
  intros Hin. rewrite outw_eq in Hin. cbn [o_ne] in Hin.
  assert (In n (mapi (sp_ne_w em had track mu (fun h => n_puppi (junk_ne_all mem h))) had)).
  { eapply Permutation_in; [apply (sorted_cands_perm n_pt)|]. rewrite <- (firstn_skipn nsel). apply in_or_app; left; exact Hin. }
  apply in_mapi in H as (h & c & Hh & ->). exists h, c; auto.
Qed.

Lemma is_ele_w_not_mu i tk : is_ele_w em track mu i tk = true -> is_mu track mu i = false.
Proof. unfold is_ele_w, em_match. destruct (is_mu track mu i); [discriminate|reflexivity]. Qed.

Lemma c04 : length (o_mu out) = length mu /\
  (forall j m, nth_error mu j = Some m ->
   (0 < m_pt m -> forall i tk, is_best (cand_mu_tk track m) i -> nth_error track i = Some tk ->
      nth_error (o_mu out) j = Some (mkCh (t_pt tk) (t_eta tk) (t_phi tk) PID_Muon (t_z0 tk)) /\
      0 < t_pt tk /\
      nth_error (o_ch out) i = Some (mkCh (t_pt tk) (t_eta tk) (t_phi tk) PID_Muon (t_z0 tk))) /\
   (m_pt m <= 0 \/ ~ some_admissible (cand_mu_tk track m) -> nth_error (o_mu out) j = Some (mkCh 0 0 0 0 0))).
Proof.
  split; [rewrite outw_eq; cbn [o_mu]; apply map_length|]. intros j m Hj. rewrite (outw_mu _ _ Hj).
  split.
  - intros Hpt i tk Hb Hi.
    assert (M : mu_match track m = Some i) by (apply mu_match_spec; auto).
    split; [unfold sp_mu; rewrite M, Hi; reflexivity|]. split.
    + pose proof (tk_at _ _ _ _ HP _ _ Hi) as [_ [P _]]. destruct (Z.eq_dec (t_pt tk) 0) as [Z0|]; [|lia]. exfalso.
      destruct Hb as (v & Hv & _). unfold cand_mu_tk in Hv. rewrite nth_error_map', Hi in Hv. cbn [option_map] in Hv. cbv zeta in Hv.
      rewrite Z0 in Hv. unfold cand_if in Hv. destruct (Z.ltb_spec (Z.abs (0 - m_pt m)) (m_pt m / 2)) as [C|C].
      * pose proof (Z.div_le_upper_bound (m_pt m) 2 (m_pt m) ltac:(lia) ltac:(lia)). lia.
      * rewrite andb_false_r in Hv. discriminate.
    + rewrite (outw_ch _ _ Hi). f_equal.
      assert (IM : is_mu track mu i = true).
      { apply is_mu_spec. exists m. split; [eapply nth_error_In; eauto|auto]. }
      unfold sp_ch_w, ch_kept_w. rewrite IM. cbn [orb].
      assert (is_ele_w em track mu i tk = false).
      { apply not_true_is_false. intros E. apply is_ele_w_not_mu in E. congruence. }
      rewrite H. reflexivity.
  - intros H. f_equal. unfold sp_mu, mu_match. destruct (Z.ltb_spec 0 (m_pt m)); [|reflexivity].
    destruct H as [H|H]; [lia|]. apply best_None in H. rewrite H. reflexivity.
Qed.

Lemma c05 :
  (forall c, In c (o_ch out) -> c_id c = PID_Charged \/ c_id c = PID_Electron \/ c_id c = PID_Muon) /\
  (forall p, In p (o_pho out) -> (n_pt p <> 0 -> n_id p = PID_Photon) /\ (n_pt p = 0 -> n_id p = 0 /\ n_eta p = 0 /\ n_phi p = 0)) /\
  (forall n, In n (o_ne out) -> (n_pt n <> 0 -> n_id n = PID_Neutral) /\ (n_pt n = 0 -> n_id n = 0 /\ n_eta n = 0 /\ n_phi n = 0)) /\
  (forall m, In m (o_mu out) -> (c_pt m <> 0 -> c_id m = PID_Muon) /\ (c_pt m = 0 -> m = mkCh 0 0 0 0 0)) /\
  (forall i tk c, nth_error track i = Some tk -> MuTrack track mu i -> nth_error (o_ch out) i = Some c -> c_id c = PID_Muon).
Proof.
  assert (NE : forall p eta phi id pup, let n := ne_obj p eta phi id pup in
     (n_pt n <> 0 -> n_id n = id) /\ (n_pt n = 0 -> n_id n = 0 /\ n_eta n = 0 /\ n_phi n = 0)).
  { intros p eta phi id pup. cbv zeta. unfold ne_obj. destruct (Z.eqb_spec p 0); cbn; split; intros; auto; lia. }
  split; [|split; [|split; [|split]]].
  - intros c Hc. rewrite outw_eq in Hc. cbn [o_ch] in Hc. apply in_mapi in Hc as (i & tk & Hi & ->). unfold sp_ch_w.
    destruct (ch_kept_w _ _ _ _ _ _); cbn; [|auto]. destruct (is_ele_w _ _ _ _ _); [auto|]. destruct (is_mu _ _ _); auto.
  - intros p Hc. rewrite outw_eq in Hc. cbn [o_pho] in Hc. apply in_mapi in Hc as (i & e & Hi & ->). apply NE.
  - intros n Hc. destruct (outw_ne_in n Hc) as (h & c & Hh & ->). apply NE.
  - intros m Hc. rewrite outw_eq in Hc. cbn [o_mu] in Hc. apply in_map_iff in Hc as (m0 & <- & Hin). unfold sp_mu.
    destruct (mu_match track m0) as [i|] eqn:E; [|cbn; split; intros; [lia|reflexivity]].
    pose proof (mu_match_lt _ _ _ E) as L. destruct (nth_error_lt track i L) as [tk Hi]. rewrite Hi. cbn.
    split; [reflexivity|]. intros Z0. exfalso.
    apply In_nth_error in Hin as [j Hj]. apply mu_match_spec in E as [E1 E2].
    destruct c04 as [_ X]. specialize (X j m0 Hj) as [X _]. specialize (X E1 i tk E2 Hi). lia.
  - intros i tk c Hi Hm Hc. rewrite (outw_ch _ _ Hi) in Hc. inversion Hc; subst. apply is_mu_spec in Hm.
    unfold sp_ch_w, ch_kept_w. rewrite Hm. cbn [orb]. cbn.
    destruct (is_ele_w em track mu i tk) eqn:E; [|reflexivity]. apply is_ele_w_not_mu in E. congruence.
Qed.

Lemma c52 : length (o_ch out) = length track /\ length (o_pho out) = length em /\
  length (o_ne out) = nsel /\ length (o_mu out) = length mu /\
  Forall (fun c => ch_ok c /\ 0 <= c_pt c) (o_ch out) /\ Forall (fun n => ne_ok n /\ 0 <= n_pt n) (o_pho out) /\
  Forall (fun n => ne_ok n /\ 0 <= n_pt n) (o_ne out) /\ Forall (fun c => ch_ok c /\ 0 <= c_pt c) (o_mu out).
Proof.
  assert (NE : forall p eta phi id pup, 0 <= p <= 32767 -> inS 10 eta -> inS 10 phi -> inU 3 id ->
     ne_ok (ne_obj p eta phi id pup) /\ 0 <= n_pt (ne_obj p eta phi id pup)).
  { intros p eta phi id pup H1 H2 H3 H4. unfold ne_obj, ne_ok.
    destruct (Z.eqb_spec p 0); cbn [n_pt n_eta n_phi n_id]; [unfold inS, inU; simpl; lia|]. split; [|lia].
    split; [unfold inS; simpl; lia|auto]. }
  assert (CH : forall tk id, tk_phys tk -> inU 3 id -> ch_ok (mkCh (t_pt tk) (t_eta tk) (t_phi tk) id (t_z0 tk)) /\
        0 <= c_pt (mkCh (t_pt tk) (t_eta tk) (t_phi tk) id (t_z0 tk))).
  { intros tk id [(A & B & C & D & E) [F G]] HI. unfold ch_ok; cbn. auto 10. }
  assert (C0 : ch_ok (mkCh 0 0 0 0 0) /\ 0 <= c_pt (mkCh 0 0 0 0 0)) by (unfold ch_ok, inS, inU; cbn; lia).
  rewrite outw_eq. cbn [o_ch o_pho o_ne o_mu]. rewrite !length_mapi, map_length.
  split; [reflexivity|]. split; [reflexivity|]. split.
  { rewrite firstn_length. unfold sorted_cands. rewrite length_fold_insle. cbn. rewrite length_mapi. lia. }
  split; [reflexivity|]. split; [|split; [|split]].
  - apply Forall_mapi. intros i tk Hi. unfold sp_ch_w. destruct (ch_kept_w _ _ _ _ _ _); [|exact C0]. apply CH; [eapply tk_at; eauto|].
    destruct (is_ele_w _ _ _ _ _); [unfold inU, PID_Electron, PID_Muon, PID_Charged, PID_Photon, PID_Neutral; simpl; lia|]. destruct (is_mu _ _ _); unfold inU, PID_Electron, PID_Muon, PID_Charged, PID_Photon, PID_Neutral; simpl; lia.
  - apply Forall_mapi. intros k e Hk. pose proof (em_at _ _ _ _ HP _ _ Hk) as [(A & _ & B & C) [PP _]]. unfold inS in A; simpl in A.
    unfold sp_pho_w. apply NE; auto; [|unfold inU, PID_Photon; simpl; lia].
    pose proof (w16_rg (e_pt e - em_tksum_w em track mu k)). unfold pho_pt_w. cbv zeta.
    destruct (_ =? 0); [lia|]. destruct (Z.ltb_spec 0 (w16 (e_pt e - em_tksum_w em track mu k))); cbn [andb]; [|lia].
    destruct (_ <? _); lia.
  - apply Forall_forall. intros n Hin. destruct (outw_ne_in n) as (h & c & Hh & ->).
    { rewrite outw_eq. exact Hin. }
    pose proof (had_at _ _ _ _ HP _ _ Hh) as [(_ & A & B & _) _]. unfold sp_ne_w. apply NE; auto; [|unfold inU, PID_Neutral; simpl; lia].
    apply (ne_pt_w_nonneg em had track mu HP h c Hh).
  - apply Forall_forall. intros m Hin. apply in_map_iff in Hin as (m0 & <- & Hin). unfold sp_mu.
    destruct (mu_match track m0) as [i|] eqn:E; [|exact C0].
    pose proof (mu_match_lt _ _ _ E) as L. destruct (nth_error_lt track i L) as [tk Hi]. rewrite Hi.
    apply CH; [eapply tk_at; eauto|unfold inU, PID_Electron, PID_Muon, PID_Charged, PID_Photon, PID_Neutral; simpl; lia].
Qed.
End Wrap.
