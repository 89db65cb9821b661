(** Empty slots are inert (C14) and muon tracks do not touch the calorimeter
    outputs (C15). *)
From Verif Require Import Base BaseFacts Data PFHw TestUtils SpecLink SpecPF SpecPFWrap SpecOut SpecInert
  LinkFacts PFMatch MapiFacts SortFacts PFHwSpec PFWrap PFProofs InsertFacts.

Lemma pt_floor_nonneg tk : 0 <= pt_floor tk.
Proof. unfold pt_floor. lia. Qed.

Lemma left_pt_eq em had1 had2 track1 track2 mu1 mu2 h1 h2 c :
  had_emsum_w em had1 track1 mu1 h1 = had_emsum_w em had2 track2 mu2 h2 ->
  had_left_pt_w em had1 track1 mu1 h1 c = had_left_pt_w em had2 track2 mu2 h2 c.
Proof. intros H. unfold had_left_pt_w. rewrite H. reflexivity. Qed.

(** the result of a run on the physical domain *)
Definition spec_w (mem : pfmem) (nsel : nat) em had track mu : pfout :=
  mkOut (mapi (sp_ch_w em had track mu) track)
        (mapi (sp_pho_w em track mu (fun k => n_puppi (old_outpho mem k))) em)
        (firstn nsel (sorted_cands n_pt (mapi (sp_ne_w em had track mu (fun h => n_puppi (junk_ne_all mem h))) had)))
        (map (sp_mu track) mu).
Lemma run_both mem nsel em1 had1 track1 mu1 em2 had2 track2 mu2 :
  phys em1 had1 track1 mu1 -> phys em2 had2 track2 mu2 -> (nsel <= length had1)%nat -> (nsel <= length had2)%nat ->
  (ints_fit em1 had1 track1 mu1 <-> ints_fit em2 had2 track2 mu2) ->
  (pfalgo3_full mem nsel em1 had1 track1 mu1 = UB SignedOverflow /\ pfalgo3_full mem nsel em2 had2 track2 mu2 = UB SignedOverflow) \/
  (pfalgo3_full mem nsel em1 had1 track1 mu1 = Ok (spec_w mem nsel em1 had1 track1 mu1) /\
   pfalgo3_full mem nsel em2 had2 track2 mu2 = Ok (spec_w mem nsel em2 had2 track2 mu2)).
Proof.
  intros P1 P2 N1 N2 I. unfold spec_w.
  destruct (pfalgo3_full_wrap _ _ _ _ P1 mem nsel N1) as [[I1 E1]|[I1 E1]], (pfalgo3_full_wrap _ _ _ _ P2 mem nsel N2) as [[I2 E2]|[I2 E2]];
    try tauto; rewrite E1, E2; auto.
Qed.
Lemma ints_fit_ext em had track1 mu1 track2 mu2 :
  (forall k, em_tksum_w em track1 mu1 k = em_tksum_w em track2 mu2 k) ->
  (forall h, had_tksum_w em had track1 mu1 h = had_tksum_w em had track2 mu2 h) ->
  (forall h, had_err2_w em had track1 mu1 h = had_err2_w em had track2 mu2 h) ->
  (forall h c, had_left_pt_w em had track1 mu1 h c = had_left_pt_w em had track2 mu2 h c) ->
  (ints_fit em had track1 mu1 <-> ints_fit em had track2 mu2).
Proof.
  intros A B C D. unfold ints_fit. split; intros [X Y]; (split; [intros k e Hk; specialize (X k e Hk); rewrite A in X || rewrite A; exact X|]);
    intros h c Hh; specialize (Y h c Hh); [rewrite B, C, D in Y|rewrite B, C, D]; exact Y.
Qed.

(** ** an empty track *)
Section Track.
Variables (em : list EmCalo) (had : list HadCalo) (l1 l2 : list Tk) (x : Tk) (mu : list Mu).
Hypothesis (X0 : t_pt x = 0) (X1 : t_pterr x = 0).
Notation T1 := (l1 ++ x :: l2).
Notation T0 := (l1 ++ l2).
Notation n := (length l1).
Notation sk := (skip n).

Lemma tr_mu_match m : mu_match T1 m = option_map sk (mu_match T0 m).
Proof.
  unfold mu_match. destruct (Z.ltb_spec 0 (m_pt m)); [|reflexivity].
  unfold cand_mu_tk. rewrite !map_app. cbn [map]. cbv zeta. rewrite X0.
  assert (Z.abs (0 - m_pt m) <? m_pt m / 2 = false) as ->.
  { apply Z.ltb_ge. pose proof (Z.div_le_upper_bound (m_pt m) 2 (m_pt m) ltac:(lia) ltac:(lia)). lia. }
  rewrite andb_false_r. cbn [cand_if]. rewrite best_skip, map_length. reflexivity.
Qed.
Lemma existsb_ext' {A} (f g : A -> bool) l : (forall y, f y = g y) -> existsb f l = existsb g l.
Proof. intros H. induction l; cbn; [reflexivity|]. rewrite H, IHl. reflexivity. Qed.
Lemma tr_is_mu i : is_mu T1 mu (sk i) = is_mu T0 mu i.
Proof. unfold is_mu. apply existsb_ext'. intros m. rewrite tr_mu_match. apply opt_is_skip. Qed.
Lemma tr_em_match i tk : em_match em T1 mu (sk i) tk = em_match em T0 mu i tk.
Proof. unfold em_match. rewrite tr_is_mu. reflexivity. Qed.
Lemma tr_em_tksum k : em_tksum em T1 mu k = em_tksum em T0 mu k.
Proof.
  unfold em_tksum. rewrite sum_where_insert, X0. destruct (opt_is _ _); rewrite Z.add_0_r;
  apply sum_where_ext; intros i tk _; rewrite tr_em_match; reflexivity.
Qed.
Lemma tr_is_em k e : is_em_w em T1 mu k e = is_em_w em T0 mu k e.
Proof. unfold is_em_w, em_tksum_w. rewrite tr_em_tksum. reflexivity. Qed.
Lemma tr_is_ele i tk : is_ele_w em T1 mu (sk i) tk = is_ele_w em T0 mu i tk.
Proof. unfold is_ele_w. rewrite tr_em_match. destruct (em_match _ _ _ _ _); [|reflexivity]. destruct (nth_error _ _); [|reflexivity]. apply tr_is_em. Qed.
Lemma tr_emsum h : had_emsum_w em had T1 mu h = had_emsum_w em had T0 mu h.
Proof. unfold had_emsum_w. f_equal. apply sum_where_ext. intros k e _. rewrite tr_is_em. reflexivity. Qed.
Lemma tr_left_pt h c : had_left_pt_w em had T1 mu h c = had_left_pt_w em had T0 mu h c.
Proof. apply left_pt_eq, tr_emsum. Qed.
Lemma tr_left : had_left_w em had T1 mu = had_left_w em had T0 mu.
Proof. unfold had_left_w. apply mapi_ext_in. intros h c _. rewrite tr_left_pt. reflexivity. Qed.
Lemma tr_match tk : had_match_w em had T1 mu tk = had_match_w em had T0 mu tk.
Proof. unfold had_match_w. rewrite tr_left. reflexivity. Qed.
Lemma tr_in_had h i tk : in_had_w em had T1 mu h (sk i) tk = in_had_w em had T0 mu h i tk.
Proof. unfold in_had_w. rewrite tr_is_ele, tr_is_mu, tr_match. reflexivity. Qed.
Lemma tr_tks h : had_tksum_w em had T1 mu h = had_tksum_w em had T0 mu h.
Proof.
  unfold had_tksum_w. f_equal. rewrite sum_where_insert, X0. destruct (in_had_w _ _ _ _ _ _ _); rewrite Z.add_0_r;
  apply sum_where_ext; intros i tk _; rewrite tr_in_had; reflexivity.
Qed.
Lemma tr_errs h : had_err2_w em had T1 mu h = had_err2_w em had T0 mu h.
Proof.
  unfold had_err2_w. rewrite sum_where_insert, X1. destruct (in_had_w _ _ _ _ _ _ _); cbn [Z.mul]; rewrite Z.add_0_r;
  apply sum_where_ext; intros i tk _; rewrite tr_in_had; reflexivity.
Qed.
Lemma tr_ne_pt h c : ne_pt_w em had T1 mu h c = ne_pt_w em had T0 mu h c.
Proof. unfold ne_pt_w. rewrite tr_left_pt, tr_tks, tr_errs. reflexivity. Qed.
Lemma tr_fit : ints_fit em had T1 mu <-> ints_fit em had T0 mu.
Proof. apply ints_fit_ext; intros; [unfold em_tksum_w; rewrite tr_em_tksum; reflexivity|apply tr_tks|apply tr_errs|apply tr_left_pt]. Qed.
Lemma tr_sp_ch i tk : sp_ch_w em had T1 mu (sk i) tk = sp_ch_w em had T0 mu i tk.
Proof. unfold sp_ch_w, ch_kept_w. rewrite tr_is_mu, tr_is_ele, tr_match. reflexivity. Qed.
Lemma tr_sp_mu m : sp_mu T1 m = sp_mu T0 m.
Proof. unfold sp_mu. rewrite tr_mu_match. destruct (mu_match T0 m) as [i|]; [|reflexivity]. cbn [option_map]. rewrite nth_error_skip. reflexivity. Qed.

Lemma inert_track mem nsel : phys em had T1 mu -> (nsel <= length had)%nat ->
  (pfalgo3_full mem nsel em had (l1 ++ x :: l2) mu = UB SignedOverflow /\ pfalgo3_full mem nsel em had (l1 ++ l2) mu = UB SignedOverflow) \/
  exists a c b pho ne om, length a = length l1 /\ c_pt c = 0 /\
    pfalgo3_full mem nsel em had (l1 ++ x :: l2) mu = Ok (mkOut (a ++ c :: b) pho ne om) /\
    pfalgo3_full mem nsel em had (l1 ++ l2) mu = Ok (mkOut (a ++ b) pho ne om).
Proof.
  intros HP Hn. assert (HP0 : phys em had T0 mu).
  { destruct HP as (A & B & C & D). rewrite Forall_insert in C. unfold phys; tauto. }
  destruct (run_both mem nsel _ _ _ _ _ _ _ _ HP HP0 Hn Hn tr_fit) as [U|[-> ->]]; [left; exact U|right].
  destruct (mapi_insert (sp_ch_w em had T1 mu) l1 x l2) as (a & b & La & Lb & E1 & E0).
  exists a, (sp_ch_w em had T1 mu n x), b.
  eexists; eexists; eexists. split; [assumption|]. split.
  { unfold sp_ch_w. destruct (ch_kept_w _ _ _ _ _ _); cbn; auto. }
  unfold spec_w. split.
  - rewrite E1. reflexivity.
  - rewrite <- E0. f_equal. f_equal.
    + apply mapi_ext_in. intros i tk _. symmetry. apply tr_sp_ch.
    + apply mapi_ext_in. intros k e _. unfold sp_pho_w, em_tksum_w. rewrite tr_em_tksum. reflexivity.
    + f_equal. f_equal. apply mapi_ext_in. intros h c _. unfold sp_ne_w. rewrite tr_ne_pt. reflexivity.
    + apply map_ext. intros m. symmetry. apply tr_sp_mu.
Qed.
End Track.

(** ** an empty muon *)
Lemma inert_mu em had track l1 x l2 mem nsel : m_pt x = 0 ->
  phys em had track (l1 ++ x :: l2) -> (nsel <= length had)%nat ->
  (pfalgo3_full mem nsel em had track (l1 ++ x :: l2) = UB SignedOverflow /\ pfalgo3_full mem nsel em had track (l1 ++ l2) = UB SignedOverflow) \/
  exists a b ch pho ne, length a = length l1 /\
    pfalgo3_full mem nsel em had track (l1 ++ x :: l2) = Ok (mkOut ch pho ne (a ++ mkCh 0 0 0 0 0 :: b)) /\
    pfalgo3_full mem nsel em had track (l1 ++ l2) = Ok (mkOut ch pho ne (a ++ b)).
Proof.
  intros X0 HP Hn. assert (HP0 : phys em had track (l1 ++ l2)).
  { destruct HP as (A & B & C & D). rewrite Forall_insert in D. unfold phys; tauto. }
  assert (M : forall i, is_mu track (l1 ++ x :: l2) i = is_mu track (l1 ++ l2) i).
  { intros i. unfold is_mu. rewrite !existsb_app. cbn [existsb]. unfold mu_match at 2. rewrite X0. reflexivity. }
  assert (EM : forall i tk, em_match em track (l1 ++ x :: l2) i tk = em_match em track (l1 ++ l2) i tk).
  { intros. unfold em_match. rewrite M. reflexivity. }
  assert (TS : forall k, em_tksum em track (l1 ++ x :: l2) k = em_tksum em track (l1 ++ l2) k).
  { intros. unfold em_tksum. apply sum_where_ext. intros. rewrite EM. reflexivity. }
  assert (IE : forall k e, is_em_w em track (l1 ++ x :: l2) k e = is_em_w em track (l1 ++ l2) k e).
  { intros. unfold is_em_w, em_tksum_w. rewrite TS. reflexivity. }
  assert (EL : forall i tk, is_ele_w em track (l1 ++ x :: l2) i tk = is_ele_w em track (l1 ++ l2) i tk).
  { intros. unfold is_ele_w. rewrite EM. destruct (em_match _ _ _ _ _); [|reflexivity]. destruct (nth_error _ _); [|reflexivity]. apply IE. }
  assert (ES : forall h, had_emsum_w em had track (l1 ++ x :: l2) h = had_emsum_w em had track (l1 ++ l2) h).
  { intros. unfold had_emsum_w. f_equal. apply sum_where_ext. intros. rewrite IE. reflexivity. }
  assert (LF : had_left_w em had track (l1 ++ x :: l2) = had_left_w em had track (l1 ++ l2)).
  { unfold had_left_w. apply mapi_ext_in. intros h c _. rewrite (left_pt_eq _ _ _ _ _ _ _ _ _ _ (ES h)). reflexivity. }
  assert (HM : forall tk, had_match_w em had track (l1 ++ x :: l2) tk = had_match_w em had track (l1 ++ l2) tk).
  { intros. unfold had_match_w. rewrite LF. reflexivity. }
  assert (IH : forall h i tk, in_had_w em had track (l1 ++ x :: l2) h i tk = in_had_w em had track (l1 ++ l2) h i tk).
  { intros. unfold in_had_w. rewrite EL, M, HM. reflexivity. }
  assert (TT : forall h, had_tksum_w em had track (l1 ++ x :: l2) h = had_tksum_w em had track (l1 ++ l2) h).
  { intros h. unfold had_tksum_w. f_equal. apply sum_where_ext; intros; rewrite IH; reflexivity. }
  assert (TE : forall h, had_err2_w em had track (l1 ++ x :: l2) h = had_err2_w em had track (l1 ++ l2) h).
  { intros h. apply sum_where_ext; intros; rewrite IH; reflexivity. }
  assert (TL : forall h c, had_left_pt_w em had track (l1 ++ x :: l2) h c = had_left_pt_w em had track (l1 ++ l2) h c).
  { intros h c. apply left_pt_eq, ES. }
  assert (FI : ints_fit em had track (l1 ++ x :: l2) <-> ints_fit em had track (l1 ++ l2)).
  { apply ints_fit_ext; auto. intros k. unfold em_tksum_w. rewrite TS. reflexivity. }
  destruct (run_both mem nsel _ _ _ _ _ _ _ _ HP HP0 Hn Hn FI) as [U|[-> ->]]; [left; exact U|right]. unfold spec_w.
  exists (map (sp_mu track) l1), (map (sp_mu track) l2). eexists; eexists; eexists. split; [apply map_length|]. split.
  - rewrite map_app. cbn [map].
    replace (sp_mu track x) with (mkCh 0 0 0 0 0); [reflexivity|]. unfold sp_mu, mu_match. rewrite X0. reflexivity.
  - rewrite map_app. f_equal. f_equal.
    + apply mapi_ext_in. intros i tk _. unfold sp_ch_w, ch_kept_w. rewrite M, EL, HM. reflexivity.
    + apply mapi_ext_in. intros k e _. unfold sp_pho_w, em_tksum_w. rewrite TS. reflexivity.
    + f_equal. f_equal. apply mapi_ext_in. intros h c _. unfold sp_ne_w, ne_pt_w. rewrite TL, TT, TE. reflexivity.
Qed.

(** ** an empty hadronic cluster *)
(** one more zero in a list whose zeros are all alike just lengthens the sorted list *)
Lemma insle_zero z l : n_pt z = 0 -> desc n_pt l -> (forall y, In y l -> 0 <= n_pt y) -> (forall y, In y l -> n_pt y = 0 -> y = z) ->
  insle n_pt l z = l ++ [z].
Proof.
  unfold insle. intros Z0 D HN HZ. induction D as [|y l D IH F]; [reflexivity|]. cbn [ins app]. destruct (Z.leb_spec (n_pt y) (n_pt z)).
  - assert (y = z) by (apply HZ; [left; reflexivity|]; specialize (HN y (or_introl eq_refl)); lia). subst y. f_equal.
    assert (A : forall y, In y l -> y = z).
    { intros y Hy. apply HZ; [right; assumption|]. rewrite Forall_forall in F. specialize (F y Hy). specialize (HN y (or_intror Hy)). cbn in F. lia. }
    clear -A. induction l as [|y l IH]; [reflexivity|]. cbn [app]. rewrite <- IH by (intros; apply A; right; assumption).
    rewrite (A y (or_introl eq_refl)). reflexivity.
  - f_equal. apply IH; intros; [apply HN|apply HZ]; auto; right; assumption.
Qed.
Lemma sorted_cands_zero a z b : n_pt z = 0 -> (forall y, In y (a ++ b) -> 0 <= n_pt y) -> (forall y, In y (a ++ b) -> n_pt y = 0 -> y = z) ->
  sorted_cands n_pt (a ++ z :: b) = sorted_cands n_pt (a ++ b) ++ [z].
Proof.
  intros Z0 HN HZ. unfold sorted_cands. rewrite !fold_left_app. cbn [fold_left]. rewrite (insle_zero z).
  - apply fold_insle_zeros; [intros y Hy; apply HN, in_or_app; right; assumption|]. intros y [<-|[]]; assumption.
  - assumption.
  - exact (sorted_cands_desc n_pt a).
  - intros y Hy. apply (Permutation.Permutation_in _ (sorted_cands_perm n_pt a)) in Hy. apply HN, in_or_app; left; assumption.
  - intros y Hy. apply (Permutation.Permutation_in _ (sorted_cands_perm n_pt a)) in Hy. apply HZ, in_or_app; left; assumption.
Qed.

Lemma same_ne_strip l1 l2 : map strip l1 = map strip l2 -> Forall2 same_ne l1 l2.
Proof.
  revert l2; induction l1 as [|a l1 IH]; intros [|b l2] H; cbn in H; try discriminate; constructor.
  - unfold strip in H. inversion H. unfold same_ne; auto.
  - apply IH. congruence.
Qed.

Section Had.
Variables (em : list EmCalo) (track : list Tk) (l1 l2 : list HadCalo) (x : HadCalo) (mu : list Mu).
Hypothesis (X0 : h_pt x = 0) (X1 : h_empt x = 0).
Notation H1 := (l1 ++ x :: l2).
Notation H0 := (l1 ++ l2).
Notation n := (length l1).
Notation sk := (skip n).
Hypothesis (HP : phys em H1 track mu).

Lemma hd_phys : phys em H0 track mu.
Proof. destruct HP as (A & B & C & D). rewrite Forall_insert in B. unfold phys; tauto. Qed.

Lemma hd_em_had e : In e em -> best (cand_em_had H1 e) = option_map sk (best (cand_em_had H0 e)).
Proof.
  intros Hin. unfold cand_em_had. rewrite !map_app. cbn [map]. rewrite X1.
  destruct HP as (A & _). rewrite Forall_forall in A. destruct (A e Hin) as [_ [P _]].
  destruct (Z.ltb_spec (e_pt e / 2) 0); [pose proof (Z.div_pos (e_pt e) 2); lia|]. cbn [andb cand_if].
  rewrite best_skip, map_length. reflexivity.
Qed.
Lemma hd_emsum h : had_emsum_w em H1 track mu (sk h) = had_emsum_w em H0 track mu h.
Proof. unfold had_emsum_w. f_equal. apply sum_where_ext. intros k e He. apply nth_error_In in He. rewrite (hd_em_had e He), opt_is_skip. reflexivity. Qed.
Lemma hd_left_pt h c : had_left_pt_w em H1 track mu (sk h) c = had_left_pt_w em H0 track mu h c.
Proof. apply left_pt_eq, hd_emsum. Qed.
Lemma sumZ_zeros {A} (l : list A) : sumZ (mapi (fun _ _ => 0) l) = 0.
Proof. rewrite <- map_as_mapi. induction l; [reflexivity|]. exact IHl. Qed.
Lemma hd_emsum_x : had_emsum_w em H1 track mu n = 0.
Proof.
  unfold had_emsum_w, sum_where. rewrite (mapi_ext_in _ (fun _ _ => 0)); [rewrite sumZ_zeros; reflexivity|].
  intros k e He. apply nth_error_In in He. rewrite (hd_em_had e He), opt_is_skip_n, andb_false_r. reflexivity.
Qed.
Lemma hd_left_x : had_left_pt_w em H1 track mu n x = 0.
Proof. unfold had_left_pt_w. cbv zeta. rewrite X0, hd_emsum_x. reflexivity. Qed.
Lemma hd_match tk : had_match_w em H1 track mu tk = option_map sk (had_match_w em H0 track mu tk).
Proof.
  unfold had_match_w, had_left_w.
  destruct (mapi_insert (fun h c => mkHad (had_left_pt_w em H1 track mu h c) (h_eta c) (h_phi c) 0 false) l1 x l2) as (a & b & La & Lb & E1 & E0).
  rewrite E1. rewrite hd_left_x. 
  assert (E : mapi (fun h c => mkHad (had_left_pt_w em H0 track mu h c) (h_eta c) (h_phi c) 0 false) H0 = a ++ b).
  { rewrite <- E0. apply mapi_ext_in. intros h c _. rewrite hd_left_pt. reflexivity. }
  rewrite E. unfold cand_tk_had. rewrite !map_app. cbn [map h_pt].
  pose proof (pt_floor_nonneg tk). destruct (Z.ltb_spec (pt_floor tk) 0); [lia|]. cbn [andb cand_if].
  rewrite best_skip, map_length, La. reflexivity.
Qed.
Lemma hd_in_had h i tk : in_had_w em H1 track mu (sk h) i tk = in_had_w em H0 track mu h i tk.
Proof. unfold in_had_w. rewrite hd_match, opt_is_skip. reflexivity. Qed.
Lemma hd_in_had_x i tk : in_had_w em H1 track mu n i tk = false.
Proof. unfold in_had_w. rewrite hd_match, opt_is_skip_n. apply andb_false_r. Qed.
Lemma hd_tks h : had_tksum_w em H1 track mu (sk h) = had_tksum_w em H0 track mu h.
Proof. unfold had_tksum_w. f_equal. apply sum_where_ext; intros i tk _; rewrite hd_in_had; reflexivity. Qed.
Lemma hd_errs h : had_err2_w em H1 track mu (sk h) = had_err2_w em H0 track mu h.
Proof. apply sum_where_ext; intros i tk _; rewrite hd_in_had; reflexivity. Qed.
Lemma hd_ne_pt h c : ne_pt_w em H1 track mu (sk h) c = ne_pt_w em H0 track mu h c.
Proof. unfold ne_pt_w. rewrite hd_left_pt, hd_tks, hd_errs. reflexivity. Qed.
Lemma hd_tks_x : had_tksum_w em H1 track mu n = 0.
Proof.
  unfold had_tksum_w, sum_where. rewrite (mapi_ext_in _ (fun _ _ => 0)); [rewrite sumZ_zeros; reflexivity|].
  intros i tk _. rewrite hd_in_had_x. reflexivity.
Qed.
Lemma hd_errs_x : had_err2_w em H1 track mu n = 0.
Proof.
  unfold had_err2_w, sum_where. rewrite (mapi_ext_in _ (fun _ _ => 0)); [apply sumZ_zeros|].
  intros i tk _. rewrite hd_in_had_x. reflexivity.
Qed.
Lemma hd_ne_pt_x : ne_pt_w em H1 track mu n x = 0.
Proof. unfold ne_pt_w, ne_balance_w. rewrite hd_tks_x. apply hd_left_x. Qed.
Lemma hd_fit : ints_fit em H1 track mu <-> ints_fit em H0 track mu.
Proof.
  unfold ints_fit. split; intros [X Y]; (split; [exact X|]).
  - intros h c Hh. rewrite <- (hd_errs h), <- (hd_tks h), <- (hd_left_pt h c). apply Y. rewrite nth_error_skip. exact Hh.
  - intros h c Hh. destruct (skip_cases n h) as [->|[j ->]].
    + rewrite hd_errs_x, hd_tks_x. split; [reflexivity|]. intros F; elim F; reflexivity.
    + rewrite hd_errs, hd_tks, hd_left_pt. apply Y. rewrite nth_error_skip in Hh. exact Hh.
Qed.

Lemma inert_had mem nsel : (nsel <= length (l1 ++ l2))%nat ->
  (pfalgo3_full mem nsel em (l1 ++ x :: l2) track mu = UB SignedOverflow /\ pfalgo3_full mem nsel em (l1 ++ l2) track mu = UB SignedOverflow) \/
  exists ch pho ne1 ne0 om, Forall2 same_ne ne1 ne0 /\
    pfalgo3_full mem nsel em (l1 ++ x :: l2) track mu = Ok (mkOut ch pho ne1 om) /\
    pfalgo3_full mem nsel em (l1 ++ l2) track mu = Ok (mkOut ch pho ne0 om).
Proof.
  intros Hn. assert (Hn1 : (nsel <= length H1)%nat) by (rewrite !app_length in *; cbn; lia).
  destruct (run_both mem nsel _ _ _ _ _ _ _ _ HP hd_phys Hn1 Hn hd_fit) as [U|[-> ->]]; [left; exact U|right]. unfold spec_w.
  set (pup := fun h => n_puppi (junk_ne_all mem h)).
  exists (mapi (sp_ch_w em H1 track mu) track).
  exists (mapi (sp_pho_w em track mu (fun k => n_puppi (old_outpho mem k))) em).
  exists (firstn nsel (sorted_cands n_pt (mapi (sp_ne_w em H1 track mu pup) H1))).
  exists (firstn nsel (sorted_cands n_pt (mapi (sp_ne_w em H0 track mu pup) H0))).
  exists (map (sp_mu track) mu). split; [|split].
  - apply same_ne_strip. rewrite <- !firstn_map. rewrite <- !(sorted_cands_map strip n_pt n_pt) by reflexivity. rewrite !map_mapi.
    destruct (mapi_insert (fun i c => strip (sp_ne_w em H1 track mu pup i c)) l1 x l2) as (a & b & La & Lb & E1 & E0).
    rewrite E1.
    assert (E : mapi (fun i c => strip (sp_ne_w em H0 track mu pup i c)) H0 = a ++ b).
    { rewrite <- E0. apply mapi_ext_in. intros h c _. unfold sp_ne_w. rewrite !strip_ne_obj, hd_ne_pt. reflexivity. }
    rewrite E.
    assert (EX : strip (sp_ne_w em H1 track mu pup n x) = mkNe 0 0 0 0 0).
    { unfold sp_ne_w. rewrite strip_ne_obj, hd_ne_pt_x. reflexivity. }
    rewrite EX.
    assert (G : forall y, In y (a ++ b) -> 0 <= n_pt y /\ (n_pt y = 0 -> y = mkNe 0 0 0 0 0)).
    { intros y Hy. rewrite <- E in Hy. apply in_mapi in Hy as (h & c & Hh & ->). unfold sp_ne_w. rewrite strip_ne_obj.
      pose proof (ne_pt_w_nonneg em H0 track mu hd_phys h c Hh) as NN.
      unfold ne_obj. destruct (Z.eqb_spec (ne_pt_w em H0 track mu h c) 0); cbn [n_pt]; split; intros; try lia; auto. }
    rewrite sorted_cands_zero; [|reflexivity|intros y Hy; apply G; assumption|intros y Hy; apply G; assumption].
    rewrite firstn_app. 
    assert (LS : length (sorted_cands n_pt (a ++ b)) = length H0).
    { unfold sorted_cands. rewrite length_fold_insle, !app_length. cbn. lia. }
    rewrite LS. replace (nsel - length H0)%nat with 0%nat by lia. cbn [firstn]. apply app_nil_r.
  - reflexivity.
  - f_equal. f_equal. apply mapi_ext_in. intros i tk _. unfold sp_ch_w, ch_kept_w. rewrite hd_match.
    destruct (had_match_w em H0 track mu tk); reflexivity.
Qed.
End Had.

Lemma sumZ_ge l z : (forall y, In y l -> 0 <= y) -> In z l -> z <= sumZ l.
Proof.
  induction l as [|y l IH]; intros H Hin; [destruct Hin|]. cbn [sumZ fold_right]. assert (0 <= sumZ l) by (apply sumZ_nonneg; intros; apply H; right; assumption).
  pose proof (H y (or_introl eq_refl)). destruct Hin as [->|Hin]; [unfold sumZ in *; lia|].
  specialize (IH (fun t Ht => H t (or_intror Ht)) Hin). unfold sumZ in *. lia.
Qed.
Lemma sumZ_mapi_le {A} (f g : nat -> A -> Z) l : (forall i x, nth_error l i = Some x -> f i x <= g i x) -> sumZ (mapi f l) <= sumZ (mapi g l).
Proof.
  intros H. unfold mapi. apply sumZ_le. intros [i x] Hin. apply in_indexed in Hin. apply H. exact Hin.
Qed.

(** ** an empty EM cluster that takes no track from another EM cluster *)
Section Em.
Variables (had : list HadCalo) (track : list Tk) (l1 l2 : list EmCalo) (x : EmCalo) (mu : list Mu).
Notation E1 := (l1 ++ x :: l2).
Notation E0 := (l1 ++ l2).
Notation n := (length l1).
Notation sk := (skip n).
Hypothesis (X0 : e_pt x = 0) (HP : phys E1 had track mu) (HC : clean_empty track).
Hypothesis HM : forall i tk, nth_error track i = Some tk -> t_pt tk <> 0 ->
  em_match E1 track mu i tk = option_map sk (em_match E0 track mu i tk) \/
  (em_match E0 track mu i tk = None /\ em_match E1 track mu i tk = Some n).
Hypothesis HS : em_tksum E1 track mu n = 0 \/ (em_tksum E1 track mu n <= 32767 /\ e_pterr x = 0).

Lemma ee_phys : phys E0 had track mu.
Proof. destruct HP as (A & B & C & D). rewrite Forall_insert in A. unfold phys; tauto. Qed.
Lemma ee_tksum k : em_tksum E1 track mu (sk k) = em_tksum E0 track mu k.
Proof.
  unfold em_tksum. apply sum_where_ext. intros i tk Hi. destruct (Z.eq_dec (t_pt tk) 0) as [Z0|N].
  - rewrite Z0. destruct (opt_is _ _), (opt_is _ _); reflexivity.
  - destruct (HM i tk Hi N) as [->|[-> ->]]; [rewrite opt_is_skip; reflexivity|]. cbn [opt_is].
    pose proof (skip_ne n k). destruct (Nat.eqb_spec n (sk k)); [congruence|reflexivity].
Qed.
Lemma ee_tk_nonneg tk : In tk track -> 0 <= t_pt tk.
Proof. destruct HP as (_ & _ & T & _). rewrite Forall_forall in T. intros Hin. apply (T tk Hin). Qed.
Lemma ee_tksum_x_nonneg : 0 <= em_tksum E1 track mu n.
Proof. apply sum_where_le. exact ee_tk_nonneg. Qed.
Lemma ee_tksum_x_pos i tk : nth_error track i = Some tk -> t_pt tk <> 0 -> em_match E1 track mu i tk = Some n -> 0 < em_tksum E1 track mu n.
Proof.
  intros Hi Hp Hm. pose proof (ee_tk_nonneg tk (nth_error_In _ _ Hi)).
  assert (t_pt tk <= em_tksum E1 track mu n); [|lia]. unfold em_tksum, sum_where. apply sumZ_ge.
  - intros z Hz. apply in_mapi in Hz as (j & t & Hj & ->). pose proof (ee_tk_nonneg t (nth_error_In _ _ Hj)). destruct (opt_is _ _); lia.
  - apply in_mapi. exists i, tk. split; [assumption|]. rewrite Hm. cbn [opt_is]. rewrite Nat.eqb_refl. reflexivity.
Qed.
Lemma ee_pho_x : pho_pt_w x (em_tksum_w E1 track mu n) = 0.
Proof.
  unfold pho_pt_w, em_tksum_w. pose proof ee_tksum_x_nonneg. rewrite X0. destruct HS as [->|[L Er]]; [reflexivity|].
  rewrite (w16_id (em_tksum E1 track mu n)) by lia. destruct (Z.eqb_spec (em_tksum E1 track mu n) 0) as [?|NZ]; [reflexivity|].
  rewrite w16_id by lia. destruct (Z.ltb_spec 0 (0 - em_tksum E1 track mu n)); [lia|reflexivity].
Qed.
Lemma ee_is_em_x : 0 < em_tksum E1 track mu n -> is_em_w E1 track mu n x = false.
Proof.
  intros H. unfold is_em_w, em_class_w, em_tksum_w. rewrite X0. destruct HS as [E|[L Er]]; [lia|]. rewrite Er.
  rewrite (w16_id (em_tksum E1 track mu n)) by lia. rewrite w16_id by lia.
  destruct (Z.eqb_spec (em_tksum E1 track mu n) 0) as [?|NZ]; [lia|]. destruct (Z.ltb_spec 0 (0 - em_tksum E1 track mu n)); [lia|]. cbn [orb].
  apply andb_false_iff. right. apply Z.ltb_ge. nia.
Qed.
Lemma ee_is_em k e : is_em_w E1 track mu (sk k) e = is_em_w E0 track mu k e.
Proof. unfold is_em_w, em_tksum_w. rewrite ee_tksum. reflexivity. Qed.
Lemma ee_is_ele i tk : nth_error track i = Some tk -> t_pt tk <> 0 -> is_ele_w E1 track mu i tk = is_ele_w E0 track mu i tk.
Proof.
  intros Hi Hp. unfold is_ele_w. destruct (HM i tk Hi Hp) as [->|[-> E]].
  - destruct (em_match E0 track mu i tk) as [k|]; [|reflexivity]. cbn [option_map].
    rewrite nth_error_skip. destruct (nth_error E0 k); [|reflexivity]. apply ee_is_em.
  - rewrite E, nth_error_mid. apply ee_is_em_x. apply (ee_tksum_x_pos i tk Hi Hp E).
Qed.
Lemma ee_emsum h : had_emsum_w E1 had track mu h = had_emsum_w E0 had track mu h.
Proof.
  unfold had_emsum_w. f_equal. rewrite sum_where_insert, X0. destruct (_ && _); rewrite Z.add_0_r; apply sum_where_ext; intros k e _; rewrite ee_is_em; reflexivity.
Qed.
Lemma ee_left_pt h c : had_left_pt_w E1 had track mu h c = had_left_pt_w E0 had track mu h c.
Proof. unfold had_left_pt_w. rewrite ee_emsum. reflexivity. Qed.
Lemma ee_left : had_left_w E1 had track mu = had_left_w E0 had track mu.
Proof. unfold had_left_w. apply mapi_ext_in. intros h c _. rewrite ee_left_pt. reflexivity. Qed.
Lemma ee_had_match tk : had_match_w E1 had track mu tk = had_match_w E0 had track mu tk.
Proof. unfold had_match_w. rewrite ee_left. reflexivity. Qed.
Lemma ee_tks h : had_tksum_w E1 had track mu h = had_tksum_w E0 had track mu h.
Proof.
  unfold had_tksum_w. f_equal. apply sum_where_ext; intros i tk Hi; unfold in_had_w; destruct (Z.eq_dec (t_pt tk) 0) as [Z0|N];
    [|rewrite ee_is_ele, ee_had_match by assumption; reflexivity].
  rewrite Z0. destruct (_ && _), (_ && _); reflexivity.
Qed.
Lemma ee_errs h : had_err2_w E1 had track mu h = had_err2_w E0 had track mu h.
Proof.
  apply sum_where_ext; intros i tk Hi; unfold in_had_w; destruct (Z.eq_dec (t_pt tk) 0) as [Z0|N];
    [|rewrite ee_is_ele, ee_had_match by assumption; reflexivity].
  unfold clean_empty in HC. rewrite Forall_forall in HC. rewrite (HC tk (nth_error_In _ _ Hi) Z0). destruct (_ && _), (_ && _); reflexivity.
Qed.
Lemma ee_ne_pt h c : ne_pt_w E1 had track mu h c = ne_pt_w E0 had track mu h c.
Proof. unfold ne_pt_w. rewrite ee_left_pt, ee_tks, ee_errs. reflexivity. Qed.
Lemma ee_fit : ints_fit E1 had track mu <-> ints_fit E0 had track mu.
Proof.
  unfold ints_fit, em_tksum_w. split; intros [X Y]; split.
  - intros k e Hk. rewrite <- (ee_tksum k). apply X. rewrite nth_error_skip. exact Hk.
  - intros h c Hh. rewrite <- ee_errs, <- ee_tks, <- ee_left_pt. apply Y. exact Hh.
  - intros k e Hk. destruct (skip_cases n k) as [->|[j ->]].
    + rewrite nth_error_mid in Hk. injection Hk as <-. destruct HS as [->|[_ ->]]; [intros F; elim F; reflexivity|intros _; cbn; lia].
    + rewrite ee_tksum. apply X. rewrite nth_error_skip in Hk. exact Hk.
  - intros h c Hh. rewrite ee_errs, ee_tks, ee_left_pt. apply Y. exact Hh.
Qed.

Lemma inert_em_gen mem nsel : (nsel <= length had)%nat ->
  (pfalgo3_full mem nsel (l1 ++ x :: l2) had track mu = UB SignedOverflow /\ pfalgo3_full mem nsel (l1 ++ l2) had track mu = UB SignedOverflow) \/
  exists ch1 ch0 a p b pho0 ne om, length a = length l1 /\ n_pt p = 0 /\
    Forall2 (fun c1 c0 => pf_equals_ch c0 c1 = true) ch1 ch0 /\ Forall2 same_ne (a ++ b) pho0 /\
    pfalgo3_full mem nsel (l1 ++ x :: l2) had track mu = Ok (mkOut ch1 (a ++ p :: b) ne om) /\
    pfalgo3_full mem nsel (l1 ++ l2) had track mu = Ok (mkOut ch0 pho0 ne om).
Proof.
  intros Hn. destruct (run_both mem nsel _ _ _ _ _ _ _ _ HP ee_phys Hn Hn ee_fit) as [U|[-> ->]]; [left; exact U|right]. unfold spec_w.
  set (pup := fun k => n_puppi (old_outpho mem k)).
  destruct (mapi_insert (sp_pho_w E1 track mu pup) l1 x l2) as (a & b & La & Lb & EE1 & EE0).
  exists (mapi (sp_ch_w E1 had track mu) track), (mapi (sp_ch_w E0 had track mu) track).
  exists a, (sp_pho_w E1 track mu pup n x), b, (mapi (sp_pho_w E0 track mu pup) E0). eexists. eexists.
  split; [assumption|]. split.
  { unfold sp_pho_w. rewrite ee_pho_x. reflexivity. }
  split; [|split; [|split]].
  - assert (G : forall l, (forall i tk, In (i, tk) l -> nth_error track i = Some tk) ->
        Forall2 (fun c1 c0 => pf_equals_ch c0 c1 = true)
          (map (fun p => sp_ch_w E1 had track mu (fst p) (snd p)) l)
          (map (fun p => sp_ch_w E0 had track mu (fst p) (snd p)) l)).
    { induction l as [|[i tk] l IH]; intros Hl; cbn [map]; constructor; [|apply IH; intros; apply Hl; right; assumption].
      specialize (Hl i tk (or_introl eq_refl)). cbn [fst snd]. destruct (Z.eq_dec (t_pt tk) 0) as [Z0|N].
      - unfold pf_equals_ch, sp_ch_w. rewrite Z0. destruct (ch_kept_w _ _ _ _ _ _), (ch_kept_w _ _ _ _ _ _); reflexivity.
      - unfold sp_ch_w, ch_kept_w. rewrite ee_is_ele, ee_had_match by assumption. apply ch_equals_refl. }
    apply G. intros i tk. apply in_indexed.
  - apply same_ne_strip. rewrite <- EE0, !map_mapi. apply mapi_ext_in. intros k e _. unfold sp_pho_w, em_tksum_w. rewrite !strip_ne_obj, ee_tksum. reflexivity.
  - rewrite EE1. reflexivity.
  - f_equal. f_equal.
    f_equal. f_equal. apply mapi_ext_in. intros h c _. unfold sp_ne_w. rewrite ee_ne_pt. reflexivity.
Qed.
End Em.

(** the conditions of the theorems, on the links *)
Lemma em_skip had track l1 l2 x mu : phys (l1 ++ x :: l2) had track mu ->
  (forall i tk, nth_error track i = Some tk -> t_pt tk <> 0 -> ~ MuTrack track mu i -> ~ takes_from l1 x l2 tk) ->
  forall i tk, nth_error track i = Some tk -> t_pt tk <> 0 ->
  em_match (l1 ++ x :: l2) track mu i tk = option_map (skip (length l1)) (em_match (l1 ++ l2) track mu i tk) \/
  (em_match (l1 ++ l2) track mu i tk = None /\ em_match (l1 ++ x :: l2) track mu i tk = Some (length l1)).
Proof.
  intros HP HT i tk Hi Hp. unfold em_match. destruct (is_mu track mu i) eqn:M; [left; reflexivity|].
  assert (NM : ~ MuTrack track mu i) by (rewrite <- is_mu_spec, M; discriminate).
  specialize (HT i tk Hi Hp NM). unfold takes_from in HT. unfold cand_tk_em in *. rewrite !map_app in *. cbn [map] in *.
  set (c := cand_if _ _) in *. set (a := map _ l1) in *. set (b := map _ l2) in *.
  assert (La : length l1 = length a) by (symmetry; apply map_length). rewrite La in *.
  destruct (best_insert a c b) as [E|E]; [left; exact E|right]. split; [|exact E].
  apply best_None. intros S. apply HT. split; [apply best_spec; exact E|exact S].
Qed.

Lemma inert_em had track l1 l2 x mu : e_pt x = 0 ->
  phys (l1 ++ x :: l2) had track mu -> clean_empty track ->
  (forall tk, In tk track -> t_pt tk <> 0 -> 84 <= dist2 (t_eta tk) (t_phi tk) (e_eta x) (e_phi x)) ->
  forall mem nsel, (nsel <= length had)%nat ->
  (pfalgo3_full mem nsel (l1 ++ x :: l2) had track mu = UB SignedOverflow /\ pfalgo3_full mem nsel (l1 ++ l2) had track mu = UB SignedOverflow) \/
  exists ch1 ch0 a p b pho0 ne om, length a = length l1 /\ n_pt p = 0 /\
    Forall2 (fun c1 c0 => pf_equals_ch c0 c1 = true) ch1 ch0 /\ Forall2 same_ne (a ++ b) pho0 /\
    pfalgo3_full mem nsel (l1 ++ x :: l2) had track mu = Ok (mkOut ch1 (a ++ p :: b) ne om) /\
    pfalgo3_full mem nsel (l1 ++ l2) had track mu = Ok (mkOut ch0 pho0 ne om).
Proof.
  intros X0 HP HC HF. assert (HM : forall i tk, nth_error track i = Some tk -> t_pt tk <> 0 ->
    em_match (l1 ++ x :: l2) track mu i tk = option_map (skip (length l1)) (em_match (l1 ++ l2) track mu i tk)).
  { intros i tk Hi Hp. unfold em_match. destruct (is_mu track mu i); [reflexivity|]. unfold cand_tk_em. rewrite !map_app. cbn [map].
    apply nth_error_In in Hi. specialize (HF tk Hi Hp). destruct (Z.ltb_spec (dist2 (t_eta tk) (t_phi tk) (e_eta x) (e_phi x)) 84); [lia|].
    cbn [cand_if]. rewrite best_skip, map_length. reflexivity. }
  apply inert_em_gen; try assumption; [intros i tk Hi Hp; left; apply HM; assumption|left].
  unfold em_tksum, sum_where. rewrite (mapi_ext_in _ (fun _ _ => 0)); [apply sumZ_zeros|]. intros i tk Hi.
  destruct (Z.eq_dec (t_pt tk) 0) as [Z0|N].
  - rewrite Z0. destruct (opt_is _ _); reflexivity.
  - rewrite HM by assumption. rewrite opt_is_skip_n. reflexivity.
Qed.

Lemma inert_em_near had track l1 l2 x mu : e_pt x = 0 -> e_pterr x = 0 ->
  phys (l1 ++ x :: l2) had track mu -> clean_empty track ->
  (forall i tk, nth_error track i = Some tk -> t_pt tk <> 0 -> ~ MuTrack track mu i -> ~ takes_from l1 x l2 tk) ->
  sum_where (fun _ tk => dist2 (t_eta tk) (t_phi tk) (e_eta x) (e_phi x) <? 84) t_pt track <= 32767 ->
  forall mem nsel, (nsel <= length had)%nat ->
  (pfalgo3_full mem nsel (l1 ++ x :: l2) had track mu = UB SignedOverflow /\ pfalgo3_full mem nsel (l1 ++ l2) had track mu = UB SignedOverflow) \/
  exists ch1 ch0 a p b pho0 ne om, length a = length l1 /\ n_pt p = 0 /\
    Forall2 (fun c1 c0 => pf_equals_ch c0 c1 = true) ch1 ch0 /\ Forall2 same_ne (a ++ b) pho0 /\
    pfalgo3_full mem nsel (l1 ++ x :: l2) had track mu = Ok (mkOut ch1 (a ++ p :: b) ne om) /\
    pfalgo3_full mem nsel (l1 ++ l2) had track mu = Ok (mkOut ch0 pho0 ne om).
Proof.
  intros X0 X1 HP HC HT HL. apply inert_em_gen; try assumption; [eapply em_skip; eassumption|right]. split; [|assumption].
  etransitivity; [|exact HL]. unfold em_tksum, sum_where. apply sumZ_mapi_le. intros i tk Hi.
  assert (0 <= t_pt tk) by (destruct HP as (_ & _ & T & _); rewrite Forall_forall in T; apply (T tk (nth_error_In _ _ Hi))).
  destruct (opt_is _ _) eqn:O; [|destruct (_ <? _); lia].
  unfold em_match in O. destruct (is_mu track mu i); [discriminate|]. destruct (best _) as [k|] eqn:B; [|discriminate]. cbn in O.
  apply Nat.eqb_eq in O. subst k. apply best_spec in B as (v & Hv & _). unfold cand_tk_em in Hv. rewrite nth_error_map, nth_error_mid in Hv. cbn in Hv.
  destruct (_ <? _); [lia|discriminate].
Qed.

(** ** muon tracks and the calorimeter outputs *)
Section MuonFree.
Variables (em : list EmCalo) (had : list HadCalo) (track : list Tk) (mu : list Mu).
Hypothesis (HP : phys em had track mu).
Definition clear_mu : list Tk := mapi (fun i tk => if is_mu track mu i then tk0 else tk) track.
Notation T' := clear_mu.
Notation M' := (map (fun _ : Mu => mu0) mu).

Lemma cm_no_mu i : is_mu T' M' i = false.
Proof. generalize clear_mu. intros t. unfold is_mu. generalize mu. intros l. induction l as [|m l IH]; [reflexivity|]. cbn. assumption. Qed.
Lemma cm_sum (sel' sel : nat -> Tk -> bool) f : f tk0 = 0 ->
  (forall i tk, nth_error track i = Some tk -> is_mu track mu i = true -> sel i tk = false) ->
  (forall i tk, nth_error track i = Some tk -> is_mu track mu i = false -> sel' i tk = sel i tk) ->
  sum_where sel' f T' = sum_where sel f track.
Proof.
  intros F0 A B. unfold sum_where, clear_mu. rewrite mapi_mapi. f_equal. apply mapi_ext_in. intros i tk Hi.
  destruct (is_mu track mu i) eqn:E.
  - rewrite F0, (A i tk Hi E). destruct (sel' i tk0); reflexivity.
  - rewrite (B i tk Hi E). reflexivity.
Qed.
Lemma cm_tksum k : em_tksum em T' M' k = em_tksum em track mu k.
Proof.
  unfold em_tksum. apply cm_sum; [reflexivity| |]; intros i tk _ E; unfold em_match; rewrite E, ?cm_no_mu; reflexivity.
Qed.
Lemma cm_is_em k e : is_em_w em T' M' k e = is_em_w em track mu k e.
Proof. unfold is_em_w, em_tksum_w. rewrite cm_tksum. reflexivity. Qed.
Lemma cm_emsum h : had_emsum_w em had T' M' h = had_emsum_w em had track mu h.
Proof. unfold had_emsum_w. f_equal. apply sum_where_ext. intros. rewrite cm_is_em. reflexivity. Qed.
Lemma cm_left_pt h c : had_left_pt_w em had T' M' h c = had_left_pt_w em had track mu h c.
Proof. apply left_pt_eq, cm_emsum. Qed.
Lemma cm_left : had_left_w em had T' M' = had_left_w em had track mu.
Proof. unfold had_left_w. apply mapi_ext_in. intros h c _. rewrite cm_left_pt. reflexivity. Qed.
Lemma cm_in_had h i tk : is_mu track mu i = false ->
  in_had_w em had T' M' h i tk = in_had_w em had track mu h i tk.
Proof.
  intros E. unfold in_had_w, is_ele_w, em_match, had_match_w. rewrite cm_left, cm_no_mu, E.
  destruct (best (cand_tk_em em tk)); [|reflexivity]. destruct (nth_error _ _); [|reflexivity]. rewrite cm_is_em. reflexivity.
Qed.
Lemma cm_tks h : had_tksum_w em had T' M' h = had_tksum_w em had track mu h.
Proof.
  unfold had_tksum_w. f_equal. apply cm_sum; [reflexivity| |]; intros i tk _ E;
   [unfold in_had_w; rewrite E, andb_false_r; reflexivity|apply cm_in_had; assumption].
Qed.
Lemma cm_errs h : had_err2_w em had T' M' h = had_err2_w em had track mu h.
Proof.
  unfold had_err2_w. apply cm_sum; [reflexivity| |]; intros i tk _ E;
   [unfold in_had_w; rewrite E, andb_false_r; reflexivity|apply cm_in_had; assumption].
Qed.
Lemma cm_ne_pt h c : ne_pt_w em had T' M' h c = ne_pt_w em had track mu h c.
Proof. unfold ne_pt_w. rewrite cm_left_pt, cm_tks, cm_errs. reflexivity. Qed.
Lemma cm_fit : ints_fit em had T' M' <-> ints_fit em had track mu.
Proof. apply ints_fit_ext; intros; [unfold em_tksum_w; rewrite cm_tksum; reflexivity|apply cm_tks|apply cm_errs|apply cm_left_pt]. Qed.
Lemma cm_phys : phys em had T' M'.
Proof.
  destruct HP as (A & B & C & D). split; [assumption|]. split; [assumption|]. split.
  - apply Forall_mapi. intros i tk Hi. destruct (is_mu track mu i); [|eapply (Forall_nth_error tk_phys); eauto].
    unfold tk_phys, tk_ok, tk0, inS; cbn. lia.
  - apply Forall_forall. intros m Hm. apply in_map_iff in Hm as (m0 & <- & _). unfold mu_phys, mu_ok, mu0, inS; cbn. lia.
Qed.
Lemma muon_free mem nsel : (nsel <= length had)%nat ->
  (pfalgo3_full mem nsel em had track mu = UB SignedOverflow /\ pfalgo3_full mem nsel em had T' M' = UB SignedOverflow) \/
  exists ch1 mu1 ch2 mu2 pho ne,
    pfalgo3_full mem nsel em had track mu = Ok (mkOut ch1 pho ne mu1) /\
    pfalgo3_full mem nsel em had T' M' = Ok (mkOut ch2 pho ne mu2).
Proof.
  intros Hn. destruct (run_both mem nsel _ _ _ _ _ _ _ _ HP cm_phys Hn Hn (iff_sym cm_fit)) as [U|[-> ->]]; [left; exact U|right]. unfold spec_w.
  eexists; eexists; eexists; eexists; eexists; eexists. split; [reflexivity|]. f_equal. f_equal.
  - apply mapi_ext_in. intros k e _. unfold sp_pho_w, em_tksum_w. rewrite cm_tksum. reflexivity.
  - f_equal. f_equal. apply mapi_ext_in. intros h c _. unfold sp_ne_w. rewrite cm_ne_pt. reflexivity.
Qed.
End MuonFree.

(** the same with [MuTrack] *)
Lemma muon_free_prop em had track mu track' mem nsel :
  phys em had track mu -> (nsel <= length had)%nat ->
  length track' = length track ->
  (forall i, MuTrack track mu i -> (i < length track)%nat -> nth_error track' i = Some tk0) ->
  (forall i, ~ MuTrack track mu i -> nth_error track' i = nth_error track i) ->
  (pfalgo3_full mem nsel em had track mu = UB SignedOverflow /\ pfalgo3_full mem nsel em had track' (map (fun _ => mu0) mu) = UB SignedOverflow) \/
  exists ch1 mu1 ch2 mu2 pho ne,
    pfalgo3_full mem nsel em had track mu = Ok (mkOut ch1 pho ne mu1) /\
    pfalgo3_full mem nsel em had track' (map (fun _ => mu0) mu) = Ok (mkOut ch2 pho ne mu2).
Proof.
  intros HP Hn HL H1 H2. replace track' with (clear_mu track mu); [apply muon_free; assumption|].
  apply nth_error_ext. intros i. unfold clear_mu. rewrite nth_error_mapi. pose proof (is_mu_spec track mu i) as S.
  destruct (is_mu track mu i) eqn:E.
  - assert (M : MuTrack track mu i) by (apply S; reflexivity). destruct (nth_error track i) eqn:T.
    + cbn. symmetry. apply H1; [assumption|]. apply nth_error_Some; congruence.
    + cbn. symmetry. apply nth_error_None. rewrite HL. apply nth_error_None; assumption.
  - rewrite H2; [destruct (nth_error track i); reflexivity|]. intros M. apply S in M. discriminate.
Qed.
