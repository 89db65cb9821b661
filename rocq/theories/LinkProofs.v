(** Proofs of C02, C12, C13 and C51. *)
From Verif Require Import Base BaseFacts Data PFHw PFRef TestUtils SpecLink SpecPF SpecOut LinkFacts PFMatch MapiFacts.

Lemma onehot_marks n cand : length cand = n -> marks_best (onehot n (best cand)) cand.
Proof.
  intros L. split; [rewrite length_onehot; auto|]. intros k. rewrite <- best_spec.
  destruct (Nat.lt_ge_cases k n) as [H|H].
  - rewrite nth_error_onehot by assumption. destruct (best cand) as [j|]; [|split; discriminate].
    destruct (Nat.eqb_spec j k); subst; split; intros; congruence.
  - assert (nth_error (onehot n (best cand)) k = None) as -> by (apply nth_error_None; rewrite length_onehot; lia).
    split; [discriminate|]. intros E. apply best_lt in E. lia.
Qed.
Lemma onehot_none n k : nth_error (onehot n None) k = Some true <-> False.
Proof.
  destruct (Nat.lt_ge_cases k n) as [H|H].
  - rewrite nth_error_onehot by assumption. split; [discriminate|tauto].
  - assert (nth_error (onehot n None) k = None) as -> by (apply nth_error_None; rewrite length_onehot; lia). split; [discriminate|tauto].
Qed.

Lemma c02_tk2em em track isMu i tk m : nth_error track i = Some tk -> nth_error isMu i = Some m ->
  exists row, nth_error (tk2em_link em track isMu) i = Some row /\
    (m = false -> marks_best row (cand_tk_em em tk)) /\
    (m = true -> length row = length em /\ forall k, nth_error row k <> Some true).
Proof.
  intros Hi Hm. rewrite tk2em_link_spec. eexists. split; [rewrite nth_error_map', nth_error_combine, Hi, Hm; reflexivity|].
  unfold tk_em_match. split; intros ->.
  - apply onehot_marks. apply map_length.
  - split; [apply length_onehot|]. intros k H. apply onehot_none in H. assumption.
Qed.
Lemma c02_dronly had track i tk : nth_error track i = Some tk ->
  exists row, nth_error (tk2calo_link_dronly had track) i = Some row /\ marks_best row (cand_tk_had_dr had tk).
Proof.
  intros Hi. rewrite tk2calo_link_dronly_spec. eexists. split; [rewrite nth_error_map', Hi; reflexivity|].
  apply onehot_marks. apply map_length.
Qed.
Lemma c02_drdpt had track : Forall tk_phys track -> Forall had_phys had ->
  exists rows, tk2calo_link_drdpt had track = Ok rows /\
  forall i tk, nth_error track i = Some tk -> exists row, nth_error rows i = Some row /\ marks_best row (cand_tk_had (Some 131071) had tk).
Proof.
  intros Ht Hh. eexists. split; [apply tk2calo_link_drdpt_spec; assumption|]. intros i tk Hi.
  eexists. split; [rewrite nth_error_map', Hi; reflexivity|]. apply onehot_marks. apply map_length.
Qed.
Lemma c02_em2calo em had i e : Forall em_ok em -> nth_error em i = Some e ->
  exists row, nth_error (em2calo_link em had) i = Some row /\ marks_best row (cand_em_had had e).
Proof.
  intros F Hi. rewrite em2calo_link_spec by assumption. eexists. split; [rewrite nth_error_map', Hi; reflexivity|].
  apply onehot_marks. apply map_length.
Qed.

Lemma marks_unique row cand : marks_best row cand ->
  (forall k k', nth_error row k = Some true -> nth_error row k' = Some true -> k = k') /\
  ((exists k, nth_error row k = Some true) <-> some_admissible cand).
Proof.
  intros [_ H]. split.
  - intros k k' A B. apply H in A. apply H in B. eapply is_best_unique; eauto.
  - split.
    + intros [k A]. apply H in A as (v & Hv & _). exists k, v; assumption.
    + intros S. destruct (best cand) as [k|] eqn:E; [exists k; apply H, best_spec; assumption|]. apply best_None in E. contradiction.
Qed.

(** ** C12 *)
Lemma wrapS10_neg_sq x : wrapS 10 (- x) * wrapS 10 (- x) = wrapS 10 x * wrapS 10 x.
Proof.
  unfold wrapS. change (2 ^ (10 - 1)) with 512. change (2 ^ 10) with 1024.
  assert (E : (- x + 512) mod 1024 - 512 = - ((x + 512) mod 1024 - 512) \/ ((x + 512) mod 1024 - 512 = -512 /\ (- x + 512) mod 1024 - 512 = -512)) by lia.
  destruct E as [E|[E1 E2]]; [rewrite E|rewrite E1, E2]; lia.
Qed.
Lemma dr2_sym a b c d : dr2_int a b c d = dr2_int c d a b.
Proof.
  unfold dr2_int, etaphi_t. cbv zeta. replace (c - a) with (- (a - c)) by lia. replace (d - b) with (- (b - d)) by lia.
  rewrite !wrapS10_neg_sq. reflexivity.
Qed.
Lemma dr2_refl a b : dr2_int a b a b = 0.
Proof. unfold dr2_int. rewrite !Z.sub_diag. reflexivity. Qed.
Lemma dr2_range a b c d : 0 <= dr2_int a b c d <= 2 ^ 19.
Proof.
  unfold dr2_int, etaphi_t. cbv zeta. pose proof (wrapS10_rg (a - c)). pose proof (wrapS10_rg (b - d)).
  change (2 ^ 19) with 524288. nia.
Qed.
Lemma dr2_exact a b c d : inS 10 (a - c) -> inS 10 (b - d) -> dr2_int a b c d = (a - c) * (a - c) + (b - d) * (b - d).
Proof. intros H1 H2. unfold dr2_int, etaphi_t. rewrite !wrapS_id by (lia || assumption). reflexivity. Qed.
Lemma dr2_cap_min nb a b c d M : 0 <= M < 2 ^ nb -> dr2_int_cap nb a b c d M = Z.min (dr2_int a b c d) M.
Proof. intros H. rewrite cap_lt by assumption. change dist2 with dr2_int. destruct (Z.ltb_spec (dr2_int a b c d) M); lia. Qed.

(** ** C13 *)
Lemma c13 tk h s : tk_phys tk -> had_phys h ->
  calc_dptscale 756 (t_pterr tk) = Ok s ->
  Z.max 0 (wrapS 16 (t_pt tk - 2 * t_pterr tk)) < h_pt h ->
  dr2_int (t_eta tk) (t_phi tk) (h_eta h) (h_phi h) < 756 ->
  let q := dr2_dpt_int_cap 12 (t_eta tk) (t_phi tk) (h_eta h) (h_phi h) (t_pt tk) (h_pt h) (wrapS 18 s) 756 3780 in
  let d := Z.max 0 (t_pt tk - h_pt h) in
  0 <= q < 3780 /\
  q = dr2_int (t_eta tk) (t_phi tk) (h_eta h) (h_phi h) + d * d * s / 256 /\
  (t_pterr tk <> 1 -> q = dr2_int (t_eta tk) (t_phi tk) (h_eta h) (h_phi h)
                          + d * d * (756 * 256 / Z.max 1 (t_pterr tk * t_pterr tk)) / 256).
Proof.
  intros Ht Hh Hs Hf Hd. cbv zeta. change 756 with DR2MAX_TK_CALO in Hs at 1. rewrite calc_dptscale_spec in Hs by apply Ht. inversion Hs; subst s.
  rewrite dr2_dpt_cap_spec by assumption. change dr2_int with dist2 in *. destruct (Z.ltb_spec (dist2 (t_eta tk) (t_phi tk) (h_eta h) (h_phi h)) 756); [|lia].
  split; [apply metric_bound; assumption|]. split; [reflexivity|]. intros N. rewrite metric_cap; [reflexivity| | | |]; try assumption. apply Ht.
Qed.

(** ** C51 *)
Lemma had_equals_iff r o : had_equals r o = true <->
  (h_pt r = 0 /\ h_pt o = 0) \/
  (h_pt r <> 0 /\ h_pt o = h_pt r /\ h_empt o = h_empt r /\ h_eta o = h_eta r /\ h_phi o = h_phi r /\ h_isem o = h_isem r).
Proof.
  unfold had_equals. destruct (Z.eqb_spec (h_pt r) 0); rewrite ?andb_true_iff, ?Z.eqb_eq, ?Bool.eqb_true_iff; intuition congruence.
Qed.
Lemma em_equals_iff r o : em_equals r o = true <->
  (e_pt r = 0 /\ e_pt o = 0) \/
  (e_pt r <> 0 /\ e_pt o = e_pt r /\ e_pterr o = e_pterr r /\ e_eta o = e_eta r /\ e_phi o = e_phi r).
Proof. unfold em_equals. destruct (Z.eqb_spec (e_pt r) 0); rewrite ?andb_true_iff, ?Z.eqb_eq; intuition congruence. Qed.
Lemma track_equals_iff r o : track_equals r o = true <->
  (t_pt r = 0 /\ t_pt o = 0) \/
  (t_pt r <> 0 /\ t_pt o = t_pt r /\ t_pterr o = t_pterr r /\ t_eta o = t_eta r /\ t_phi o = t_phi r /\ t_z0 o = t_z0 r).
Proof. unfold track_equals. destruct (Z.eqb_spec (t_pt r) 0); rewrite ?andb_true_iff, ?Z.eqb_eq; intuition congruence. Qed.
Lemma mu_equals_iff r o : mu_equals r o = true <->
  (m_pt r = 0 /\ m_pt o = 0) \/
  (m_pt r <> 0 /\ m_pt o = m_pt r /\ m_pterr o = m_pterr r /\ m_eta o = m_eta r /\ m_phi o = m_phi r).
Proof. unfold mu_equals. destruct (Z.eqb_spec (m_pt r) 0); rewrite ?andb_true_iff, ?Z.eqb_eq; intuition congruence. Qed.
Lemma pf_equals_ch_iff r o : pf_equals_ch r o = true <->
  (c_pt r = 0 /\ c_pt o = 0) \/
  (c_pt r <> 0 /\ c_pt o = c_pt r /\ c_eta o = c_eta r /\ c_phi o = c_phi r /\ c_id o = c_id r /\ c_z0 o = c_z0 r).
Proof. unfold pf_equals_ch. destruct (Z.eqb_spec (c_pt r) 0); rewrite ?andb_true_iff, ?Z.eqb_eq; intuition congruence. Qed.
Lemma pf_equals_ne_iff r o : pf_equals_ne r o = true <->
  (n_pt r = 0 /\ n_pt o = 0) \/
  (n_pt r <> 0 /\ n_pt o = n_pt r /\ n_eta o = n_eta r /\ n_phi o = n_phi r /\ n_id o = n_id r).
Proof. unfold pf_equals_ne. destruct (Z.eqb_spec (n_pt r) 0); rewrite ?andb_true_iff, ?Z.eqb_eq; intuition congruence. Qed.

Lemma equivb_intro {T} (f : T -> T -> bool) :
  (forall x, f x x = true) -> (forall x y, f x y = true -> f y x = true) -> (forall x y z, f x y = true -> f y z = true -> f x z = true) -> equivb f.
Proof.
  intros R S Tr. split; [assumption|]. split; [|assumption]. intros x y.
  destruct (f x y) eqn:A, (f y x) eqn:B; auto; [apply S in A|apply S in B]; congruence.
Qed.
Ltac eqv iff pt := apply equivb_intro;
  [intros x; apply iff; destruct (Z.eq_dec (pt x) 0); intuition
  |intros x y; rewrite !iff; intuition congruence
  |intros x y z; rewrite !iff; intuition congruence].
Lemma had_equals_equiv : equivb had_equals. Proof. eqv had_equals_iff h_pt. Qed.
Lemma em_equals_equiv : equivb em_equals. Proof. eqv em_equals_iff e_pt. Qed.
Lemma track_equals_equiv : equivb track_equals. Proof. eqv track_equals_iff t_pt. Qed.
Lemma mu_equals_equiv : equivb mu_equals. Proof. eqv mu_equals_iff m_pt. Qed.
Lemma pf_equals_ch_equiv : equivb pf_equals_ch. Proof. eqv pf_equals_ch_iff c_pt. Qed.
Lemma pf_equals_ne_equiv : equivb pf_equals_ne. Proof. eqv pf_equals_ne_iff n_pt. Qed.

Lemma count_nonzero_counts {T} (pt : T -> Z) objs : count_nonzero pt objs = Z.of_nat (length (filter (fun o => 0 <? pt o) objs)).
Proof.
  unfold count_nonzero. assert (G : forall a, fold_left (fun ret o => ret + b2z (pt o >? 0)) objs a = a + Z.of_nat (length (filter (fun o => 0 <? pt o) objs))); [|apply G].
  induction objs as [|o l IH]; intros a; cbn [fold_left filter length]; [lia|]. rewrite IH, Z.gtb_ltb. destruct (0 <? pt o); cbn [b2z length]; lia.
Qed.
