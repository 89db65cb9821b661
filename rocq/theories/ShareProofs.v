(** Proofs of C85. *)
From Coq Require Import Permutation.
From Verif Require Import Base BaseFacts MapiFacts InsertFacts Data PFHw PFRef SpecLink SpecPF SpecShare LinkFacts SortFacts PFHwSpec PFWrap PFRefSpec PFProofs.

Definition sumi {A} (g : nat -> A -> Z) (l : list A) : Z := sumZ (mapi g l).
Lemma sumi_snoc {A} (g : nat -> A -> Z) l x : sumi g (l ++ [x]) = sumi g l + g (length l) x.
Proof. unfold sumi. rewrite mapi_app, sumZ_app. cbn. rewrite Nat.add_0_r. lia. Qed.
Lemma sumi_le {A} (f g : nat -> A -> Z) l : (forall i x, nth_error l i = Some x -> f i x <= g i x) -> sumi f l <= sumi g l.
Proof.
  intros H. induction l as [|x l IH] using rev_ind; [reflexivity|]. rewrite !sumi_snoc.
  assert (f (length l) x <= g (length l) x) by (apply H; rewrite nth_error_app2, Nat.sub_diag by lia; reflexivity).
  enough (sumi f l <= sumi g l) by lia. apply IH. intros i y Hi. apply H. rewrite nth_error_app1; [exact Hi|apply nth_error_Some; congruence].
Qed.
Lemma sumi_ext {A} (f g : nat -> A -> Z) l : (forall i x, nth_error l i = Some x -> f i x = g i x) -> sumi f l = sumi g l.
Proof. intros H. apply Z.le_antisymm; apply sumi_le; intros i x Hi; rewrite (H i x Hi); lia. Qed.
Lemma sumi_0 {A} (l : list A) : sumi (fun _ _ => 0) l = 0.
Proof. induction l as [|x l IH] using rev_ind; [reflexivity|]. rewrite sumi_snoc, IH. reflexivity. Qed.
Lemma sumi_nonneg {A} (f : nat -> A -> Z) l : (forall i x, nth_error l i = Some x -> 0 <= f i x) -> 0 <= sumi f l.
Proof. intros H. rewrite <- (sumi_0 l). apply sumi_le. exact H. Qed.
Lemma sumi_map {A} (f : A -> Z) l : sumi (fun _ x => f x) l = sumZ (map f l).
Proof. unfold sumi. f_equal. rewrite <- (mapi_id l) at 2. rewrite map_mapi. reflexivity. Qed.
(** adding group by group *)
Lemma sum_one (n h : nat) (v : Z) : (h < n)%nat -> sumZ (map (fun k => if (h =? k)%nat then v else 0) (seq 0 n)) = v.
Proof.
  revert h. induction n as [|n IH]; intros h H; [lia|]. rewrite seq_S, map_app, sumZ_app. cbn [map sumZ fold_right Nat.add].
  destruct (Nat.eqb_spec h n) as [->|N].
  - assert (E : sumZ (map (fun k => if (n =? k)%nat then v else 0) (seq 0 n)) = 0). { assert (G : forall l, (forall k, In k l -> k <> n) -> sumZ (map (fun k => if (n =? k)%nat then v else 0) l) = 0). { induction l as [|k l IHl]; intros Hl; [reflexivity|]. change (sumZ (map ?f (k :: l))) with (f k + sumZ (map f l)). cbn beta. destruct (Nat.eqb_spec n k) as [->|]; [exfalso; apply (Hl k); [left; reflexivity|reflexivity]|]. rewrite IHl; [reflexivity|]. intros; apply Hl; right; assumption. } apply G. intros k Hk. apply in_seq in Hk. lia. }
    rewrite E. unfold sumZ. cbn. lia.
  - rewrite IH by lia. unfold sumZ. cbn. lia.
Qed.
Lemma sumZ_map_add {A} (f g : A -> Z) l : sumZ (map (fun x => f x + g x) l) = sumZ (map f l) + sumZ (map g l).
Proof. induction l as [|x l IH]; [reflexivity|]. change (sumZ (map ?f (x :: l))) with (f x + sumZ (map f l)). cbn beta. change (sumZ (map f (x :: l))) with (f x + sumZ (map f l)). change (sumZ (map g (x :: l))) with (g x + sumZ (map g l)). lia. Qed.
Lemma grouped {A} (own : nat -> A -> option nat) (g : nat -> A -> Z) n l : (forall i x h, own i x = Some h -> (h < n)%nat) ->
  sumi g l = sumi (fun i x => if (match own i x with None => true | Some _ => false end) then g i x else 0) l +
             sumZ (map (fun h => sumi (fun i x => if opt_is (own i x) h then g i x else 0) l) (seq 0 n)).
Proof.
  intros H. induction l as [|x l IH] using rev_ind.
  - assert (E : forall m, sumZ (map (fun h : nat => sumi (fun i (x : A) => if opt_is (own i x) h then g i x else 0) []) m) = 0) by (induction m as [|a m IHm]; [reflexivity|exact IHm]). rewrite E. reflexivity.
  - rewrite !sumi_snoc, IH.
    rewrite (map_ext (fun h => sumi (fun i x => if opt_is (own i x) h then g i x else 0) (l ++ [x])) (fun h => sumi (fun i x => if opt_is (own i x) h then g i x else 0) l + (if opt_is (own (length l) x) h then g (length l) x else 0))) by (intros h; rewrite sumi_snoc; reflexivity).
    rewrite sumZ_map_add. destruct (own (length l) x) as [h|] eqn:E.
    + unfold opt_is at 3. rewrite (sum_one n h _ (H _ _ _ E)). lia.
    + unfold opt_is at 3. assert (Z0 : forall m : list nat, sumZ (map (fun _ => 0) m) = 0) by (induction m as [|a m IHm]; [reflexivity|exact IHm]). rewrite Z0. lia.
Qed.
Lemma sum_seq_mapi {A} (f : nat -> Z) (l : list A) : sumZ (map f (seq 0 (length l))) = sumi (fun i _ => f i) l.
Proof.
  induction l as [|x l IH] using rev_ind; [reflexivity|]. rewrite sumi_snoc, <- IH, app_length. cbn [length]. rewrite Nat.add_1_r, seq_S, map_app, sumZ_app. unfold sumZ. cbn. lia.
Qed.

Section share.
Variables (em : list EmCalo) (had : list HadCalo) (track : list Tk) (mu : list Mu) (cap : option Z) (kv : bool) (out : pfout) (pup pup' : nat -> Z) (nsel : nat).
Hypothesis (HP : phys em had track mu)
  (Hch : length (o_ch out) = length track /\ forall i tk, nth_error track i = Some tk -> exists c, nth_error (o_ch out) i = Some c /\ (0 < t_pt tk -> c = sp_ch em had track mu cap kv i tk) /\ (t_pt tk = 0 -> c_pt c = 0))
  (Hpho : o_pho out = mapi (sp_pho em track mu pup) em)
  (Hne : o_ne out = firstn nsel (sorted_cands n_pt (mapi (sp_ne em had track mu cap kv pup') had))).

Lemma obj_pt p a b c d : n_pt (ne_obj p a b c d) = p.
Proof. unfold ne_obj. destruct (Z.eqb_spec p 0); [subst; reflexivity|reflexivity]. Qed.
Definition g_pho (k : nat) (e : EmCalo) : Z := pho_pt e (em_tksum em track mu k).
Lemma sh_em k e : nth_error em k = Some e -> 0 <= g_pho k e <= e_pt e /\ (g_pho k e <> 0 -> is_em em track mu k e = true /\ (g_pho k e + em_tksum em track mu k = e_pt e)).
Proof.
  intros Hk. pose proof (em_at _ _ _ _ HP _ _ Hk) as [_ [P _]]. pose proof (fit_tksum_nn em had track mu HP (fun i tk => opt_is (em_match em track mu i tk) k)) as R. fold (em_tksum em track mu k) in R.
  unfold g_pho, pho_pt, is_em, em_class. cbv zeta. destruct (Z.eqb_spec (em_tksum em track mu k) 0) as [E|E]; cbn [orb].
  - split; [lia|]. intros _. split; [reflexivity|lia].
  - destruct (Z.ltb_spec 0 (e_pt e - em_tksum em track mu k)); cbn [andb orb]; [|split; [lia|intros []; reflexivity]].
    destruct (_ <? _); (split; [lia|]); intros X; [split; [reflexivity|lia]|lia].
Qed.
Lemma sh_ne h c : nth_error had h = Some c -> 0 <= ne_pt em had track mu cap kv h c <= h_pt c /\
  (ne_pt em had track mu cap kv h c <> 0 -> ne_pt em had track mu cap kv h c + had_emsum em had track mu h + had_tksum em had track mu cap kv h = h_pt c).
Proof.
  intros Hh. pose proof (had_at _ _ _ _ HP _ _ Hh) as [_ [P _]].
  pose proof (fit_emsum_nn em had track mu HP (fun k e => is_em em track mu k e && opt_is (best (cand_em_had had e)) h)) as RE. fold (had_emsum em had track mu h) in RE.
  pose proof (fit_tksum_nn em had track mu HP (in_had em had track mu cap kv h)) as RS. fold (had_tksum em had track mu cap kv h) in RS.
  assert (0 <= h_pt c / 16) by (apply Z.div_pos; lia).
  assert (L : had_left_pt em had track mu kv h c = 0 \/ (had_left_pt em had track mu kv h c = h_pt c - had_emsum em had track mu h /\ 0 < h_pt c - had_emsum em had track mu h)).
  { unfold had_left_pt. cbv zeta. destruct (Z.leb_spec (h_pt c - had_emsum em had track mu h) (h_pt c / 16)); cbn [orb]; [left; reflexivity|]. destruct (_ && _); [left; reflexivity|right; lia]. }
  unfold ne_pt, ne_balance. cbv zeta. destruct (Z.eqb_spec (had_tksum em had track mu cap kv h) 0) as [E|E]; [destruct L as [L|[L1 L2]]; rewrite ?L, ?L1; split; lia|].
  destruct (Z.ltb_spec 0 (had_left_pt em had track mu kv h c - had_tksum em had track mu cap kv h)); cbn [andb]; [|split; [lia|intros []; reflexivity]]. destruct (_ <? _); split; try lia; destruct L as [L|[L1 L2]]; lia.
Qed.
Lemma neutral_perm : exists others, Permutation (map n_pt (o_ne out) ++ others) (mapi (ne_pt em had track mu cap kv) had).
Proof.
  set (cs := mapi (sp_ne em had track mu cap kv pup') had) in *. exists (map n_pt (skipn nsel (sorted_cands n_pt cs))).
  rewrite Hne, <- map_app, firstn_skipn. replace (mapi (ne_pt em had track mu cap kv) had) with (map n_pt cs); [apply Permutation_map, sorted_cands_perm|].
  unfold cs. rewrite map_mapi. apply mapi_ext_in. intros i x _. apply obj_pt.
Qed.
Definition w_em_had (k : nat) : option nat := match nth_error em k with Some e => if is_em em track mu k e then best (cand_em_had had e) else None | None => None end.
Definition w_tk_em (i : nat) : option nat := match nth_error track i with Some tk => if is_ele em track mu i tk then em_match em track mu i tk else None | None => None end.
Definition w_tk_had (i : nat) : option nat := match nth_error track i with Some tk => if negb (is_ele em track mu i tk) && negb (is_mu track mu i) then had_match em had track mu cap kv tk else None | None => None end.
Lemma sum_where_ext {A} (s s' : nat -> A -> bool) f l : (forall i x, nth_error l i = Some x -> s i x = s' i x) -> sum_where s f l = sum_where s' f l.
Proof. intros H. apply sumi_ext. intros i x Hi. rewrite (H i x Hi). reflexivity. Qed.
Lemma accounted_spec : accounted em had track out.
Proof.
  exists w_em_had, w_tk_em, w_tk_had, (mapi (ne_pt em had track mu cap kv) had). split; [apply length_mapi|]. split; [exact neutral_perm|]. split; [|split].
  - intros k e p Hk Hp. rewrite Hpho, nth_error_mapi, Hk in Hp. cbn in Hp. injection Hp as <-. unfold sp_pho. rewrite obj_pt. destruct (sh_em k e Hk) as (B & S). fold (g_pho k e). split.
    + destruct (Z.eq_dec (g_pho k e) 0) as [E|E]; [left; exact E|right]. destruct (S E) as (S1 & S2). split; [lia|]. rewrite <- S2. f_equal. apply sum_where_ext. intros i tk Hi. unfold w_tk_em. rewrite Hi.
      unfold is_ele. destruct (em_match em track mu i tk) as [k'|] eqn:M; [|reflexivity]. unfold opt_is. destruct (Nat.eqb_spec k' k) as [->|N]; [rewrite Hk, S1; apply Nat.eqb_refl|].
      destruct (nth_error em k') as [e'|]; [|reflexivity]. destruct (is_em em track mu k' e'); [apply Nat.eqb_neq; exact N|reflexivity].
    + intros Hpos. unfold w_em_had. rewrite Hk. rewrite (proj1 (S ltac:(lia))). reflexivity.
  - intros h c p Hh Hp. rewrite nth_error_mapi, Hh in Hp. cbn in Hp. injection Hp as <-. destruct (sh_ne h c Hh) as (B & S).
    destruct (Z.eq_dec (ne_pt em had track mu cap kv h c) 0) as [E|E]; [left; exact E|right]. split; [lia|]. rewrite <- (S E). f_equal; [f_equal|].
    + apply sum_where_ext. intros k e Hk. unfold w_em_had. rewrite Hk. destruct (is_em em track mu k e); reflexivity.
    + apply sum_where_ext. intros i tk Hi. unfold w_tk_had, in_had. rewrite Hi. destruct (negb (is_ele em track mu i tk) && negb (is_mu track mu i)); reflexivity.
  - intros i tk c Hi Hc Hpos. destruct (proj2 Hch i tk Hi) as (c' & Hc' & E & _). assert (c' = c) by congruence. subst c'. rewrite (E Hpos) in *. clear E Hc'.
    assert (EM : is_ele em track mu i tk = true -> exists k e, em_match em track mu i tk = Some k /\ nth_error em k = Some e /\ is_em em track mu k e = true).
    { unfold is_ele. destruct (em_match em track mu i tk) as [k|]; [|discriminate]. destruct (nth_error em k) as [e|] eqn:Ek; [|discriminate]. intros X. exists k, e. auto. }
    assert (MU : is_ele em track mu i tk = true -> is_mu track mu i = false). { intros X. destruct (EM X) as (k & e & M & _). unfold em_match in M. destruct (is_mu track mu i); [discriminate|reflexivity]. }
    unfold w_tk_em, w_tk_had. rewrite Hi. unfold sp_ch, ch_kept. destruct (is_ele em track mu i tk) eqn:Ele.
    + destruct (EM eq_refl) as (k & e & M & Hk & Hem). rewrite M, (MU eq_refl). cbn [orb negb andb c_id c_pt].
      split; [split; [reflexivity|discriminate]|]. split; [reflexivity|]. split; [split; [reflexivity|discriminate]|]. split; [discriminate|].
      intros k' e' Hk' He'. injection Hk' as <-. unfold w_em_had. rewrite He'. rewrite Hk in He'. injection He' as <-. rewrite Hem. reflexivity.
    + destruct (is_mu track mu i) eqn:Mu; cbn [orb negb andb c_id c_pt].
      * split; [split; [intros X; congruence|discriminate]|]. split; [congruence|]. split; [intros [X|X]; congruence|]. split; [discriminate|intros; discriminate].
      * assert (N2 : forall b : bool, c_id (if b then mkCh (t_pt tk) (t_eta tk) (t_phi tk) PID_Charged (t_z0 tk) else mkCh 0 0 0 0 0) = PID_Electron -> False) by (intros []; discriminate).
        split; [split; [intros X; congruence|intros X; exfalso; exact (N2 _ X)]|]. split; [congruence|]. split; [|split; [|intros; discriminate]].
        -- intros [X|X]; [congruence|]. destruct (had_match em had track mu cap kv tk); [|congruence]. rewrite orb_true_r. split; [reflexivity|discriminate].
        -- destruct (Z.ltb_spec (t_pt tk) (if t_tight tk then 80 else 40)); [lia|]. cbn [orb]. destruct (had_match em had track mu cap kv tk); [discriminate|]. cbn. lia.
Qed.

(** ** Totals *)
Lemma sumZ_app_le l r : (forall x, In x r -> 0 <= x) -> sumZ l <= sumZ (l ++ r).
Proof. intros H. rewrite sumZ_app. assert (0 <= sumZ r) by (apply sumZ_nonneg; exact H). lia. Qed.
Lemma sumZ_perm l l' : Permutation l l' -> sumZ l = sumZ l'.
Proof. induction 1; unfold sumZ in *; cbn [fold_right]; lia. Qed.
Lemma best_in em0 e h : In e em0 -> best (cand_em_had had e) = Some h -> (h < length had)%nat.
Proof. intros _ H. apply best_lt in H. unfold cand_em_had in H. rewrite map_length in H. exact H. Qed.
Lemma ne_total : sumZ (map n_pt (o_ne out)) <= sumi (ne_pt em had track mu cap kv) had.
Proof.
  destruct neutral_perm as (others & Pm). unfold sumi. rewrite <- (sumZ_perm _ _ Pm). apply sumZ_app_le. intros x Hx.
  assert (Hin : In x (mapi (ne_pt em had track mu cap kv) had)) by (eapply Permutation_in; [exact Pm|apply in_or_app; right; exact Hx]).
  apply in_mapi in Hin as (h & c & Hh & ->). apply (sh_ne h c Hh).
Qed.
Lemma pho_total : sumZ (map n_pt (o_pho out)) = sumi g_pho em.
Proof. rewrite Hpho, map_mapi. unfold sumi. f_equal. apply mapi_ext_in. intros k e _. apply obj_pt. Qed.
Lemma totals : sumZ (map n_pt (o_pho out)) <= sumZ (map e_pt em) /\ sumZ (map n_pt (o_ne out)) <= sumZ (map h_pt had) /\ sumZ (map c_pt (o_ch out)) <= sumZ (map t_pt track).
Proof.
  split; [|split].
  - rewrite pho_total, <- (sumi_map e_pt em). apply sumi_le. intros k e Hk. apply (sh_em k e Hk).
  - rewrite <- (sumi_map h_pt had). etransitivity; [exact ne_total|]. apply sumi_le. intros h c Hh. apply (sh_ne h c Hh).
  - destruct Hch as (L & H). assert (G : forall (l : list PFCh) (t : list Tk), length l = length t -> (forall i x, nth_error t i = Some x -> exists c, nth_error l i = Some c /\ c_pt c <= t_pt x) -> sumZ (map c_pt l) <= sumZ (map t_pt t)).
    { induction l as [|c l IH]; intros [|x t] HL HG; try discriminate HL; [reflexivity|]. destruct (HG 0%nat x eq_refl) as (c' & Hc & Hle). injection Hc as <-.
      assert (sumZ (map c_pt l) <= sumZ (map t_pt t)) by (apply IH; [cbn in HL; congruence|intros i y Hy; exact (HG (S i) y Hy)]). unfold sumZ in *. cbn [map fold_right]. lia. }
    apply G; [exact L|]. intros i tk Hi. destruct (H i tk Hi) as (c & Hc & E1 & E2). exists c. split; [exact Hc|]. destruct (tk_at _ _ _ _ HP _ _ Hi) as [_ [P _]].
    destruct (Z.eq_dec (t_pt tk) 0) as [E0|E0]; [rewrite (E2 E0); lia|]. rewrite (E1 ltac:(lia)). unfold sp_ch. destruct (ch_kept _ _ _ _ _ _ _ _); cbn; lia.
Qed.
Lemma once : sumZ (map n_pt (o_pho out)) + sumZ (map n_pt (o_ne out)) <= energy_seen em had.
Proof.
  rewrite pho_total. pose proof ne_total as N. unfold energy_seen.
  rewrite (grouped (fun _ e => best (cand_em_had had e)) g_pho (length had) em) by (intros i x h; apply (best_in [x]); left; reflexivity).
  rewrite sum_seq_mapi.
  assert (A : sumi (fun i x => if match best (cand_em_had had x) with Some _ => false | None => true end then g_pho i x else 0) em <= em_alone em had).
  { unfold em_alone, sum_where. apply (sumi_le _ (fun i x => if match best (cand_em_had had x) with Some _ => false | None => true end then e_pt x else 0)). intros k e Hk. destruct (best _); [lia|]. apply (sh_em k e Hk). }
  assert (B : sumi (fun i _ => sumi (fun i0 x => if opt_is (best (cand_em_had had x)) i then g_pho i0 x else 0) em) had + sumi (ne_pt em had track mu cap kv) had <= sumi (fun h c => Z.max (h_pt c) (em_inside em had h)) had).
  { assert (AD : forall (f g : nat -> HadCalo -> Z) l, sumi f l + sumi g l = sumi (fun i x => f i x + g i x) l) by (intros f g l; induction l as [|x l IH] using rev_ind; [reflexivity|]; rewrite !sumi_snoc, <- IH; lia).
    rewrite AD. apply sumi_le. intros h c Hh. destruct (sh_ne h c Hh) as (B & S).
    assert (I : sumi (fun i0 x => if opt_is (best (cand_em_had had x)) h then g_pho i0 x else 0) em <= em_inside em had h).
    { unfold em_inside, sum_where. apply (sumi_le _ (fun _ x => if opt_is (best (cand_em_had had x)) h then e_pt x else 0)). intros k e Hk. destruct (opt_is _ h); [|lia]. apply (sh_em k e Hk). }
    destruct (Z.eq_dec (ne_pt em had track mu cap kv h c) 0) as [E|E]; [rewrite E; lia|]. specialize (S E).
    assert (J : sumi (fun i0 x => if opt_is (best (cand_em_had had x)) h then g_pho i0 x else 0) em <= had_emsum em had track mu h).
    { unfold had_emsum, sum_where. apply (sumi_le _ (fun k e => if is_em em track mu k e && opt_is (best (cand_em_had had e)) h then e_pt e else 0)). intros k e Hk. destruct (sh_em k e Hk) as (B1 & S1).
      destruct (opt_is _ h); rewrite ?andb_true_r, ?andb_false_r; [|lia]. destruct (is_em em track mu k e) eqn:M; [lia|]. destruct (Z.eq_dec (g_pho k e) 0) as [Q|Q]; [lia|]. destruct (S1 Q) as (S2 & _). discriminate. }
    pose proof (fit_tksum_nn em had track mu HP (in_had em had track mu cap kv h)) as RS. fold (had_tksum em had track mu cap kv h) in RS. lia. }
  unfold sumi in *. lia.
Qed.
End share.

(** ** Firmware and reference *)
Section both.
Variables (em : list EmCalo) (had : list HadCalo) (track : list Tk) (mu : list Mu) (mem : pfmem) (nsel : nat) (out : pfout).
Hypothesis (HP : phys em had track mu) (Hn : (nsel <= length had)%nat).
Definition budget : Prop := accounted em had track out /\ sumZ (map n_pt (o_pho out)) <= sumZ (map e_pt em) /\ sumZ (map n_pt (o_ne out)) <= sumZ (map h_pt had) /\
  sumZ (map c_pt (o_ch out)) <= sumZ (map t_pt track) /\ sumZ (map n_pt (o_pho out)) + sumZ (map n_pt (o_ne out)) <= energy_seen em had.
Lemma hw_budget : sums_fit em had track mu (Some 131071) false -> pfalgo3_full mem nsel em had track mu = Ok out -> budget.
Proof.
  intros HO Hrun. pose proof (out_eq em had track mu mem nsel out HP HO Hn Hrun) as E.
  assert (Hch : length (o_ch out) = length track /\ forall i tk, nth_error track i = Some tk -> exists c, nth_error (o_ch out) i = Some c /\ (0 < t_pt tk -> c = sp_ch em had track mu (Some 131071) false i tk) /\ (t_pt tk = 0 -> c_pt c = 0)).
  { rewrite E. cbn [o_ch]. split; [apply length_mapi|]. intros i tk Hi. eexists. rewrite nth_error_mapi, Hi. split; [reflexivity|]. split; [reflexivity|]. intros E0. unfold sp_ch. destruct (ch_kept _ _ _ _ _ _ _ _); [exact E0|reflexivity]. }
  assert (Hpho : o_pho out = mapi (sp_pho em track mu (fun k => n_puppi (old_outpho mem k))) em) by (rewrite E; reflexivity).
  assert (Hne : o_ne out = firstn nsel (sorted_cands n_pt (mapi (sp_ne em had track mu (Some 131071) false (fun h => n_puppi (junk_ne_all mem h))) had))) by (rewrite E; reflexivity).
  destruct (totals em had track mu _ _ out _ _ nsel HP Hch Hpho Hne) as (T1 & T2 & T3).
  split; [exact (accounted_spec em had track mu _ _ out _ _ nsel HP Hch Hpho Hne)|]. do 3 (split; [assumption|]). exact (once em had track mu _ _ out _ _ nsel HP Hch Hpho Hne).
Qed.
Lemma ref_budget : sums_fit em had track mu None true -> clean_empty track -> pfalgo3_full_ref mem nsel em had track mu = Ok out -> budget.
Proof.
  intros HO HC Hrun. unfold pfalgo3_full_ref in Hrun. rewrite (pfalgo3_full_ref_spec em had track mu true HP HO HC mem nsel Hn) in Hrun. injection Hrun as E. symmetry in E.
  assert (Hch : length (o_ch out) = length track /\ forall i tk, nth_error track i = Some tk -> exists c, nth_error (o_ch out) i = Some c /\ (0 < t_pt tk -> c = sp_ch em had track mu None true i tk) /\ (t_pt tk = 0 -> c_pt c = 0)).
  { rewrite E. cbn [o_ch]. split; [apply length_mapi|]. intros i tk Hi. eexists. rewrite nth_error_mapi, Hi. split; [reflexivity|]. unfold ref_ch. destruct (Z.eqb_spec (t_pt tk) 0); split; try reflexivity; intros; lia. }
  assert (Hpho : o_pho out = mapi (sp_pho em track mu (fun k => n_puppi (old_outpho mem k))) em) by (rewrite E; reflexivity).
  assert (Hne : o_ne out = firstn nsel (sorted_cands n_pt (mapi (sp_ne em had track mu None true (fun h => n_puppi (junk_ne_all mem h))) had))) by (rewrite E; reflexivity).
  destruct (totals em had track mu _ _ out _ _ nsel HP Hch Hpho Hne) as (T1 & T2 & T3).
  split; [exact (accounted_spec em had track mu _ _ out _ _ nsel HP Hch Hpho Hne)|]. do 3 (split; [assumption|]). exact (once em had track mu _ _ out _ _ nsel HP Hch Hpho Hne).
Qed.
End both.
