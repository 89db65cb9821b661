(** C102: the muons of the chain. *)
From Coq Require Import Permutation.
From Verif Require Import Base BaseFacts TabFacts MapiFacts SortFacts SortProofs Data PFHw PFRef SpecPF SpecPFRef SpecPFWrap SpecOut SpecLink LinkFacts PFProofs SpecSort
  Regionizer SpecRegion RegionFacts RegionLoops RegionProofs RegionFinal RegionMuonProps RegTest RegTestRun RegTestOk SpecChain ChainProofs ChainKept SpecChainMuon Props_PFRef Props_PFWrap.

Lemma tk_slot_at c e tk ie ip j f t : complete c e -> (ie < 3)%nat -> (ip < 6)%nat -> (j < 3)%nat -> (f < 2)%nat -> tk_reference c e tk ->
  let s := region_sector ip j in
  In t (firstn 10 (nth (2 * s + f) (ev_tk e) [])) -> 0 < t_pt t -> slice_lo ie <= t_eta t <= slice_hi ie -> -392 <= t_phi t <= 391 ->
  In (mkTk (t_pt t) (t_pterr t) (t_eta t - slice_centre ie) (t_phi t + 120 * (Z.of_nat j - 1)) (t_z0 t) (t_tight t)) (nth (6 * ie + ip) tk []) \/
  (9 < length (as_hard e s ie t))%nat \/ (forall u, In u (nth (6 * ie + ip) tk []) -> t_pt t <= t_pt u).
Proof.
  intros (_ & _ & C & _) He Hp Hj Hf (w & g & o & rest & st & W & G & E & ->) s Ht P S Hphi. destruct (fib_len _ _ r_of_tk _ C) as [L1 L2].
  destruct (c40 tk_d 20 9 (NTRACK c) 2 w (map (map r_of_tk) (ev_tk e)) g W G L1 L2) as (out & r' & s' & E' & K). unfold regionize_track_ref in E.
  change NTRACK_PER_SECTOR with 20%nat in E. change NTRACK_PER_SECTOR_PER_ETA with 9%nat in E. rewrite E in E'. assert (o = out) by congruence. subst out. clear E E'.
  change (20 / 2)%nat with 10%nat in K.
  assert (Hs : (s < 12)%nat) by (apply Nat.mod_upper_bound; lia).
  assert (PM : Permutation (arrivals 2 10 (map (map r_of_tk) (ev_tk e)) s) (map r_of_tk (sector_tracks e s))).
  { etransitivity; [apply arrivals_two|]. rewrite !nth_mm. unfold sector_tracks. rewrite map_app, !firstn_map. reflexivity. }
  assert (Hx : In (r_of_tk t) (arrivals 2 10 (map (map r_of_tk) (ev_tk e)) s)).
  { eapply Permutation_in; [apply Permutation_sym, PM|]. apply in_map. unfold sector_tracks. apply in_or_app. assert (f = 0 \/ f = 1)%nat as [->| ->] by lia; [left; rewrite Nat.add_0_r in Ht; exact Ht|right; exact Ht]. }
  assert (Sl : in_slice ie (r_of_tk t) = true) by (unfold in_slice; cbn [r_of_tk r_eta]; apply andb_true_intro; split; apply Z.leb_le; lia).
  assert (B : -342 <= t_eta t <= 342) by (destruct ie as [|[|?]]; cbn in S; lia).
  destruct (K s (r_of_tk t) Hs Hx P B) as (_ & K2). specialize (K2 ie ip j He Hp Hj eq_refl Sl). cbn zeta in K2. destruct K2 as [K2|[K2|[_ K2]]].
  - left. rewrite nth_mm. apply in_map_iff. eexists. split; [|exact K2]. unfold tk_of_r, local_phi, local_eta, r_of_tk. cbn [r_pt r_eta r_phi r_rest fst snd]. rewrite wrapS_id by (unfold inS; lia). reflexivity.
  - right; left. rewrite (filter_perm _ _ _ PM), filter_map_len in K2. unfold as_hard. erewrite filter_ext; [exact K2|]. intros u. cbn [r_of_tk r_pt in_slice r_eta]. unfold in_slice. cbn. rewrite andb_assoc. reflexivity.
  - right; right. intros u Hu. rewrite nth_mm in Hu. apply in_map_iff in Hu as (y & <- & Hy). exact (K2 y Hy).
Qed.

Lemma firstn_in {T} n (l : list T) x : In x (firstn n l) -> In x l.
Proof. intros H. rewrite <- (firstn_skipn n l). apply in_or_app. left. exact H. Qed.
(** the muons of a region, both ways *)
Lemma mu_slot c e mu ie ip : complete c e -> everywhere (fun u => 0 < m_pt u -> -180 < m_phi u <= 180) (ev_mu e) -> mu_reference c e mu -> (ie < 3)%nat -> (ip < 6)%nat ->
  (forall v, In v (nth (6 * ie + ip) mu []) -> 0 < m_pt v ->
     exists m u, on_muon_fibre c e ie m u /\ m_pt v = m_pt u /\ m_eta v = m_eta u - slice_centre ie /\ m_phi v = muon_local ip m (m_phi u)) /\
  (forall m u, on_muon_fibre c e ie m u -> -180 < muon_local ip m (m_phi u) <= 180 ->
     (exists v, In v (nth (6 * ie + ip) mu []) /\ m_pt v = m_pt u /\ m_eta v = m_eta u - slice_centre ie /\ m_phi v = muon_local ip m (m_phi u)) \/
     (forall v, In v (nth (6 * ie + ip) mu []) -> m_pt u <= m_pt v)).
Proof.
  intros (_ & _ & _ & C) V (w & g & o & rest & st & W & G & E & ->) He Hp. destruct (fib_len _ _ r_of_mu _ C) as [L1 L2].
  assert (V' : forall fib x, In fib (map (map r_of_mu) (ev_mu e)) -> In x (firstn (NMU c) fib) -> 0 < r_pt x -> -180 < r_phi x <= 180).
  { intros fib x Hf Hx. apply in_map_iff in Hf as (b & <- & Hb). rewrite firstn_map in Hx. apply in_map_iff in Hx as (u & <- & Hu). apply firstn_in in Hu. unfold everywhere in V. rewrite Forall_forall in V. specialize (V b Hb). rewrite Forall_forall in V. exact (V u Hu). }
  destruct (muon_regions 0 (NMU c) w (map (map r_of_mu) (ev_mu e)) g W G L1 L2 V') as (out & s' & E' & _ & K). rewrite E in E'. assert (o = out) by congruence. subst out.
  destruct (K ie ip He Hp) as (_ & K1 & K2). rewrite nth_mm. split.
  - intros v Hv P. apply in_map_iff in Hv as (x & <- & Hx). destruct (K1 x Hx P) as (m & y & Hm & Hy & Sy & Q1 & Q2 & Q3 & Q4 & Q5). rewrite nth_mm, firstn_map in Hy. apply in_map_iff in Hy as (u & <- & Hu).
    cbn [r_of_mu r_pt r_eta r_phi mu_of_r m_pt m_eta m_phi] in *. exists m, u. unfold in_slice in Sy. cbn [r_of_mu r_eta] in Sy. split; [split; [exact Hm|]; split; [exact Hu|]; split; [lia|]; lia|].
    split; [exact Q1|]. unfold region_eta in Q3. split; [lia|]. unfold region_phi, muon_phi, sector_phi in Q4. unfold muon_local. cbn zeta. destruct (Z.leb_spec ((m_phi u + 120 * (Z.of_nat (3 * m + 1) - Z.of_nat (2 * ip + 1))) mod 1440) 720); lia.
  - intros m u (Hm & Hu & P & S) Hq. assert (Hin : In (r_of_mu u) (firstn (NMU c) (nth m (map (map r_of_mu) (ev_mu e)) []))) by (rewrite nth_mm, firstn_map; apply in_map; exact Hu).
    assert (Sl : in_slice ie (r_of_mu u) = true) by (unfold in_slice; cbn [r_of_mu r_eta]; apply andb_true_intro; split; apply Z.leb_le; lia).
    destruct (K2 m (r_of_mu u) Hm Hin P Sl Hq) as [K3|[_ K3]].
    + left. eexists. split; [apply in_map; exact K3|]. repeat split.
    + right. intros v Hv. apply in_map_iff in Hv as (x & <- & Hx). exact (K3 x Hx).
Qed.

(** a muon candidate of one region *)
Lemma muon_found em had track mu mem nsel o v i t : phys em had track mu -> (nsel <= length had)%nat -> pfalgo3_full mem nsel em had track mu = Ok o \/ pfalgo3_full_ref mem nsel em had track mu = Ok o ->
  In v mu -> mu_match track v = Some i -> nth_error track i = Some t -> let x := mkCh (t_pt t) (t_eta t) (t_phi t) PID_Muon (t_z0 t) in In x (o_mu o) /\ In x (o_ch o).
Proof.
  intros P N E Hv M Ht x. assert (X : sp_mu track v = x) by (unfold sp_mu; rewrite M, Ht; reflexivity).
  assert (I : is_mu track mu i = true) by (unfold is_mu; apply existsb_exists; exists v; split; [exact Hv|]; rewrite M; cbn; apply Nat.eqb_refl).
  destruct E as [E|E].
  - destruct (C72_result _ _ _ _ _ _ _ P N E) as (R1 & _ & _ & R4). split; [rewrite R4, <- X; apply in_map; exact Hv|]. rewrite R1. apply in_mapi. exists i, t. split; [exact Ht|].
    unfold sp_ch_w, ch_kept_w. rewrite I. cbn [orb]. assert (is_ele_w em track mu i t = false) as -> by (unfold is_ele_w, em_match; rewrite I; reflexivity). reflexivity.
  - destruct (C73_result _ _ _ _ _ _ _ P N E) as (R1 & _ & _ & R4). split; [rewrite R4, <- X; apply in_map; exact Hv|]. rewrite R1. apply in_mapi. exists i, t. split; [exact Ht|].
    unfold sp_ch_r, ch_kept_r. rewrite I. cbn [orb]. assert (is_ele_r em track mu i t = false) as -> by (unfold is_ele_r, em_match; rewrite I; reflexivity). rewrite andb_false_r. reflexivity.
Qed.
Lemma mu_of em had track mu mem nsel o x : phys em had track mu -> (nsel <= length had)%nat -> pfalgo3_full mem nsel em had track mu = Ok o \/ pfalgo3_full_ref mem nsel em had track mu = Ok o ->
  In x (o_mu o) -> c_pt x <> 0 -> exists v i t, In v mu /\ mu_match track v = Some i /\ nth_error track i = Some t /\ x = mkCh (t_pt t) (t_eta t) (t_phi t) PID_Muon (t_z0 t).
Proof.
  intros P N E Hx Z. assert (R : o_mu o = map (sp_mu track) mu) by (destruct E as [E|E]; [destruct (C72_result _ _ _ _ _ _ _ P N E) as (_ & _ & _ & R)|destruct (C73_result _ _ _ _ _ _ _ P N E) as (_ & _ & _ & R)]; exact R).
  rewrite R in Hx. apply in_map_iff in Hx as (v & <- & Hv). unfold sp_mu in *. destruct (mu_match track v) as [i|] eqn:M; [|cbn in Z; lia]. destruct (nth_error track i) as [t|] eqn:T; [|cbn in Z; lia].
  exists v, i, t. repeat split; assumption.
Qed.
Lemma match_near track v i t : mu_match track v = Some i -> nth_error track i = Some t -> 0 < m_pt v /\ dist2 (m_eta v) (m_phi v) (t_eta t) (t_phi t) < 2101 /\ Z.abs (t_pt t - m_pt v) < m_pt v / 2 /\
  forall u, In u track -> dist2 (m_eta v) (m_phi v) (t_eta u) (t_phi u) < 2101 -> Z.abs (t_pt u - m_pt v) < m_pt v / 2 -> Z.abs (t_pt t - m_pt v) <= Z.abs (t_pt u - m_pt v).
Proof.
  intros M T. apply mu_match_spec in M as (P & w & A & B). split; [exact P|]. unfold cand_mu_tk in *. rewrite nth_error_map, T in A. cbn [option_map] in A. unfold cand_if in A.
  destruct ((_ <? 2101) && _) eqn:Q in A; [|discriminate]. injection A as <-. apply andb_prop in Q as [Q1 Q2]. apply Z.ltb_lt in Q1, Q2. split; [exact Q1|]. split; [exact Q2|].
  intros u Hu D1 D2. apply In_nth_error in Hu as (k & Hk). specialize (B k (Z.abs (t_pt u - m_pt v))). rewrite nth_error_map, Hk in B. cbn [option_map] in B. unfold cand_if in B.
  apply Z.ltb_lt in D1, D2. rewrite D1, D2 in B. specialize (B eq_refl). lia.
Qed.
Lemma match_exists track v u : 0 < m_pt v -> In u track -> dist2 (m_eta v) (m_phi v) (t_eta u) (t_phi u) < 2101 -> Z.abs (t_pt u - m_pt v) < m_pt v / 2 ->
  exists i t, mu_match track v = Some i /\ nth_error track i = Some t.
Proof.
  intros P Hu D1 D2. apply In_nth_error in Hu as (k & Hk). unfold mu_match. apply Z.ltb_lt in P. rewrite P. destruct (best (cand_mu_tk track v)) as [i|] eqn:B.
  - pose proof (best_lt _ _ B) as L. unfold cand_mu_tk in L. rewrite map_length in L. destruct (nth_error track i) as [t|] eqn:T; [exists i, t; split; [reflexivity|exact T]|]. apply nth_error_None in T. lia.
  - apply best_None in B. exfalso. apply B. exists k. eexists. unfold cand_mu_tk. rewrite nth_error_map, Hk. cbn [option_map]. unfold cand_if. apply Z.ltb_lt in D1, D2. rewrite D1, D2. reflexivity.
Qed.
Lemma dist_shift a b c d k : dist2 (a - k) b c d = dist2 a b (c + k) d.
Proof. unfold dist2. replace (a - k - c) with (a - (c + k)) by lia. reflexivity. Qed.

Lemma c102_origin c e had em tk mu ie ip mem o x : (NSELCALO c <= NCALO c)%nat -> complete c e -> in_range e ->
  everywhere (fun t => -392 <= t_phi t <= 391) (ev_tk e) -> everywhere (fun u => 0 < m_pt u -> -180 < m_phi u <= 180) (ev_mu e) ->
  had_reference c e had -> other_regions c e em tk mu -> (ie < 3)%nat -> (ip < 6)%nat ->
  let r := (6 * ie + ip)%nat in
  pfalgo3_full mem (NSELCALO c) (nth r em []) (nth r had []) (nth r tk []) (nth r mu []) = Ok o \/
  pfalgo3_full_ref mem (NSELCALO c) (nth r em []) (nth r had []) (nth r tk []) (nth r mu []) = Ok o ->
  In x (o_mu o) -> c_pt x <> 0 ->
  In x (o_ch o) /\ c_id x = PID_Muon /\ from_track e ie ip x /\ exists m u, on_muon_fibre c e ie m u /\ near_muon ie ip m u x.
Proof.
  intros N C R HP V H O He Hp r E Hx Z. assert (Hr : (r < 18)%nat) by (unfold r; lia). destruct (c98_legal c e had em tk mu r C R H O Hr) as (P & _ & L & _).
  destruct (mu_of _ _ _ _ mem (NSELCALO c) o x P ltac:(lia) E Hx Z) as (v & i & t & Hv & M & T & ->).
  destruct (muon_found _ _ _ _ mem (NSELCALO c) o v i t P ltac:(lia) E Hv M T) as [_ X]. split; [exact X|]. split; [reflexivity|].
  split; [exact (proj2 (c98_charged c e had em tk mu ie ip mem o _ N C R HP H O He Hp E (in_or_app _ _ _ (or_introl X)) Z))|].
  destruct (match_near _ _ _ _ M T) as (Pv & D1 & D2 & _). destruct (mu_slot c e mu ie ip C V (proj2 (proj2 O)) He Hp) as [K _]. destruct (K v Hv Pv) as (m & u & F & Q1 & Q2 & Q3).
  exists m, u. split; [exact F|]. unfold near_muon. cbn [c_eta c_phi c_pt]. rewrite <- Q1, <- Q3. split; [|exact D2]. unfold region_eta. rewrite <- dist_shift, <- Q2. exact D1.
Qed.
Lemma c102_kept c e had em tk mu ie ip j f m mem o t u : (NSELCALO c <= NCALO c)%nat -> complete c e -> in_range e ->
  everywhere (fun u => 0 < m_pt u -> -180 < m_phi u <= 180) (ev_mu e) -> had_reference c e had -> other_regions c e em tk mu -> (ie < 3)%nat -> (ip < 6)%nat -> (j < 3)%nat -> (f < 2)%nat ->
  let r := (6 * ie + ip)%nat in let s := region_sector ip j in
  pfalgo3_full mem (NSELCALO c) (nth r em []) (nth r had []) (nth r tk []) (nth r mu []) = Ok o \/
  pfalgo3_full_ref mem (NSELCALO c) (nth r em []) (nth r had []) (nth r tk []) (nth r mu []) = Ok o ->
  on_muon_fibre c e ie m u -> -180 < muon_local ip m (m_phi u) <= 180 ->
  In t (firstn 10 (nth (2 * s + f) (ev_tk e) [])) -> 0 < t_pt t -> slice_lo ie <= t_eta t <= slice_hi ie -> -392 <= t_phi t <= 391 -> track_near_muon ip j m u t ->
  (exists x, In x (o_mu o) /\ In x (o_ch o) /\ c_id x = PID_Muon /\ near_muon ie ip m u x /\ Z.abs (c_pt x - m_pt u) <= Z.abs (t_pt t - m_pt u)) \/
  (9 < length (as_hard e s ie t))%nat \/ (forall u, In u (nth r tk []) -> t_pt t <= t_pt u) \/ (forall v, In v (nth r mu []) -> m_pt u <= m_pt v).
Proof.
  intros N C R V H O He Hp Hj Hf r s E F Hq Ht P S Hphi [D1 D2]. assert (Hr : (r < 18)%nat) by (unfold r; lia). destruct (c98_legal c e had em tk mu r C R H O Hr) as (PH & _ & L & _).
  destruct (tk_slot_at c e tk ie ip j f t C He Hp Hj Hf (proj1 (proj2 O)) Ht P S Hphi) as [Kt|[Kt|Kt]]; [|right; left; exact Kt|right; right; left; exact Kt].
  destruct (mu_slot c e mu ie ip C V (proj2 (proj2 O)) He Hp) as [_ K]. destruct (K m u F Hq) as [(v & Hv & Q1 & Q2 & Q3)|Kv]; [|right; right; right; exact Kv]. left.
  set (t' := mkTk _ _ _ _ _ _) in Kt. assert (Pv : 0 < m_pt v) by (rewrite Q1; apply F).
  assert (B1 : dist2 (m_eta v) (m_phi v) (t_eta t') (t_phi t') < 2101) by (rewrite Q2, Q3, dist_shift; cbn [t' t_eta t_phi]; replace (t_eta t - slice_centre ie + slice_centre ie) with (t_eta t) by lia; exact D1).
  assert (B2 : Z.abs (t_pt t' - m_pt v) < m_pt v / 2) by (rewrite Q1; exact D2).
  destruct (match_exists _ v t' Pv Kt B1 B2) as (i & y & M & Y). destruct (match_near _ _ _ _ M Y) as (_ & G1 & G2 & G3).
  destruct (muon_found _ _ _ _ mem (NSELCALO c) o v i y PH ltac:(lia) E Hv M Y) as [X1 X2]. eexists. split; [exact X1|]. split; [exact X2|]. split; [reflexivity|]. cbn [c_pt]. split.
  - unfold near_muon. cbn [c_eta c_phi c_pt]. rewrite <- Q1, <- Q3. split; [|exact G2]. unfold region_eta. rewrite <- dist_shift, <- Q2. exact G1.
  - specialize (G3 t' Kt B1 B2). rewrite Q1 in G3. exact G3.
Qed.
