(** C99: which tracks become candidates. *)
From Coq Require Import Permutation.
From Verif Require Import Base BaseFacts TabFacts MapiFacts SortFacts SortProofs Data PFHw PFRef SpecPF SpecPFRef SpecPFWrap SpecOut SpecLink LinkFacts SpecSort
  Regionizer SpecRegion RegionFacts RegionLoops RegionProofs RegionFinal RegTest RegTestRun RegTestOk SpecChain ChainProofs Props_PFRef Props_PFWrap.

Lemma firstn_one {T} (l : list T) n : firstn (n + 1) l = firstn n l ++ match nth_error l n with Some x => [x] | None => [] end.
Proof. revert n. induction l as [|a l IH]; intros [|n]; cbn; [reflexivity..|]. rewrite <- IH. reflexivity. Qed.

Lemma arrivals_two A cnt (fibers : list (list (robj A))) s : Permutation (arrivals 2 cnt fibers s) (firstn cnt (nth (2 * s) fibers []) ++ firstn cnt (nth (2 * s + 1) fibers [])).
Proof.
  induction cnt as [|n IH]; [reflexivity|]. replace (S n) with (n + 1)%nat by lia. rewrite arrivals_S, !firstn_one. cbn [seq flat_map]. unfold entry. rewrite Nat.add_0_r, app_nil_r.
  etransitivity; [apply Permutation_app_tail; exact IH|]. rewrite <- !app_assoc. apply Permutation_app_head. rewrite !app_assoc. apply Permutation_app_tail. apply Permutation_app_comm.
Qed.
Lemma filter_perm {T} (f : T -> bool) l l' : Permutation l l' -> length (filter f l) = length (filter f l').
Proof. induction 1; cbn; repeat match goal with |- context [f ?x] => destruct (f x) end; cbn; congruence. Qed.
Lemma filter_map_len {S T} (f : T -> bool) (g : S -> T) l : length (filter f (map g l)) = length (filter (fun x => f (g x)) l).
Proof. induction l as [|a l IH]; cbn; [reflexivity|]. destruct (f (g a)); cbn; congruence. Qed.

Lemma tk_slot c e tk ie ip j f t : complete c e -> (ie < 3)%nat -> (ip < 6)%nat -> (j < 3)%nat -> (f < 2)%nat -> tk_reference c e tk ->
  let s := region_sector ip j in
  In t (firstn 10 (nth (2 * s + f) (ev_tk e) [])) -> 0 < t_pt t -> slice_lo ie <= t_eta t <= slice_hi ie -> -392 <= t_phi t <= 391 ->
  (exists u, In u (nth (6 * ie + ip) tk []) /\ t_pt u = t_pt t /\ t_z0 u = t_z0 t /\ t_tight u = t_tight t /\ t_pterr u = t_pterr t /\ region_eta ie (t_eta u) = t_eta t /\ region_phi ip (t_phi u) = sector_phi s (t_phi t)) \/
  (9 < length (as_hard e s ie t))%nat \/ (forall u, In u (nth (6 * ie + ip) tk []) -> t_pt t <= t_pt u).
Proof.
  intros (_ & _ & C & _) He Hp Hj Hf (w & g & o & rest & st & W & G & E & ->) s Ht P S Hphi. destruct (fib_len _ _ r_of_tk _ C) as [L1 L2].
  destruct (c40 tk_d 20 9 (NTRACK c) 2 w (map (map r_of_tk) (ev_tk e)) g W G L1 L2) as (out & r' & s' & E' & K). unfold regionize_track_ref in E.
  change NTRACK_PER_SECTOR with 20%nat in E. change NTRACK_PER_SECTOR_PER_ETA with 9%nat in E. rewrite E in E'. assert (o = out) by congruence. subst out. clear E E'.
  change (20 / 2)%nat with 10%nat in K.
  assert (Hs : (s < 12)%nat) by (apply Nat.mod_upper_bound; lia).
  assert (PM : Permutation (arrivals 2 10 (map (map r_of_tk) (ev_tk e)) s) (map r_of_tk (sector_tracks e s))).
  { etransitivity; [apply arrivals_two|]. rewrite !nth_mm. unfold sector_tracks. rewrite map_app, !firstn_map. reflexivity. }
  assert (Hx : In (r_of_tk t) (arrivals 2 10 (map (map r_of_tk) (ev_tk e)) s)).
  { eapply Permutation_in; [apply Permutation_sym, PM|]. apply in_map. unfold sector_tracks. apply in_or_app. assert (f = 0 \/ f = 1)%nat as [->| ->] by lia; [left; rewrite Nat.add_0_r in Ht; exact Ht|right; exact Ht]. }
  assert (Sl : in_slice ie (r_of_tk t) = true) by (unfold in_slice; cbn [r_of_tk r_eta]; apply andb_true_intro; split; apply Z.leb_le; lia).
  assert (B : -342 <= t_eta t <= 342) by (destruct ie as [|[|?]]; cbn in S; lia).
  destruct (K s (r_of_tk t) Hs Hx P B) as (_ & K2). specialize (K2 ie ip j He Hp Hj eq_refl Sl). cbn zeta in K2. destruct K2 as [K2|[K2|[_ K2]]].
  - left. exists (tk_of_r (local_phi j (local_eta ie (r_of_tk t)))). split; [rewrite nth_mm; apply in_map; exact K2|]. repeat (split; [reflexivity|]).
    destruct (local_coordinates ip ie j (r_of_tk t) Hp Hj Hphi) as [Q1 Q2]. split; [exact Q2|exact Q1].
  - right; left. rewrite (filter_perm _ _ _ PM), filter_map_len in K2. unfold as_hard. erewrite filter_ext; [exact K2|]. intros u. cbn [r_of_tk r_pt in_slice r_eta]. unfold in_slice. cbn. rewrite andb_assoc. reflexivity.
  - right; right. intros u Hu. rewrite nth_mm in Hu. apply in_map_iff in Hu as (y & <- & Hy). exact (K2 y Hy).
Qed.

Lemma ch_soft em had track mu mem nsel o t : phys em had track mu -> (nsel <= length had)%nat -> pfalgo3_full mem nsel em had track mu = Ok o \/ pfalgo3_full_ref mem nsel em had track mu = Ok o ->
  In t track -> t_pt t < (if t_tight t then 80 else 40) -> exists x, In x (o_ch o) /\ c_pt x = t_pt t /\ c_eta x = t_eta t /\ c_phi x = t_phi t /\ c_z0 x = t_z0 t.
Proof.
  intros P N E Ht K. apply In_nth_error in Ht as (i & Hi). apply Z.ltb_lt in K. destruct E as [E|E].
  - destruct (C72_result _ _ _ _ _ _ _ P N E) as (R1 & _). exists (sp_ch_w em had track mu i t). split; [rewrite R1; apply nth_error_In with (n := i); rewrite nth_error_mapi, Hi; reflexivity|].
    unfold sp_ch_w, ch_kept_w. rewrite K, orb_true_r. cbn. repeat split.
  - destruct (C73_result _ _ _ _ _ _ _ P N E) as (R1 & _). exists (sp_ch_r em had track mu true i t). split; [rewrite R1; apply nth_error_In with (n := i); rewrite nth_error_mapi, Hi; reflexivity|].
    unfold sp_ch_r, ch_kept_r. rewrite K, orb_true_r. cbn. repeat split.
Qed.

Lemma c99_soft c e had em tk mu ie ip j f mem o t : (NSELCALO c <= NCALO c)%nat -> complete c e -> in_range e -> had_reference c e had -> other_regions c e em tk mu ->
  (ie < 3)%nat -> (ip < 6)%nat -> (j < 3)%nat -> (f < 2)%nat ->
  let r := (6 * ie + ip)%nat in let s := region_sector ip j in
  In t (firstn 10 (nth (2 * s + f) (ev_tk e) [])) -> 0 < t_pt t < (if t_tight t then 80 else 40) -> slice_lo ie <= t_eta t <= slice_hi ie -> -392 <= t_phi t <= 391 ->
  pfalgo3_full mem (NSELCALO c) (nth r em []) (nth r had []) (nth r tk []) (nth r mu []) = Ok o \/
  pfalgo3_full_ref mem (NSELCALO c) (nth r em []) (nth r had []) (nth r tk []) (nth r mu []) = Ok o ->
  (exists x, In x (o_ch o) /\ is_track ie ip s t x) \/
  (9 < length (as_hard e s ie t))%nat \/ (forall u, In u (nth r tk []) -> t_pt t <= t_pt u).
Proof.
  intros N C R H O He Hp Hj Hf r s Ht P S Hphi E. assert (Hr : (r < 18)%nat) by (unfold r; lia). destruct (c98_legal c e had em tk mu r C R H O Hr) as (PH & _ & L & _).
  destruct (tk_slot c e tk ie ip j f t C He Hp Hj Hf (proj1 (proj2 O)) Ht (proj1 P) S Hphi) as [(u & Hu & U1 & U2 & U3 & _ & U4 & U5)|K]; [left|right; exact K].
  destruct (ch_soft _ _ _ _ mem (NSELCALO c) o u PH ltac:(lia) E Hu ltac:(rewrite U1, U3; lia)) as (x & Hx & X1 & X2 & X3 & X4).
  exists x. split; [exact Hx|]. unfold is_track. rewrite X1, X2, X3, X4. repeat (split; [assumption|]). assumption.
Qed.

(** ** clusters *)
Lemma slot1 {A} (d : A) nobj nsec nreg w fibers g o rest st ie ip j x : dims3 12 3 nsec w -> dims2 18 nreg g -> length fibers = 12%nat -> (forall fib, In fib fibers -> (nobj <= length fib)%nat) ->
  regionize_ref d nobj nsec nreg 1 w fibers g = Ok (o, rest, st) -> (ie < 3)%nat -> (ip < 6)%nat -> (j < 3)%nat ->
  let s := region_sector ip j in
  In x (firstn nobj (nth s fibers [])) -> 0 < r_pt x -> in_slice ie x = true ->
  In (local_phi j (local_eta ie x)) (nth (6 * ie + ip) o []) \/
  (nsec < length (filter (fun y => (r_pt x <=? r_pt y)%Z && in_slice ie y) (firstn nobj (nth s fibers []))))%nat \/
  (forall y, In y (nth (6 * ie + ip) o []) -> r_pt x <= r_pt y).
Proof.
  intros W G L1 L2 E He Hp Hj s Hx P Sl. pose proof (c40 d nobj nsec nreg 1 w fibers g W G L1) as H. rewrite Nat.div_1_r in H.
  destruct (H L2) as (out & r' & s' & E' & K). rewrite E in E'. assert (o = out) by congruence. subst out. clear E E' H.
  assert (Hs : (s < 12)%nat) by (apply Nat.mod_upper_bound; lia). assert (B : -342 <= r_eta x <= 342) by (unfold in_slice in Sl; destruct ie as [|[|?]]; cbn in Sl; lia).
  rewrite <- arrivals_one in Hx. destruct (K s x Hs Hx P B) as (_ & K2). specialize (K2 ie ip j He Hp Hj eq_refl Sl). cbn zeta in K2. rewrite arrivals_one in K2.
  destruct K2 as [K2|[K2|[_ K2]]]; [left; exact K2|right; left; exact K2|right; right; exact K2].
Qed.
Lemma slice_true {A} ie (x : robj A) : slice_lo ie <= r_eta x <= slice_hi ie -> in_slice ie x = true.
Proof. intros S. unfold in_slice. apply andb_true_intro. split; apply Z.leb_le; lia. Qed.

Lemma em_slot c e em ie ip j u : complete c e -> (ie < 3)%nat -> (ip < 6)%nat -> (j < 3)%nat -> em_reference c e em ->
  let s := region_sector ip j in
  In u (firstn 12 (nth s (ev_em e) [])) -> 0 < e_pt u -> slice_lo ie <= e_eta u <= slice_hi ie -> -392 <= e_phi u <= 391 ->
  In (mkEm (e_pt u) (e_pterr u) (e_eta u - slice_centre ie) (e_phi u + 120 * (Z.of_nat j - 1))) (nth (6 * ie + ip) em []) \/
  (7 < length (em_as_hard e s ie u))%nat \/ (forall v, In v (nth (6 * ie + ip) em []) -> e_pt u <= e_pt v).
Proof.
  intros (_ & C & _) He Hp Hj (w & g & o & rest & st & W & G & E & ->) s Hu P S Hphi. destruct (fib_len _ _ r_of_em _ C) as [L1 L2].
  destruct (slot1 0 12 7 (NEMCALO c) w (map (map r_of_em) (ev_em e)) g o rest st ie ip j (r_of_em u) W G L1 L2 E He Hp Hj) as [K|[K|K]].
  - rewrite nth_mm, firstn_map. apply in_map. exact Hu.
  - exact P.
  - apply slice_true. exact S.
  - left. rewrite nth_mm. apply in_map_iff. exists (local_phi j (local_eta ie (r_of_em u))). split; [|exact K]. unfold em_of_r, local_phi, local_eta, r_of_em. cbn [r_pt r_eta r_phi r_rest]. rewrite wrapS_id by (unfold inS; lia). reflexivity.
  - right; left. rewrite nth_mm, firstn_map, filter_map_len in K. unfold em_as_hard. erewrite filter_ext; [exact K|]. intros v. unfold in_slice. cbn. rewrite andb_assoc. reflexivity.
  - right; right. intros v Hv. rewrite nth_mm in Hv. apply in_map_iff in Hv as (y & <- & Hy). exact (K y Hy).
Qed.
Lemma had_slot c e had ie ip j u : complete c e -> (ie < 3)%nat -> (ip < 6)%nat -> (j < 3)%nat -> had_reference c e had ->
  let s := region_sector ip j in
  In u (firstn 15 (nth s (ev_had e) [])) -> 0 < h_pt u -> slice_lo ie <= h_eta u <= slice_hi ie -> -392 <= h_phi u <= 391 ->
  In (mkHad (h_pt u) (h_eta u - slice_centre ie) (h_phi u + 120 * (Z.of_nat j - 1)) (h_empt u) (h_isem u)) (nth (6 * ie + ip) had []) \/
  (7 < length (had_as_hard e s ie u))%nat \/ (forall v, In v (nth (6 * ie + ip) had []) -> h_pt u <= h_pt v).
Proof.
  intros (C & _) He Hp Hj (w & g & o & rest & st & W & G & E & ->) s Hu P S Hphi. destruct (fib_len _ _ r_of_had _ C) as [L1 L2].
  destruct (slot1 had_d 15 7 (NCALO c) w (map (map r_of_had) (ev_had e)) g o rest st ie ip j (r_of_had u) W G L1 L2 E He Hp Hj) as [K|[K|K]].
  - rewrite nth_mm, firstn_map. apply in_map. exact Hu.
  - exact P.
  - apply slice_true. exact S.
  - left. rewrite nth_mm. apply in_map_iff. exists (local_phi j (local_eta ie (r_of_had u))). split; [|exact K]. unfold had_of_r, local_phi, local_eta, r_of_had. cbn [r_pt r_eta r_phi r_rest fst snd]. rewrite wrapS_id by (unfold inS; lia). reflexivity.
  - right; left. rewrite nth_mm, firstn_map, filter_map_len in K. unfold had_as_hard. erewrite filter_ext; [exact K|]. intros v. unfold in_slice. cbn. rewrite andb_assoc. reflexivity.
  - right; right. intros v Hv. rewrite nth_mm in Hv. apply in_map_iff in Hv as (y & <- & Hy). exact (K y Hy).
Qed.
Lemma place ie ip j eta phi : (ip < 6)%nat -> (j < 3)%nat -> -392 <= phi <= 391 ->
  region_eta ie (eta - slice_centre ie) = eta /\ region_phi ip (phi + 120 * (Z.of_nat j - 1)) = sector_phi (region_sector ip j) phi.
Proof.
  intros Hp Hj Hphi. destruct (local_coordinates ip ie j (mkR 0 eta phi tt) Hp Hj Hphi) as [Q1 Q2]. cbn [local_phi local_eta r_phi r_eta] in Q1, Q2.
  rewrite wrapS_id in Q1 by (unfold inS; lia). split; assumption.
Qed.

Lemma sum_zero {T} (sel : nat -> T -> bool) f l : (forall i x, nth_error l i = Some x -> sel i x = true -> f x = 0) -> sum_where sel f l = 0.
Proof.
  revert sel. induction l as [|l0 x IH] using rev_ind; intros sel H; [reflexivity|]. rewrite sum_where_snoc. rewrite IH.
  - destruct (sel (length x) l0) eqn:E; [|reflexivity]. rewrite (H (length x) l0); [reflexivity| |exact E]. rewrite nth_error_app2, Nat.sub_diag by lia. reflexivity.
  - intros i y Hi. apply H. rewrite nth_error_app1; [exact Hi|]. apply nth_error_Some. congruence.
Qed.

(** ** isolated clusters in particle flow *)
Section alone.
Variables (em : list EmCalo) (had : list HadCalo) (track : list Tk) (mu : list Mu).
Hypothesis P : phys em had track mu.
Lemma track_nn t : In t track -> 0 <= t_pt t.
Proof. destruct P as (_ & _ & P3 & _). rewrite Forall_forall in P3. intros H. destruct (P3 t H) as (_ & Q & _). exact Q. Qed.
Lemma em_nn v : In v em -> 0 <= e_pt v.
Proof. destruct P as (P1 & _). rewrite Forall_forall in P1. intros H. destruct (P1 v H) as (_ & Q & _). exact Q. Qed.
Lemma alone_tksum k v : nth_error em k = Some v -> (forall t, In t track -> 0 < t_pt t -> 84 <= dist2 (t_eta t) (t_phi t) (e_eta v) (e_phi v)) -> em_tksum em track mu k = 0.
Proof.
  intros Hk Al. apply sum_zero. intros i t Ht. unfold opt_is, em_match. destruct (is_mu track mu i); [discriminate|]. destruct (best (cand_tk_em em t)) as [k'|] eqn:B; [|discriminate].
  intros K. apply Nat.eqb_eq in K. subst k'. apply best_spec in B as (d & Ed & _). unfold cand_tk_em in Ed. rewrite nth_error_map, Hk in Ed. cbn [option_map] in Ed. injection Ed as Ed.
  apply nth_error_In in Ht. pose proof (track_nn t Ht). destruct (Z.eq_dec (t_pt t) 0); [assumption|]. specialize (Al t Ht ltac:(lia)).
  unfold cand_if in Ed. destruct (Z.ltb_spec (dist2 (t_eta t) (t_phi t) (e_eta v) (e_phi v)) 84); [lia|discriminate].
Qed.
Lemma alone_photon mem nsel o v : (nsel <= length had)%nat -> pfalgo3_full mem nsel em had track mu = Ok o \/ pfalgo3_full_ref mem nsel em had track mu = Ok o ->
  In v em -> 0 < e_pt v -> (forall t, In t track -> 0 < t_pt t -> 84 <= dist2 (t_eta t) (t_phi t) (e_eta v) (e_phi v)) ->
  exists x, In x (o_pho o) /\ n_pt x = e_pt v /\ n_id x = PID_Photon /\ n_eta x = e_eta v /\ n_phi x = e_phi v.
Proof.
  intros N E Hv Pv Al. apply In_nth_error in Hv as (k & Hk). pose proof (alone_tksum k v Hk Al) as S.
  assert (G : forall pup, exists x, ne_obj (e_pt v) (e_eta v) (e_phi v) PID_Photon pup = x /\ n_pt x = e_pt v /\ n_id x = PID_Photon /\ n_eta x = e_eta v /\ n_phi x = e_phi v).
  { intros pup. eexists. split; [reflexivity|]. unfold ne_obj. destruct (Z.eqb_spec (e_pt v) 0); [lia|]. repeat split. }
  destruct E as [E|E].
  - destruct (C72_result _ _ _ _ _ _ _ P N E) as (_ & R & _). destruct (G (n_puppi (old_outpho mem k))) as (x & <- & X). eexists. split; [|exact X].
    rewrite R. apply nth_error_In with (n := k). rewrite nth_error_mapi, Hk. cbn [option_map]. unfold sp_pho_w, em_tksum_w. rewrite S. reflexivity.
  - destruct (C73_result _ _ _ _ _ _ _ P N E) as (_ & R & _). destruct (G (n_puppi (old_outpho mem k))) as (x & <- & X). eexists. split; [|exact X].
    rewrite R. apply nth_error_In with (n := k). rewrite nth_error_mapi, Hk. cbn [option_map]. unfold sp_pho_r, em_tksum_r. rewrite S. reflexivity.
Qed.

Section had1.
Variables (h : nat) (v : HadCalo).
Hypothesis Hh : nth_error had h = Some v.
Hypothesis Pv : 0 < h_pt v.
Hypothesis Em : h_isem v = false \/ 0 < h_empt v.
Hypothesis At : forall t, In t track -> 0 < t_pt t -> 756 <= dist2 (t_eta t) (t_phi t) (h_eta v) (h_phi v).
Hypothesis Ae : forall u, In u em -> 0 < e_pt u -> 525 <= dist2 (e_eta u) (e_phi u) (h_eta v) (h_phi v).
Lemma alone_em u k : nth_error em k = Some u -> opt_is (best (cand_em_had had u)) h = true -> e_pt u = 0.
Proof.
  intros Hk B. unfold opt_is in B. destruct (best (cand_em_had had u)) as [h'|] eqn:B'; [|discriminate]. apply Nat.eqb_eq in B. subst h'. apply best_spec in B' as (d & Ed & _).
  unfold cand_em_had in Ed. rewrite nth_error_map, Hh in Ed. cbn [option_map] in Ed. injection Ed as Ed. apply nth_error_In in Hk. pose proof (em_nn u Hk).
  destruct (Z.eq_dec (e_pt u) 0); [assumption|]. specialize (Ae u Hk ltac:(lia)). unfold cand_if in Ed.
  destruct (Z.ltb_spec (dist2 (e_eta u) (e_phi u) (h_eta v) (h_phi v)) 525); [lia|]. rewrite andb_false_r in Ed. discriminate.
Qed.
Lemma had_ok_v : h_pt v <= 32767 /\ 0 <= h_empt v <= 32767.
Proof. destruct P as (_ & P2 & _). rewrite Forall_forall in P2. destruct (P2 v (nth_error_In _ _ Hh)) as ((Q1 & Q2 & Q3 & Q4) & R). unfold inS in *. lia. Qed.
Lemma left_plain b : (if (w16 (h_pt v - 0) <=? h_pt v / 16) || (h_isem v && (w16 (h_empt v - 0) <=? h_empt v / 8) && b) then 0 else w16 (h_pt v - 0)) = h_pt v.
Proof.
  destruct had_ok_v as [B1 B2]. unfold w16. rewrite !Z.sub_0_r, !wrapS_id by (unfold inS; lia). destruct (Z.leb_spec (h_pt v) (h_pt v / 16)); [lia|]. cbn [orb].
  destruct (h_isem v); [|reflexivity]. destruct Em as [X|X]; [discriminate|]. destruct (Z.leb_spec (h_empt v) (h_empt v / 8)); [lia|]. reflexivity.
Qed.
Lemma alone_left_w : had_left_pt_w em had track mu h v = h_pt v.
Proof.
  unfold had_left_pt_w, had_emsum_w. rewrite sum_zero by (intros k u Hk S; apply andb_prop in S as [_ S]; exact (alone_em u k Hk S)). change (w16 0) with 0.
  rewrite <- (left_plain true) at 4. rewrite andb_true_r. reflexivity.
Qed.
Lemma alone_left_r : had_left_pt_r em had track mu true h v = h_pt v.
Proof.
  unfold had_left_pt_r, had_emsum_r. rewrite sum_zero by (intros k u Hk S; apply andb_prop in S as [_ S]; exact (alone_em u k Hk S)). change (w16 0) with 0. apply left_plain.
Qed.
Lemma alone_tk cap l t : nth_error l h = Some (mkHad (h_pt v) (h_eta v) (h_phi v) 0 false) -> In t track -> opt_is (best (cand_tk_had cap l t)) h = true -> t_pt t = 0.
Proof.
  intros Hl Ht B. unfold opt_is in B. destruct (best (cand_tk_had cap l t)) as [h'|] eqn:B'; [|discriminate]. apply Nat.eqb_eq in B. subst h'. apply best_spec in B' as (d & Ed & _).
  unfold cand_tk_had in Ed. rewrite nth_error_map, Hl in Ed. cbn [option_map h_eta h_phi h_pt] in Ed. injection Ed as Ed. pose proof (track_nn t Ht).
  destruct (Z.eq_dec (t_pt t) 0); [assumption|]. specialize (At t Ht ltac:(lia)). unfold cand_if in Ed.
  destruct (Z.ltb_spec (dist2 (t_eta t) (t_phi t) (h_eta v) (h_phi v)) 756); [lia|]. rewrite andb_false_r in Ed. discriminate.
Qed.
Lemma alone_ne_w : ne_pt_w em had track mu h v = h_pt v.
Proof.
  unfold ne_pt_w, had_tksum_w. rewrite sum_zero; [rewrite alone_left_w; reflexivity|]. intros i t Ht S. unfold in_had_w in S. apply andb_prop in S as [_ S]. unfold had_match_w in S.
  eapply alone_tk; [|eapply nth_error_In; exact Ht|exact S]. unfold had_left_w. rewrite nth_error_mapi, Hh. cbn [option_map]. rewrite alone_left_w. reflexivity.
Qed.
Lemma alone_ne_r : ne_pt_r em had track mu true h v = h_pt v.
Proof.
  unfold ne_pt_r, had_tksum_r. rewrite sum_zero; [rewrite alone_left_r; reflexivity|]. intros i t Ht S. unfold in_had_r in S. apply andb_prop in S as [_ S]. unfold had_match_r in S.
  eapply alone_tk; [|eapply nth_error_In; exact Ht|exact S]. unfold had_left_r. rewrite nth_error_mapi, Hh. cbn [option_map]. rewrite alone_left_r. reflexivity.
Qed.
End had1.

Lemma top_or {T} (pt : T -> Z) later n l o x : top_n pt later n l o -> In x l -> In x o \/ forall y, In y o -> pt x <= pt y.
Proof.
  intros H Hx. destruct (top_n_meaning _ _ _ _ _ _ H) as (_ & dr & PM & D). eapply Permutation_in in Hx; [|exact PM]. apply in_app_or in Hx as [Hx|Hx]; [left; exact Hx|right; intros y Hy; exact (D y x Hy Hx)].
Qed.
Lemma two_len {S T} (R : S -> T -> Prop) l l' : Forall2 R l l' -> length l = length l'.
Proof. induction 1; cbn; congruence. Qed.
Lemma top_len {T} (pt : T -> Z) later n l o : top_n pt later n l o -> (n <= length l)%nat -> length o = n.
Proof. intros (idx & PM & _ & F) L. apply two_len in F. apply Permutation_length in PM. rewrite seq_length in PM. rewrite firstn_length in F. lia. Qed.
Lemma alone_neutral mem nsel o v : (nsel <= length had)%nat -> pfalgo3_full mem nsel em had track mu = Ok o \/ pfalgo3_full_ref mem nsel em had track mu = Ok o ->
  In v had -> 0 < h_pt v -> h_isem v = false \/ 0 < h_empt v ->
  (forall t, In t track -> 0 < t_pt t -> 756 <= dist2 (t_eta t) (t_phi t) (h_eta v) (h_phi v)) -> (forall u, In u em -> 0 < e_pt u -> 525 <= dist2 (e_eta u) (e_phi u) (h_eta v) (h_phi v)) ->
  (exists x, In x (o_ne o) /\ n_pt x = h_pt v /\ n_id x = PID_Neutral /\ n_eta x = h_eta v /\ n_phi x = h_phi v) \/ (length (o_ne o) = nsel /\ forall y, In y (o_ne o) -> h_pt v <= n_pt y).
Proof.
  intros N E Hv Pv Em At Ae. apply In_nth_error in Hv as (h & Hh).
  assert (G : forall pup, ne_obj (h_pt v) (h_eta v) (h_phi v) PID_Neutral pup = mkNe (h_pt v) (h_eta v) (h_phi v) PID_Neutral pup).
  { intros pup. unfold ne_obj. destruct (Z.eqb_spec (h_pt v) 0); [lia|]. reflexivity. }
  assert (F : forall pup l, length l = length had -> nth_error l h = Some (mkNe (h_pt v) (h_eta v) (h_phi v) PID_Neutral pup) -> top_n n_pt true nsel l (o_ne o) ->
    (exists x, In x (o_ne o) /\ n_pt x = h_pt v /\ n_id x = PID_Neutral /\ n_eta x = h_eta v /\ n_phi x = h_phi v) \/ (length (o_ne o) = nsel /\ forall y, In y (o_ne o) -> h_pt v <= n_pt y)).
  { intros pup l L Hl T. destruct (top_or _ _ _ _ _ _ T (nth_error_In _ _ Hl)) as [X|X]; [left; eexists; split; [exact X|]; repeat split|right]. split; [eapply top_len; [exact T|lia]|exact X]. }
  destruct E as [E|E].
  - destruct (C72_result _ _ _ _ _ _ _ P N E) as (_ & _ & R & _). eapply F; [| |exact R]; [apply length_mapi|]. rewrite nth_error_mapi, Hh. cbn [option_map]. unfold sp_ne_w. rewrite (alone_ne_w h v) by assumption. rewrite G. reflexivity.
  - destruct (C73_result _ _ _ _ _ _ _ P N E) as (_ & _ & R & _). eapply F; [| |exact R]; [apply length_mapi|]. rewrite nth_error_mapi, Hh. cbn [option_map]. unfold sp_ne_r. rewrite (alone_ne_r h v) by assumption. rewrite G. reflexivity.
Qed.
End alone.

Lemma c99_photon c e had em tk mu ie ip j mem o u : (NSELCALO c <= NCALO c)%nat -> complete c e -> in_range e -> had_reference c e had -> other_regions c e em tk mu ->
  (ie < 3)%nat -> (ip < 6)%nat -> (j < 3)%nat ->
  let r := (6 * ie + ip)%nat in let s := region_sector ip j in
  In u (firstn 12 (nth s (ev_em e) [])) -> 0 < e_pt u -> slice_lo ie <= e_eta u <= slice_hi ie -> -392 <= e_phi u <= 391 -> em_alone ie j u (nth r tk []) ->
  pfalgo3_full mem (NSELCALO c) (nth r em []) (nth r had []) (nth r tk []) (nth r mu []) = Ok o \/
  pfalgo3_full_ref mem (NSELCALO c) (nth r em []) (nth r had []) (nth r tk []) (nth r mu []) = Ok o ->
  (exists x, In x (o_pho o) /\ is_photon ie ip s u x) \/
  (7 < length (em_as_hard e s ie u))%nat \/ (forall v, In v (nth r em []) -> e_pt u <= e_pt v).
Proof.
  intros N C R H O He Hp Hj r s Hu Pu S Hphi Al E. assert (Hr : (r < 18)%nat) by (unfold r; lia). destruct (c98_legal c e had em tk mu r C R H O Hr) as (PH & _ & L & _).
  destruct (em_slot c e em ie ip j u C He Hp Hj (proj1 O) Hu Pu S Hphi) as [K|K]; [left|right; exact K].
  destruct (alone_photon _ _ _ _ PH mem (NSELCALO c) o _ ltac:(lia) E K Pu Al) as (x & Hx & X1 & X2 & X3 & X4). cbn [e_pt e_eta e_phi] in *.
  destruct (place ie ip j (e_eta u) (e_phi u) Hp Hj Hphi) as [Q1 Q2]. exists x. split; [exact Hx|]. unfold is_photon. rewrite X1, X2, X3, X4. repeat (split; [first [reflexivity|assumption]|]). exact Q2.
Qed.
Lemma c99_neutral c e had em tk mu ie ip j mem o u : (NSELCALO c <= NCALO c)%nat -> complete c e -> in_range e -> had_reference c e had -> other_regions c e em tk mu ->
  (ie < 3)%nat -> (ip < 6)%nat -> (j < 3)%nat ->
  let r := (6 * ie + ip)%nat in let s := region_sector ip j in
  In u (firstn 15 (nth s (ev_had e) [])) -> 0 < h_pt u -> h_isem u = false \/ 0 < h_empt u -> slice_lo ie <= h_eta u <= slice_hi ie -> -392 <= h_phi u <= 391 -> had_alone ie j u (nth r tk []) (nth r em []) ->
  pfalgo3_full mem (NSELCALO c) (nth r em []) (nth r had []) (nth r tk []) (nth r mu []) = Ok o \/
  pfalgo3_full_ref mem (NSELCALO c) (nth r em []) (nth r had []) (nth r tk []) (nth r mu []) = Ok o ->
  (exists x, In x (o_ne o) /\ is_neutral ie ip s u x) \/
  (7 < length (had_as_hard e s ie u))%nat \/ (forall v, In v (nth r had []) -> h_pt u <= h_pt v) \/ (length (o_ne o) = NSELCALO c /\ forall y, In y (o_ne o) -> h_pt u <= n_pt y).
Proof.
  intros N C R H O He Hp Hj r s Hu Pu Em S Hphi (At & Ae) E. assert (Hr : (r < 18)%nat) by (unfold r; lia). destruct (c98_legal c e had em tk mu r C R H O Hr) as (PH & _ & L & _).
  destruct (had_slot c e had ie ip j u C He Hp Hj H Hu Pu S Hphi) as [K|[K|K]]; [|right; left; exact K|right; right; left; exact K].
  destruct (alone_neutral _ _ _ _ PH mem (NSELCALO c) o _ ltac:(lia) E K Pu Em At Ae) as [(x & Hx & X1 & X2 & X3 & X4)|X]; [left|right; right; right; exact X]. cbn [h_pt h_eta h_phi] in *.
  destruct (place ie ip j (h_eta u) (h_phi u) Hp Hj Hphi) as [Q1 Q2]. exists x. split; [exact Hx|]. unfold is_neutral. rewrite X1, X2, X3, X4. repeat (split; [first [reflexivity|assumption]|]). exact Q2.
Qed.
