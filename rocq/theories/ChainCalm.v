(** C101: calm events. *)
From Coq Require Import Permutation.
From Verif Require Import Base BaseFacts TabFacts MapiFacts PFInert Data PFHw PFRef SpecPF SpecPFRef SpecPFWrap SpecOut SpecLink SpecShare ShareProofs PFWrap PFTotal
  Regionizer SpecRegion RegionFacts RegionLoops RegionProofs RegionFinal RegTest RegTestRun RegTestOk SpecCopies CopiesProofs SpecChain ChainProofs ChainKept SpecChainEnergy ChainEnergy Props_PF Props_PFRef Props_PFWrap Puppi SpecPuppi PuppiProofs.

Lemma row_total {A T} (f : T -> Z) (F : Z -> A -> Z) (of_ : robj A -> T) l : (forall x, In x l -> 0 < r_pt x -> f (of_ x) = F (r_pt x) (r_rest x)) -> (forall x, In x l -> ~ 0 < r_pt x -> f (of_ x) = 0) ->
  sumZ (map f (map of_ l)) = total F l.
Proof.
  unfold total, held. induction l as [|a l IH]; intros H1 H2; [reflexivity|]. cbn [map filter]. rewrite sz_cons. rewrite IH; [|intros x Hx; apply H1; right; exact Hx|intros x Hx; apply H2; right; exact Hx]. destruct (Z.ltb_spec 0 (r_pt a)) as [P|P].
  - cbn [map]. rewrite sz_cons, (H1 a (or_introl eq_refl) P). reflexivity.
  - rewrite (H2 a (or_introl eq_refl)) by lia. reflexivity.
Qed.
Lemma sum_nonneg_app {T} (g : T -> Z) l r : (forall x, 0 <= g x) -> sumZ (map g l) <= sumZ (map g (l ++ r)).
Proof. intros H. rewrite map_app, sumZ_app. pose proof (sumZ_nonneg (map g r)) as N. assert (0 <= sumZ (map g r)); [apply N; intros x Hx; apply in_map_iff in Hx as (y & <- & _); apply H|lia]. Qed.
Lemma cands_near {A T} (pt f : T -> Z) (F : Z -> A -> Z) (to : T -> robj A) ie j on objs : (forall x, r_pt (to x) = pt x) -> (forall x, 0 < pt x -> F (r_pt (to x)) (r_rest (to x)) = f x) -> (forall p r, 0 <= F p r) -> Permutation objs (map to on) ->
  sumZ (map (fun o => F (r_pt o) (r_rest o)) (map (local_phi j) (slice_cands ie objs))) <= sumZ (map f (filter (fun x => 0 <? pt x) on)).
Proof.
  intros E1 E2 N P. unfold slice_cands. rewrite !map_map. cbn [local_phi local_eta r_pt r_rest]. rewrite (PuppiProofs.sumZ_perm _ _ (Permutation_map _ (filter_permut _ _ _ P))). clear P.
  induction on as [|a l IH]; [cbn; lia|]. cbn [map filter]. rewrite E1. destruct (Z.ltb_spec 0 (pt a)) as [Pa|Pa]; cbn [andb].
  - destruct (in_slice ie (to a)); cbn [map]; rewrite ?sz_cons; [rewrite (E2 a Pa); lia|]. rewrite <- (E2 a Pa). specialize (N (r_pt (to a)) (r_rest (to a))). lia.
  - exact IH.
Qed.
Lemma held_near {A T} (pt f : T -> Z) (F : Z -> A -> Z) (to : T -> robj A) ie ip on objs l lost : (forall x, r_pt (to x) = pt x) -> (forall x, 0 < pt x -> F (r_pt (to x)) (r_rest (to x)) = f x) -> (forall p r, 0 <= F p r) ->
  (forall s, Permutation (objs s) (map to (on s))) -> Permutation (held l ++ lost) (offered objs ie ip) -> total F l <= near_sum pt f on ip.
Proof.
  intros E1 E2 N P Q. unfold total. etransitivity; [apply (sum_nonneg_app (fun o => F (r_pt o) (r_rest o)) (held l) lost); intros; apply N|]. rewrite (PuppiProofs.sumZ_perm _ _ (Permutation_map _ Q)).
  unfold offered, near_sum. cbn [flat_map map]. rewrite !map_app, !sumZ_app, !sz_cons. cbn [map sumZ fold_right].
  pose proof (cands_near pt f F to ie 0 _ _ E1 E2 N (P (region_sector ip 0))). pose proof (cands_near pt f F to ie 1 _ _ E1 E2 N (P (region_sector ip 1))). pose proof (cands_near pt f F to ie 2 _ _ E1 E2 N (P (region_sector ip 2))). unfold sumZ in *. cbn [fold_right] in *. lia.
Qed.

Lemma tk_calm c e tk r : complete c e -> in_range e -> tk_reference c e tk -> (r < 18)%nat ->
  sumZ (map t_pt (nth r tk [])) <= near_sum t_pt t_pt (sector_tracks e) (r mod 6) /\ sumZ (map (fun t => t_pterr t * t_pterr t) (nth r tk [])) <= near_sum t_pt (fun t => t_pterr t * t_pterr t) (sector_tracks e) (r mod 6).
Proof.
  intros C R H Hr. pose proof (tk_rows (fun _ => True) c e tk I C (tk_range e R) H r Hr) as [_ Rows]. destruct C as (_ & _ & C & _). destruct H as (w & g & o & rest & st & W & G & E & ->).
  destruct (fib_len _ _ r_of_tk _ C) as [L1 L2]. unfold regionize_track_ref in E. change NTRACK_PER_SECTOR with 20%nat in E. change NTRACK_PER_SECTOR_PER_ETA with 9%nat in E.
  destruct (c96_ref tk_d 20 9 (NTRACK c) 2 w (map (map r_of_tk) (ev_tk e)) g W G L1 L2) as (out & r' & s' & E' & K & _). rewrite E in E'. assert (o = out) by congruence. subst out.
  destruct (K (r / 6)%nat (r mod 6)%nat ltac:(lia) ltac:(lia)) as (lost & PL & _). replace (6 * (r / 6) + r mod 6)%nat with r in PL by lia. change (20 / 2)%nat with 10%nat in PL.
  assert (PM : forall s, Permutation (arrivals 2 10 (map (map r_of_tk) (ev_tk e)) s) (map r_of_tk (sector_tracks e s))).
  { intros s. etransitivity; [apply arrivals_two|]. rewrite !nth_mm. unfold sector_tracks. rewrite map_app, !firstn_map. reflexivity. }
  rewrite nth_mm in *. rewrite Forall_forall in Rows.
  assert (Z0 : forall x, In x (nth r o []) -> ~ 0 < r_pt x -> tk_of_r x = tk0).
  { intros x Hx Nx. destruct (Rows (tk_of_r x) (in_map tk_of_r _ _ Hx)) as (T & _ & Q). apply Q. unfold tk_phys in T. cbn [tk_of_r t_pt] in *. lia. }
  split.
  - rewrite (row_total t_pt (fun p _ => Z.max 0 p)).
    + eapply (held_near t_pt t_pt _ r_of_tk); [reflexivity| | |exact PM|exact PL]; intros; cbn [r_of_tk r_pt]; lia.
    + intros x _ Px. cbn [tk_of_r t_pt]. lia.
    + intros x Hx Nx. rewrite (Z0 x Hx Nx). reflexivity.
  - rewrite (row_total _ (fun _ q => fst (fst q) * fst (fst q))).
    + eapply (held_near t_pt _ _ r_of_tk); [reflexivity| | |exact PM|exact PL]; intros; cbn [r_of_tk r_rest fst]; [reflexivity|]. apply Z.square_nonneg.
    + intros x _ _. reflexivity.
    + intros x Hx Nx. rewrite (Z0 x Hx Nx). reflexivity.
Qed.
Lemma em_calm c e em r : complete c e -> in_range e -> everywhere (fun x => e_pterr x <= 23170) (ev_em e) -> em_reference c e em -> (r < 18)%nat ->
  sumZ (map e_pt (nth r em [])) <= near_sum e_pt e_pt (fun s => firstn 12 (nth s (ev_em e) [])) (r mod 6) /\ Forall (fun x => e_pterr x <= 23170) (nth r em []).
Proof.
  intros C R B H Hr. pose proof (em_rows c e em C R H r Hr) as [_ Rows]. destruct C as (_ & C & _). destruct R as (_ & R & _). destruct H as (w & g & o & rest & st & W & G & E & ->).
  destruct (fib_len _ _ r_of_em _ C) as [L1 L2]. unfold regionize_emcalo_ref in E. change NEMCALO_PER_SECTOR with 12%nat in E. change NEMCALO_PER_SECTOR_PER_ETA with 7%nat in E.
  destruct (c96_ref 0 12 7 (NEMCALO c) 1 w (map (map r_of_em) (ev_em e)) g W G L1 L2) as (out & r' & s' & E' & K & _). rewrite E in E'. assert (o = out) by congruence. subst out.
  destruct (K (r / 6)%nat (r mod 6)%nat ltac:(lia) ltac:(lia)) as (lost & PL & _). replace (6 * (r / 6) + r mod 6)%nat with r in PL by lia. change (12 / 1)%nat with 12%nat in PL.
  split.
  - rewrite nth_mm in *. rewrite Forall_forall in Rows. rewrite (row_total e_pt (fun p _ => Z.max 0 p)).
    + eapply (held_near e_pt e_pt _ r_of_em); [reflexivity| | | |exact PL]; [intros; cbn [r_of_em r_pt]; lia|intros; lia|]. intros s. rewrite arrivals_one, nth_mm, firstn_map. reflexivity.
    + intros x _ Px. cbn [em_of_r e_pt]. lia.
    + intros x Hx Nx. specialize (Rows (em_of_r x) (in_map em_of_r _ _ Hx)). unfold em_phys in Rows. cbn [em_of_r e_pt] in *. lia.
  - refine (proj2 (back 0 (fun z => QE z /\ z <= 23170) _ em_of_r (NEMCALO c) o _ _ r Hr)).
    + intros x [(_ & _ & _ & (_ & q)) _]. exact q.
    + eapply (ref_good 0 (fun z => QE z /\ z <= 23170)) with (nobj := 12%nat) (nsec := 7%nat) (nf := 1%nat); [unfold QE, inS; lia|exact W|exact G|exact L1|exact L2| |exact E].
      eapply (lift (fun x => (em_ok x /\ 0 <= e_pterr x) /\ e_pterr x <= 23170)).
      * intros h (((a & b & c0 & q) & q') & q''). unfold r_ok, QE, r_of_em. cbn. tauto.
      * unfold everywhere in *. rewrite Forall_forall in *. intros f Hf. specialize (R f Hf). specialize (B f Hf). rewrite Forall_forall in *. intros x Hx. split; [exact (R x Hx)|exact (B x Hx)].
Qed.
Lemma ref_calm em had track mu mem nsel : phys em had track mu -> (nsel <= length had)%nat -> no_overflow em track -> exists o, pfalgo3_full_ref mem nsel em had track mu = Ok o.
Proof.
  intros P N (_ & B & _ & D). apply C73_defined_iff; [exact P|exact N|]. split.
  - intros k x Hk _. rewrite Forall_forall in D. specialize (D x (nth_error_In _ _ Hk)). destruct P as (P & _). rewrite Forall_forall in P. specialize (P x (nth_error_In _ _ Hk)). unfold em_phys in P. assert (0 <= e_pterr x <= 23170) by lia. nia.
  - intros h x _. assert (had_err2_r em had track mu true h <= 1431655765) by (etransitivity; [|exact B]; apply (sum_where_le _ (fun t => t_pterr t * t_pterr t)); intros; apply Z.square_nonneg). lia.
Qed.
Lemma c101_calm c e had em tk mu r mem : (NSELCALO c <= NCALO c)%nat -> complete c e -> in_range e -> calm e -> had_reference c e had -> other_regions c e em tk mu -> (r < 18)%nat ->
  (exists o, pfalgo3_full mem (NSELCALO c) (nth r em []) (nth r had []) (nth r tk []) (nth r mu []) = Ok o /\ hw_run_fit c em had tk mu r o) /\
  (exists o, pfalgo3_full_ref mem (NSELCALO c) (nth r em []) (nth r had []) (nth r tk []) (nth r mu []) = Ok o /\ ref_run_fit c em had tk mu r o).
Proof.
  intros N C R [K1 K2] H O Hr. destruct (c98_legal c e had em tk mu r C R H O Hr) as (P & _ & LH & _). destruct (K1 (r mod 6)%nat ltac:(lia)) as (A1 & A2 & A3).
  destruct (tk_calm c e tk r C R (proj1 (proj2 O)) Hr) as [B1 B2]. destruct (em_calm c e em r C R K2 (proj1 O) Hr) as [B3 B4].
  assert (NO : no_overflow (nth r em []) (nth r tk [])) by (split; [lia|]; split; [lia|]; split; [lia|exact B4]).
  split.
  - destruct (proj2 (proj1 (C72_defined_iff _ _ _ _ mem (NSELCALO c) P ltac:(lia)))) as [o E]; [apply fit_ints; [exact P|apply no_overflow_fits; assumption]|]. exists o. split; [exact E|]. split; [exists mem; exact E|apply no_overflow_fits; assumption].
  - destruct (ref_calm _ _ _ _ mem (NSELCALO c) P ltac:(lia) NO) as [o E]. exists o. split; [exact E|]. split; [exists mem; exact E|apply no_overflow_fits; assumption].
Qed.
Lemma c101_calm_budget c e had em tk mu outs : (NSELCALO c <= NCALO c)%nat -> complete c e -> in_range e -> calm e -> had_reference c e had -> other_regions c e em tk mu ->
  all_regions (fun r o => hw_run c em had tk mu r o \/ ref_run c em had tk mu r o) outs -> found_pho outs <= em_arriving e /\ found_ne outs <= had_arriving e.
Proof.
  intros N C R K H O [L A]. apply (c101_neutral c e had em tk mu outs N C R H O). split; [exact L|]. intros r o E. assert (Hr : (r < 18)%nat) by (rewrite <- L; apply nth_error_Some; congruence).
  destruct (c101_calm c e had em tk mu r (mkMem (fun _ => mkNe 0 0 0 0 0) (fun _ => mkNe 0 0 0 0 0) (fun _ => mkNe 0 0 0 0 0)) N C R K H O Hr) as [(o1 & _ & _ & F1) (o2 & _ & _ & F2)]. destruct (A r o E) as [B|B]; [left|right]; split; assumption.
Qed.

(** On calm events without EM-like hadronic clusters and tracks of error 1 none of
    the differences between firmware and reference can appear. *)
Lemma had_plain c e had r : complete c e -> in_range e -> everywhere (fun h => h_isem h = false) (ev_had e) -> had_reference c e had -> (r < 18)%nat -> Forall (fun h => h_isem h = false) (nth r had []).
Proof.
  intros (C & _) (R & _) B (w & g & o & rest & st & W & G & E & ->) Hr. destruct (fib_len _ _ r_of_had _ C) as [L1 L2].
  refine (proj2 (back had_d (fun z => snd z = false) _ had_of_r (NCALO c) o _ _ r Hr)).
  - intros x [(_ & _ & _ & q) _]. exact q.
  - eapply (ref_good had_d (fun z => snd z = false)) with (nobj := 15%nat) (nsec := 7%nat) (nf := 1%nat); [reflexivity|exact W|exact G|exact L1|exact L2| |exact E].
    eapply (lift (fun x => had_ok x /\ h_isem x = false)).
    + intros h ((a & b & c0 & q) & q'). unfold r_ok, r_of_had. cbn. tauto.
    + unfold everywhere in *. rewrite Forall_forall in *. intros f Hf. specialize (R f Hf). specialize (B f Hf). rewrite Forall_forall in *. intros x Hx. split; [exact (proj1 (R x Hx))|exact (B x Hx)].
Qed.
Lemma sum_in16 (sel : nat -> Tk -> bool) track : Forall tk_phys track -> sumZ (map t_pt track) <= 32767 -> 0 <= w16 (sum_where sel t_pt track).
Proof.
  intros P B. destruct (sum_where_le sel t_pt track) as [B1 B2]; [intros x Hx; rewrite Forall_forall in P; specialize (P x Hx); unfold tk_phys in P; lia|].
  replace (w16 _) with (sum_where sel t_pt track); [exact B1|]. unfold w16. rewrite wrapS_id by (unfold inS; lia). reflexivity.
Qed.
Lemma no_conflict c e had' em tk mu r : (NSELCALO c <= NCALO c)%nat -> complete c e -> in_range e -> calm e -> plain e -> had_reference c e had' -> other_regions c e em tk mu -> (r < 18)%nat ->
  ~ NegativeSum (nth r em []) (nth r had' []) (nth r tk []) (nth r mu []) /\ ~ KeepConflict_w (nth r em []) (nth r had' []) (nth r tk []) (nth r mu []) /\ ~ ErrOneConflict (nth r em []) (nth r had' []) (nth r tk []) (nth r mu []).
Proof.
  intros N C R K [P1 P2] H O Hr. destruct (c98_legal c e had' em tk mu r C R H O Hr) as (P & _). assert (PT : Forall tk_phys (nth r tk [])) by apply P.
  destruct (tk_calm c e tk r C R (proj1 (proj2 O)) Hr) as [B1 _]. destruct (proj1 K (r mod 6)%nat ltac:(lia)) as (A1 & _). assert (B : sumZ (map t_pt (nth r tk [])) <= 32767) by lia.
  split; [|split].
  - intros [(k & x & _ & L)|(k & x & _ & L)].
    + pose proof (sum_in16 (fun i t => opt_is (em_match (nth r em []) (nth r tk []) (nth r mu []) i t) k) _ PT B). unfold em_tksum_w, em_tksum in L. lia.
    + pose proof (sum_in16 (in_had_w (nth r em []) (nth r had' []) (nth r tk []) (nth r mu []) k) _ PT B). unfold had_tksum_w in L. lia.
  - intros (h & x & k & y & Hh & I & _). pose proof (had_plain c e had' r C R P2 H Hr) as F. rewrite Forall_forall in F. specialize (F x (nth_error_In _ _ Hh)). congruence.
  - intros (i & t & h & x & Hi & T & _). assert (X : everywhere (fun t => (tk_ok t /\ 0 <= t_pterr t) /\ t_pterr t <> 1) (ev_tk e)).
    { destruct R as (_ & _ & R & _). unfold everywhere in *. rewrite Forall_forall in *. intros f Hf. specialize (R f Hf). specialize (P1 f Hf). rewrite Forall_forall in *. intros y Hy. split; [exact (R y Hy)|exact (P1 y Hy)]. }
    destruct (tk_rows (fun z => z <> 1) c e tk ltac:(cbn; lia) C X (proj1 (proj2 O)) r Hr) as [_ F]. rewrite Forall_forall in F. destruct (F t (nth_error_In _ _ Hi)) as (_ & F' & _). exact (F' T).
Qed.
Lemma c98_calm c e had had' em tk mu r mem mem' : (7 <= NCALO c)%nat -> (NSELCALO c <= NCALO c)%nat -> complete c e -> in_range e -> calm e -> plain e ->
  had_firmware c e had -> had_reference c e had' -> other_regions c e em tk mu -> (r < 18)%nat ->
  exists ref o, pfalgo3_full_ref mem' (NSELCALO c) (nth r em []) (nth r had' []) (nth r tk []) (nth r mu []) = Ok ref /\
    pfalgo3_full mem (NSELCALO c) (nth r em []) (nth r had []) (nth r tk []) (nth r mu []) = Ok o /\ agree ref o.
Proof.
  intros N7 N C R K Pl HF H O Hr. destruct (c101_calm c e had' em tk mu r mem' N C R K H O Hr) as [_ (ref & E & _)]. exists ref.
  destruct (no_conflict c e had' em tk mu r N C R K Pl H O Hr) as (X1 & X2 & X3).
  destruct (c98_chain c e had had' em tk mu r mem mem' ref N7 N C R HF H O Hr X1 X2 X3 E) as (o & Eo & Ag). exists o. split; [exact E|]. split; [exact Eo|exact Ag].
Qed.

(** PUPPI behind it *)
Lemma alpha_small z l n : Forall (fun c => 0 <= c_pt c) l -> 0 <= sumZ (map c_pt l) /\ alpha_sum z l n <= 1024 * (sumZ (map c_pt l) * sumZ (map c_pt l)).
Proof.
  unfold alpha_sum. induction 1 as [|c l P _ [IH1 IH2]]; [cbn; lia|]. cbn [map]. rewrite !sz_cons. split; [lia|].
  assert (T : alpha_term z c n <= 1024 * (c_pt c * c_pt c)).
  { unfold alpha_term. destruct (_ && _); [|nia]. set (d := Z.max 1 (dist2 (c_eta c) (c_phi c) (n_eta n) (n_phi n) / 32)). assert (D : 1 <= d) by (unfold d; lia). clearbody d.
    assert (A : 0 <= 32768 / d <= 32768) by (split; [apply Z.div_pos; lia|apply Z.div_le_upper_bound; nia]). set (q := 32768 / d) in *. clearbody q.
    assert (S0 : 0 <= c_pt c * c_pt c) by nia. set (s := c_pt c * c_pt c) in *. clearbody s. assert (B : 0 <= Z.min (s / 32) 131071 /\ 32 * Z.min (s / 32) 131071 <= s) by lia. set (m := Z.min (s / 32) 131071) in *. clearbody m. nia. }
  nia.
Qed.
Lemma ch_nonneg em had track mu mem nsel o : phys em had track mu -> (nsel <= length had)%nat -> pfalgo3_full mem nsel em had track mu = Ok o -> Forall (fun c => 0 <= c_pt c) (o_ch o).
Proof.
  intros P N E. destruct (C72_result _ _ _ _ _ _ _ P N E) as (R1 & _). rewrite R1. apply Forall_forall. intros x Hx. apply in_mapi in Hx as (i & t & Ht & ->).
  destruct P as (_ & _ & P & _). rewrite Forall_forall in P. specialize (P t (nth_error_In _ _ Ht)). unfold tk_phys in P. unfold sp_ch_w. destruct (ch_kept_w _ _ _ _ _ _); cbn; lia.
Qed.
Lemma c98_calm_puppi c e had had' em tk mu r mem mem' tab z : (7 <= NCALO c)%nat -> (NSELCALO c <= NCALO c)%nat -> complete c e -> in_range e -> calm e -> plain e -> quiet e ->
  had_firmware c e had -> had_reference c e had' -> other_regions c e em tk mu -> (r < 18)%nat -> (forall i, ne_ok (junk_tmp mem i)) -> table_ok tab ->
  exists ref o a b, pfalgo3_full_ref mem' (NSELCALO c) (nth r em []) (nth r had' []) (nth r tk []) (nth r mu []) = Ok ref /\
    pfalgo3_full mem (NSELCALO c) (nth r em []) (nth r had []) (nth r tk []) (nth r mu []) = Ok o /\ agree ref o /\
    simple_puppi_hw tab (o_ch o) (o_pho o ++ o_ne o) z = Ok a /\ simple_puppi_ref tab (o_ch ref) (o_pho ref ++ o_ne ref) z = Ok b /\ Forall2 same_weighted a b.
Proof.
  intros N7 N C R K Pl Q HF H O Hr J T. destruct (c98_calm c e had had' em tk mu r mem mem' N7 N C R K Pl HF H O Hr) as (ref & o & E & Eo & Ag). exists ref, o.
  destruct (no_conflict c e had' em tk mu r N C R K Pl H O Hr) as (X1 & X2 & X3). destruct (c98_legal c e had' em tk mu r C R H O Hr) as (P & _ & LH & _).
  assert (NL : (NSELCALO c <= length (nth r had' []))%nat) by lia. pose proof Eo as Eo'. rewrite (had_same c e had had' N7 C HF H) in Eo'.
  destruct (c98_puppi c e had had' em tk mu r mem mem' ref tab z o N7 N C R HF H O Hr J X1 X2 X3 E Eo T) as (a & b & W).
  - intros n _. destruct (alpha_small z (o_ch o) n (ch_nonneg _ _ _ _ _ _ _ P NL Eo')) as [S0 S1]. pose proof (ch_budget _ _ _ _ _ _ _ P NL (or_introl Eo')) as S2.
    destruct (tk_calm c e tk r C R (proj1 (proj2 O)) Hr) as [B1 _]. specialize (Q (r mod 6)%nat ltac:(lia)). assert (sumZ (map c_pt (o_ch o)) <= 1448) by lia. nia.
  - exists a, b. tauto.
Qed.

(** PUPPI takes away *)
Lemma weighted_le tab ch ne z w : table_ok tab -> Forall (fun n => inS 16 (n_pt n) /\ 0 <= n_pt n) ne -> simple_puppi_hw tab ch ne z = Ok w -> 0 <= sumZ (map n_puppi w) <= sumZ (map n_pt ne).
Proof.
  intros T F E. destruct (c21 tab ch ne z w T ltac:(eapply Forall_impl; [|exact F]; intros n Hn; apply Hn) E) as [L H]. clear E. revert w L H. induction F as [|n ne [_ P] _ IH]; intros [|m w] L H; try discriminate; [cbn; lia|].
  cbn [map]. rewrite !sz_cons. destruct (H 0%nat n eq_refl) as (m' & E & _ & _ & _ & _ & B). injection E as <-. specialize (B P). destruct (IH w ltac:(cbn in L; lia) (fun i => H (S i))) as [I1 I2]. lia.
Qed.
Lemma c101_weighted c e had em tk mu outs tab z ws : (NSELCALO c <= NCALO c)%nat -> complete c e -> in_range e -> calm e -> had_reference c e had -> other_regions c e em tk mu ->
  all_regions (hw_run c em had tk mu) outs -> table_ok tab -> Forall2 (fun o w => simple_puppi_hw tab (o_ch o) (o_pho o ++ o_ne o) z = Ok w) outs ws ->
  0 <= sumZ (map (fun w => sumZ (map n_puppi w)) ws) <= em_arriving e + had_arriving e.
Proof.
  intros N C R K H O [L A] T W.
  destruct (c101_calm_budget c e had em tk mu outs N C R K H O) as [B1 B2].
  { split; [exact L|]. intros r o E. destruct (A r o E) as (mem & E'). left. exists mem. exact E'. }
  enough (G : 0 <= sumZ (map (fun w => sumZ (map n_puppi w)) ws) <= found_pho outs + found_ne outs) by lia.
  assert (F : Forall (fun o => Forall (fun n => inS 16 (n_pt n) /\ 0 <= n_pt n) (o_pho o ++ o_ne o)) outs).
  { apply Forall_forall. intros o Ho. apply In_nth_error in Ho as [r E]. assert (Hr : (r < 18)%nat) by (rewrite <- L; apply nth_error_Some; congruence). destruct (A r o E) as (mem & E').
    destruct (c98_legal c e had em tk mu r C R H O Hr) as (P & _ & LH & _). destruct (C52_outputs_in_range _ _ _ _ mem (NSELCALO c) o P ltac:(lia) E') as (_ & _ & _ & _ & _ & Q1 & Q2 & _).
    apply Forall_app. split; [eapply Forall_impl; [|exact Q1]|eapply Forall_impl; [|exact Q2]]; intros n [(X & _) Y]; (split; [exact X|exact Y]). }
  clear B1 B2 A L. unfold found_pho, found_ne. induction W as [|o w outs ws E W IH]; [cbn; lia|]. apply Forall_cons_iff in F as [F0 F]. specialize (IH F). cbn [map]. rewrite !sz_cons.
  pose proof (weighted_le tab _ _ z w T F0 E) as G. rewrite map_app, sumZ_app in G. lia.
Qed.
