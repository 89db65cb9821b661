(** Proofs about the particle-flow test program. *)
From Verif Require Import Base BaseFacts Data PFHw PFRef PFTotal Encoding SpecEnc EncFacts EncProofs TestUtils SpecLink SpecPF SpecOut PFProofs
  Discrete Convert DiscreteIO SpecIO ConvertFacts IOFacts IOProofs RegionLoop PFTest SpecTest.

(** ** The loop over regions *)
Fixpoint walk {S} (body : nat -> S -> fwregion -> res (S * option Z)) (test : nat) (st : S) (l : list fwregion) : res (S * option Z) :=
  match l with
  | [] => Ok (st, None)
  | r :: l' => do (st1, ex) <- body test st r; match ex with Some code => Ok (st1, Some code) | None => walk body (Datatypes.S test) st1 l' end
  end.
Section loop.
Context {S : Type} (c : config) (special : Z -> Z) (clear : fwregion -> fwregion) (body : nat -> S -> fwregion -> res (S * option Z)).
Hypothesis Hclear : forall a, arrays_ok c a -> arrays_ok c (clear a).
Lemma loop_walk n : forall evs s, Inv [] s evs -> exists N, forall fuel test st arr, (N <= fuel)%nat -> arrays_ok c arr ->
  region_loop c special (Ok true) fuel clear body n test st arr s = Some (walk body test st (firstn n (map (show c special) (cur s ++ flat_map outk evs)))).
Proof.
  induction n as [|n IH]; intros evs s HI; [exists 0%nat; reflexivity|].
  destruct (next_result [] _ end_eof evs s HI) as (N & X & HR & HX). destruct (cur s ++ flat_map outk evs) as [|p rest] eqn:EC.
  - destruct HX as (s' & -> & _). exists N. intros fuel test st arr Hf HA. cbn [region_loop]. unfold next_region_fw. rewrite HR by lia. reflexivity.
  - destruct HX as (s1 & evs1 & -> & R1 & R2 & R3 & R4). destruct (IH evs1 (bump s1) R3) as (N2 & H2). exists (Nat.max N N2). intros fuel test st arr Hf HA.
    cbn [region_loop]. rewrite (fw_ok c special (clear arr) s s1 fuel (Ok true) p); [|apply HR; lia|exact R1|exact R2|apply R3|apply Hclear; exact HA].
    cbn [map firstn walk]. destruct (body test st (show c special p)) as [[st1 [code|]]|k]; cbn [bind]; try reflexivity.
    rewrite (H2 fuel (Datatypes.S test) st1 (show c special p)) by (lia || apply show_arrays). rewrite R4. reflexivity.
Qed.
Lemma loop_dump n g evs s : Forall good_event evs -> inputs_open g (Some (dump evs)) = Ok s -> exists N, forall fuel test st arr, (N <= fuel)%nat -> arrays_ok c arr ->
  region_loop c special (Ok true) fuel clear body n test st arr s = Some (walk body test st (tested c special n evs)).
Proof.
  intros HG HO. destruct (open_inv _ _ _ HG HO) as (HI & HC). destruct (loop_walk n evs s HI) as (N & H). exists N. intros fuel test st arr Hf HA.
  rewrite (H fuel test st arr Hf HA), HC. cbn [app]. rewrite shown_outk. reflexivity.
Qed.
End loop.
Lemma clear_ok c a : arrays_ok c a -> arrays_ok c (clear_arrays a).
Proof. intros (A1 & A2 & A3 & A4). unfold arrays_ok, clear_arrays. cbn [fw_calo fw_emcalo fw_track fw_muon]. rewrite !map_length. auto. Qed.

(** ** Shape of the reference's output *)
Lemma foldM_len {A S} (f : S -> A -> res S) (size : S -> nat) l : forall s s', (forall s x s1, f s x = Ok s1 -> size s1 = Datatypes.S (size s)) -> foldM f l s = Ok s' -> size s' = (size s + length l)%nat.
Proof.
  induction l as [|x l IH]; intros s s' H E; cbn [foldM] in E; [injection E as <-; cbn; lia|]. apply bind_Ok in E as (s1 & E1 & E2).
  rewrite (IH s1 s' H E2), (H _ _ _ E1). cbn [length]. lia.
Qed.
Lemma foldM_keep {A S} (f : S -> A -> res S) (size : S -> nat) l : forall s s', (forall s x s1, f s x = Ok s1 -> size s1 = size s) -> foldM f l s = Ok s' -> size s' = size s.
Proof.
  induction l as [|x l IH]; intros s s' H E; cbn [foldM] in E; [injection E as <-; reflexivity|]. apply bind_Ok in E as (s1 & E1 & E2). rewrite (IH s1 s' H E2). eapply H; exact E1.
Qed.
Lemma length_wr {A} (l : list A) i x l' : wr l i x = Ok l' -> length l' = length l.
Proof. unfold wr. destruct (_ <? _)%nat; [|discriminate]. intros [= <-]. apply length_upd. Qed.
Lemma Forall2_len {A B} (R : A -> B -> Prop) l1 l2 : Forall2 R l1 l2 -> length l1 = length l2.
Proof. induction 1; cbn; congruence. Qed.
Lemma length_mapM {A B} (f : A -> res B) l r : mapM f l = Ok r -> length r = length l.
Proof. intros H. apply mapM_Ok_inv, Forall2_len in H. auto. Qed.

Lemma ref_shape kv mem nsel em had track mu out : pfalgo3_full_ref_gen kv mem nsel em had track mu = Ok out ->
  length (o_ch out) = length track /\ length (o_pho out) = length em /\ length (o_ne out) = nsel /\ length (o_mu out) = length mu.
Proof.
  unfold pfalgo3_full_ref_gen. intros H.
  apply bind_Ok in H as ((om & isMu) & E1 & H). apply bind_Ok in H as (((isEle & op) & calo) & E2 & H). apply bind_Ok in H as (((good & sums) & errs) & E3 & H).
  apply bind_Ok in H as (subpt & E4 & H). apply bind_Ok in H as (on & E5 & H). injection H as <-. cbn [o_ch o_pho o_ne o_mu].
  assert (L1 : length om = length mu).
  { apply (foldM_len _ (fun st => length (fst st))) in E1; [cbn [fst length] in E1; exact E1|]. intros [o b] m s1 Es. cbn [fst]. unfold mu_ref_step in Es.
    destruct (m_pt m >? 0); [destruct (mu_ref_best track m)|]; [apply bind_Ok in Es as (tk & _ & Es); apply bind_Ok in Es as (im & _ & Es)| |]; injection Es as <-; cbn [fst]; rewrite app_length; cbn; lia. }
  assert (L2 : length isMu = length track).
  { apply (foldM_keep _ (fun st => length (snd st))) in E1; [cbn [snd] in E1; rewrite map_length in E1; exact E1|]. intros [o b] m s1 Es. cbn [snd]. unfold mu_ref_step in Es.
    destruct (m_pt m >? 0); [destruct (mu_ref_best track m)|]; [apply bind_Ok in Es as (tk & _ & Es); apply bind_Ok in Es as (im & Ew & Es); injection Es as <-; apply length_wr in Ew; exact Ew| |]; injection Es as <-; reflexivity. }
  unfold pfalgo3_em_ref in E2. apply bind_Ok in E2 as ((tk2em & sumtk) & F1 & E2). apply bind_Ok in E2 as (emres & F2 & E2). apply bind_Ok in E2 as (ie & F3 & E2). injection E2 as <- <- <-.
  assert (G : length tk2em = length track /\ length sumtk = length em).
  { split.
    - apply (foldM_len _ (fun st => length (fst st))) in F1; [cbn [fst length] in F1; rewrite combine_length, L2, Nat.min_id in F1; exact F1|].
      intros [o b] [t m] s1 Es. cbn [fst]. unfold em_ref_track_step in Es. destruct ((t_pt t >? 0) && negb m); [destruct (best_match_ref _ _ _ _ _ _ _)|]; [apply bind_Ok in Es as (s & _ & Es); apply bind_Ok in Es as (s' & _ & Es)| |]; injection Es as <-; cbn [fst]; rewrite app_length; cbn; lia.
    - apply (foldM_keep _ (fun st => length (snd st))) in F1; [cbn [snd] in F1; rewrite map_length in F1; exact F1|].
      intros [o b] [t m] s1 Es. cbn [snd]. unfold em_ref_track_step in Es. destruct ((t_pt t >? 0) && negb m); [destruct (best_match_ref _ _ _ _ _ _ _)|]; [apply bind_Ok in Es as (s & _ & Es); apply bind_Ok in Es as (s' & Ew & Es); injection Es as <-; apply length_wr in Ew; exact Ew| |]; injection Es as <-; reflexivity. }
  destruct G as (G1 & G2).
  apply length_mapM in F2. rewrite combine_length, G2, Nat.min_id in F2. apply length_mapM in F3. rewrite G1 in F3.
  assert (L3 : length good = length track).
  { apply (foldM_len _ (fun st => length (fst (fst st)))) in E3; [cbn [fst length] in E3; rewrite !combine_length, F3, L2, !Nat.min_id in E3; exact E3|].
    intros [[o b] d] [t [a m]] s1 Es. cbn [fst]. unfold had_ref_track_step in Es. cbv zeta in Es. destruct ((t_pt t >? 0) && negb a && negb m).
    - apply bind_Ok in Es as (q & _ & Es). destruct q; [apply bind_Ok in Es as (s & _ & Es); apply bind_Ok in Es as (s' & _ & Es); apply bind_Ok in Es as (e & _ & Es); apply bind_Ok in Es as (e' & _ & Es); apply bind_Ok in Es as (e2 & _ & Es)|]; injection Es as <-; cbn [fst]; rewrite app_length; cbn; lia.
    - injection Es as <-; cbn [fst]; rewrite app_length; cbn; lia. }
  split; [rewrite map_length, !combine_length, F3, L2, L3, !Nat.min_id; reflexivity|].
  split; [rewrite length_mapi, combine_length, F2, Nat.min_id; reflexivity|]. split; [|exact L1].
  unfold ptsort_ref in E5. apply (foldM_keep _ (@length PFNe)) in E5.
  - rewrite !map_length, seq_length in E5. exact E5.
  - intros s x s1 Es. unfold ptsort_ref_step in Es. destruct (find _ _); [|injection Es as <-; reflexivity]. apply bind_Ok in Es as (o' & Ef & Es). apply length_wr in Es. rewrite Es.
    apply (foldM_keep _ (@length PFNe)) in Ef; [exact Ef|]. intros a i a1 Ea. apply bind_Ok in Ea as (v & _ & Ea). apply length_wr in Ea. exact Ea.
Qed.

(** ** One comparison *)
Lemma mismatches_from {T} (eq : T -> T -> bool) ref out k n : forall e, length ref = (k + n)%nat -> length out = (k + n)%nat -> 0 <= e -> e + Z.of_nat n < 2 ^ 31 ->
  exists e', foldM (fun e i => do x <- rd ref i; do y <- rd out i; if eq x y then Ok e else i32 (e + 1)) (seq k n) e = Ok e' /\ e <= e' <= e + Z.of_nat n /\
    (e' = e <-> Forall2 (fun a b => eq a b = true) (skipn k ref) (skipn k out)).
Proof.
  revert k. induction n as [|n IH]; intros k e L1 L2 H0 H1.
  - exists e. split; [reflexivity|]. split; [lia|]. rewrite !skipn_all2 by lia. split; [constructor|auto].
  - destruct (nth_error ref k) as [x|] eqn:Ex; [|apply nth_error_None in Ex; lia]. destruct (nth_error out k) as [y|] eqn:Ey; [|apply nth_error_None in Ey; lia].
    assert (S1 : skipn k ref = x :: skipn (S k) ref) by (clear -Ex; revert ref Ex; induction k; destruct ref; cbn; intros; try discriminate; [congruence|apply IHk; assumption]).
    assert (S2 : skipn k out = y :: skipn (S k) out) by (clear -Ey; revert out Ey; induction k; destruct out; cbn; intros; try discriminate; [congruence|apply IHk; assumption]).
    cbn [seq foldM]. unfold rd at 1 2. rewrite Ex, Ey. cbn [bind]. rewrite S1, S2. destruct (eq x y) eqn:EQ.
    + cbn [bind]. destruct (IH (S k) e) as (e' & F & B & I); [lia..|]. exists e'. split; [exact F|]. split; [lia|]. rewrite I.
      split; [intros H; constructor; assumption|intros H; inversion H; assumption].
    + rewrite i32_Ok by lia. cbn [bind]. destruct (IH (S k) (e + 1)) as (e' & F & B & I); [lia..|]. exists e'. split; [exact F|]. split; [lia|].
      split; [lia|]. intros H. inversion H; congruence.
Qed.
Lemma mismatches_ok {T} (eq : T -> T -> bool) ref out n e : length ref = n -> length out = n -> 0 <= e -> e + Z.of_nat n < 2 ^ 31 ->
  exists e', mismatches eq n ref out e = Ok e' /\ e <= e' <= e + Z.of_nat n /\ (e' = e <-> Forall2 (fun a b => eq a b = true) ref out).
Proof. intros L1 L2 H0 H1. exact (mismatches_from eq ref out 0 n e L1 L2 H0 H1). Qed.

Definition sized (c : config) (o : pfout) : Prop :=
  length (o_ch o) = NTRACK c /\ length (o_pho o) = NEMCALO c /\ length (o_ne o) = NSELCALO c /\ length (o_mu o) = NMU c.
Lemma compare_ok b c r o : build_ok b c -> sized c r -> sized c o -> exists e, pf_compare c r o = Ok e /\ (e = 0 <-> agree r o).
Proof.
  intros (HB & _) (R1 & R2 & R3 & R4) (O1 & O2 & O3 & O4). unfold pf_compare.
  destruct (mismatches_ok pf_equals_ch _ _ _ 0 R1 O1) as (e1 & -> & B1 & I1); [lia..|]. cbn [bind].
  destruct (mismatches_ok pf_equals_ne _ _ _ e1 R2 O2) as (e2 & -> & B2 & I2); [lia..|]. cbn [bind].
  destruct (mismatches_ok pf_equals_ne _ _ _ e2 R3 O3) as (e3 & -> & B3 & I3); [lia..|]. cbn [bind].
  destruct (mismatches_ok pf_equals_ch _ _ _ e3 R4 O4) as (e4 & -> & B4 & I4); [lia..|]. exists e4. split; [reflexivity|]. unfold agree.
  rewrite <- I1, <- I2, <- I3, <- I4. split; [intros; repeat split; lia|intros (A & B & C & D); lia].
Qed.

(** ** One test *)
Definition region_ok (c : config) (r : fwregion) : Prop :=
  arrays_ok c r /\ Forall em_ok (fw_emcalo r) /\ Forall had_ok (fw_calo r) /\ Forall tk_ok (fw_track r) /\ Forall mu_ok (fw_muon r).
Lemma filled_ok {A B} (P : B -> Prop) (conv : A -> B) clr n l : (forall x, P (conv x)) -> P clr -> Forall P (filled conv clr n l).
Proof.
  intros H H0. unfold filled. apply Forall_app. split; apply Forall_forall; intros x Hx; [apply in_map_iff in Hx as (y & <- & _); apply H|apply repeat_spec in Hx; subst; exact H0].
Qed.
Lemma show_ok c special p : region_ok c (show c special p).
Proof.
  split; [apply show_arrays|]. unfold show, fw_arrays. cbn [fw_calo fw_emcalo fw_track fw_muon].
  repeat split; apply filled_ok; try (intros x); unfold em_ok, had_ok, tk_ok, mu_ok, fw_em, fw_had, fw_tk, fw_mu, pt_t, etaphi_t, z0_t; cbn [e_pt e_pterr e_eta e_phi h_pt h_empt h_eta h_phi t_pt t_pterr t_eta t_phi t_z0 m_pt m_pterr m_eta m_phi em0 had0 tk0 mu0];
    repeat split; try (apply wrapS_ok; lia); unfold inS; lia.
Qed.
Lemma zip_same old : forall n, length old = length n -> Forall2 same_ne n (zip_puppi old n).
Proof. induction old; destruct n; cbn; intros; try discriminate; constructor; [repeat split|auto]. Qed.
Lemma length_zip old : forall n, length old = length n -> length (zip_puppi old n) = length n.
Proof. induction old; destruct n; cbn; intros; try discriminate; auto. Qed.
Lemma skipn_repeat {A} (x : A) n k : skipn k (repeat x n) = repeat x (n - k).
Proof. revert n. induction k; intros n; [rewrite Nat.sub_0_r; reflexivity|]. destruct n; [reflexivity|]. cbn. apply IHk. Qed.
Lemma region_words_len r : length (region_words r) = (2 * (length (fw_emcalo r) + length (fw_calo r) + length (fw_track r) + length (fw_muon r)))%nat.
Proof. unfold region_words. rewrite !app_length, !flat_len by reflexivity. lia. Qed.
Lemma output_words_len o : length (output_words o) = (2 * (length (o_ch o) + length (o_pho o) + length (o_ne o) + length (o_mu o)))%nat.
Proof. unfold output_words. rewrite !app_length, !flat_len by reflexivity. lia. Qed.

Lemma pf_run_words b c mh pho ne r o : build_ok b c -> mem_typed mh -> length pho = NEMCALO c -> length ne = NSELCALO c -> region_ok c r ->
  hw_on c mh r = Ok o -> b <> Plain -> exists d, mp7wrapped_pack_in MP7_NCHANN (fw_emcalo r) (fw_calo r) (fw_track r) (fw_muon r) (repeat 0 (in_size b)) = Ok (padded (in_size b) (region_words r)) /\
     mp7wrapped_pfalgo3_full MP7_NCHANN (NEMCALO c) (NCALO c) (NTRACK c) (NMU c) (NSELCALO c) mh (padded (in_size b) (region_words r)) (repeat 0 (out_size b)) = Ok d /\ d = padded (out_size b) (output_words o) /\
     mp7wrapped_unpack_out MP7_NCHANN (NTRACK c) (NMU c) d pho ne = Ok (o_ch o, zip_puppi pho (o_pho o), zip_puppi ne (o_ne o), o_mu o).
Proof.
  intros HB HM Lp Ln ((A1 & A2 & A3 & A4) & HE & HH & HT & HU) Ho Hb.
  assert (So : sized c o). { destruct (pf_shape _ _ _ _ _ _ _ Ho) as (S1 & S2 & S3 & S4 & _). unfold sized. rewrite S1, S2, S3, S4, A2, A3, A4. auto. }
  destruct (pf_ranges _ _ _ _ _ _ _ HE HH HT HM Ho) as (R1 & R2 & R3 & R4). pose proof So as (S1 & S2 & S3 & S4).
  assert (F1 : (2 * (NEMCALO c + NCALO c + NTRACK c + NMU c) <= Nat.min MP7_NCHANN (in_size b))%nat) by (destruct HB as (_ & HB); destruct b; [congruence|apply HB..]).
  assert (F2 : (2 * (NTRACK c + NEMCALO c + NSELCALO c + NMU c) <= Nat.min MP7_NCHANN (out_size b))%nat) by (destruct HB as (_ & HB); destruct b; [congruence|apply HB..]).
  eexists. split; [|split; [|split; [reflexivity|]]].
  - rewrite pack_in_layout by (rewrite ?repeat_length, A1, A2, A3, A4; lia). unfold padded. rewrite skipn_repeat, region_words_len. unfold region_words. rewrite <- !app_assoc. reflexivity.
  - unfold mp7wrapped_pfalgo3_full. unfold padded at 1, region_words at 1. rewrite <- !app_assoc, <- A1, <- A2, <- A3, <- A4. rewrite unpack_in_layout by (try assumption; lia). cbn [bind].
    unfold hw_on in Ho. rewrite Ho. cbn [bind]. rewrite pack_out_layout by (rewrite ?repeat_length, S1, S2, S3, S4; lia).
    unfold padded. rewrite skipn_repeat, output_words_len. unfold output_words. rewrite <- !app_assoc. reflexivity.
  - unfold padded at 1, output_words at 1. rewrite <- !app_assoc, <- S1, <- S4. apply unpack_out_layout; try assumption; lia.
Qed.

Lemma run_lemma b c mh mr pho ne r o q : build_ok b c -> mem_typed mh -> length pho = NEMCALO c -> length ne = NSELCALO c -> region_ok c r ->
  hw_on c mh r = Ok o -> ref_on c mr r = Ok q -> exists run, pf_run b c mh mr pho ne r = Ok run /\ run_ok b c mh mr r run /\ sized c (pr_ref run) /\ sized c (pr_hw run).
Proof.
  intros HB HM Lp Ln ((A1 & A2 & A3 & A4) & HE & HH & HT & HU) Ho Hq.
  assert (So : sized c o). { destruct (pf_shape _ _ _ _ _ _ _ Ho) as (S1 & S2 & S3 & S4 & _). unfold sized. rewrite S1, S2, S3, S4, A2, A3, A4. auto. }
  assert (Sq : sized c q). { destruct (ref_shape _ _ _ _ _ _ _ _ Hq) as (S1 & S2 & S3 & S4). unfold sized. rewrite S1, S2, S3, S4, A2, A3, A4. auto. }
  destruct (pf_ranges _ _ _ _ _ _ _ HE HH HT HM Ho) as (R1 & R2 & R3 & R4). pose proof So as (S1 & S2 & S3 & S4).
  pose proof (pf_run_words b c mh pho ne r o HB HM Lp Ln (conj (conj A1 (conj A2 (conj A3 A4))) (conj HE (conj HH (conj HT HU)))) Ho) as G.
  unfold pf_run. cbv zeta. unfold ref_on in Hq. unfold hw_on in Ho.
  assert (Z1 : same_out o (mkOut (o_ch o) (zip_puppi pho (o_pho o)) (zip_puppi ne (o_ne o)) (o_mu o))) by (repeat split; apply zip_same; lia).
  assert (Z2 : sized c (mkOut (o_ch o) (zip_puppi pho (o_pho o)) (zip_puppi ne (o_ne o)) (o_mu o))) by (unfold sized; cbn [o_ch o_pho o_ne o_mu]; rewrite !length_zip by lia; exact So).
  destruct b.
  - rewrite Hq, Ho. eexists. split; [reflexivity|]. split; [|split; assumption]. split; [reflexivity|]. split; [exact Hq|]. exists o. split; [exact Ho|]. cbn [pr_hw pr_in pr_out].
    split; [|auto]. repeat split; (clear; induction (_ : list PFNe); constructor; [repeat split|assumption]).
  - destruct (G ltac:(discriminate)) as (d & -> & D1 & D2 & D3). cbn [bind]. rewrite D1. cbn [bind]. rewrite D3, Hq. eexists. split; [reflexivity|]. split; [|split; assumption].
    split; [reflexivity|]. split; [exact Hq|]. exists o. cbn [pr_hw pr_in pr_out]. auto.
  - destruct (G ltac:(discriminate)) as (d & -> & D1 & D2 & D3). cbn [bind]. rewrite D1. cbn [bind]. rewrite D3, Hq. eexists. split; [reflexivity|]. split; [|split; assumption].
    split; [reflexivity|]. split; [exact Hq|]. exists o. cbn [pr_hw pr_in pr_out]. auto.
Qed.

(** one of the two algorithms is undefined *)
Lemma run_undefined b c mh mr pho ne r k : build_ok b c -> mem_typed mh -> length pho = NEMCALO c -> length ne = NSELCALO c -> region_ok c r ->
  undefined_on b c mh mr r k -> pf_run b c mh mr pho ne r = UB k.
Proof.
  intros HB HM Lp Ln HR HU. destruct b; cbn [undefined_on] in HU.
  - unfold pf_run. cbv zeta. unfold ref_on, hw_on in HU. destruct HU as [->|(q & -> & ->)]; reflexivity.
  - pose proof HR as ((A1 & A2 & A3 & A4) & HE & HH & HT & HM'). destruct HB as (HB0 & F1 & F2). destruct HU as [HU|(o & Ho & Hq)].
    + unfold pf_run. cbv zeta. rewrite pack_in_layout by (rewrite ?repeat_length, A1, A2, A3, A4; lia). cbn [bind].
      unfold mp7wrapped_pfalgo3_full. rewrite <- A1, <- A2, <- A3, <- A4. rewrite unpack_in_layout by (try assumption; lia). cbn [bind].
      unfold hw_on in HU. rewrite HU. reflexivity.
    + unfold ref_on in Hq. destruct (pf_run_words MP7 c mh pho ne r o (conj HB0 (conj F1 F2)) HM Lp Ln HR Ho ltac:(discriminate)) as (d & E1 & E2 & _ & E3).
      unfold pf_run. cbv zeta. rewrite E1. cbn [bind]. rewrite E2. cbn [bind]. rewrite E3, Hq. reflexivity.
  - pose proof HR as ((A1 & A2 & A3 & A4) & HE & HH & HT & HM'). destruct HB as (HB0 & F1 & F2). destruct HU as [HU|(o & Ho & Hq)].
    + unfold pf_run. cbv zeta. rewrite pack_in_layout by (rewrite ?repeat_length, A1, A2, A3, A4; lia). cbn [bind].
      unfold mp7wrapped_pfalgo3_full. rewrite <- A1, <- A2, <- A3, <- A4. rewrite unpack_in_layout by (try assumption; lia). cbn [bind].
      unfold hw_on in HU. rewrite HU. reflexivity.
    + unfold ref_on in Hq. destruct (pf_run_words CTP7 c mh pho ne r o (conj HB0 (conj F1 F2)) HM Lp Ln HR Ho ltac:(discriminate)) as (d & E1 & E2 & _ & E3).
      unfold pf_run. cbv zeta. rewrite E1. cbn [bind]. rewrite E2. cbn [bind]. rewrite E3, Hq. reflexivity.
Qed.
Lemma defined_or_not b c mh mr r : (exists o q, hw_on c mh r = Ok o /\ ref_on c mr r = Ok q) \/ exists k, undefined_on b c mh mr r k.
Proof.
  unfold undefined_on, first_undefined. destruct (hw_on c mh r) as [o|k] eqn:E1, (ref_on c mr r) as [q|k'] eqn:E2.
  - left. eauto.
  - right. exists k'. destruct b; eauto.
  - right. exists k. destruct b; eauto.
  - right. destruct b; [exists k'|exists k|exists k]; eauto.
Qed.

(** ** The whole loop *)
Lemma walk_total b validate c mh mr : build_ok b c -> (forall t, mem_typed (mh t)) -> forall l test pho ne runs0, length pho = NEMCALO c -> length ne = NSELCALO c -> Forall (region_ok c) l ->
  (exists pho' ne' runs code, walk (pf_body b validate c mh mr) test (pho, ne, runs0) l = Ok ((pho', ne', runs0 ++ runs), code) /\
     outcome b validate c mh mr test l runs (match code with Some x => x | None => 0 end)) \/
  (exists k, walk (pf_body b validate c mh mr) test (pho, ne, runs0) l = UB k /\ reaches_undefined b validate c mh mr test l k).
Proof.
  intros HB HM. induction l as [|r l IH]; intros test pho ne runs0 Lp Ln HR.
  - left. exists pho, ne, [], None. rewrite app_nil_r. split; [reflexivity|]. split; [intros [] run H; discriminate H|]. left. repeat split. constructor.
  - inversion HR as [|? ? R1 R2]; subst. destruct (defined_or_not b c (mh test) (mr test) r) as [(o & q & D1 & D2)|(k & HU)].
    2:{ right. exists k. cbn [walk]. unfold pf_body at 1. rewrite (run_undefined b c (mh test) (mr test) pho ne r k HB (HM test) Lp Ln R1 HU).
        split; [reflexivity|]. exists [], r. cbn [length]. rewrite Nat.add_0_r. split; [reflexivity|]. split; [exact HU|]. split; [intros [] x H; discriminate H|constructor]. }
    destruct (run_lemma b c (mh test) (mr test) pho ne r o q HB (HM test) Lp Ln R1 D1 D2) as (run & E & OK & Sr & Sh).
    cbn [walk]. unfold pf_body at 1 3. rewrite E. cbn [bind].
    assert (REST : forall a, (compares b validate = true -> agree (pr_ref run) (pr_hw run)) -> a = runs0 ++ [run] ->
       (exists pho' ne' runs code, walk (pf_body b validate c mh mr) (S test) (o_pho (pr_hw run), o_ne (pr_hw run), a) l = Ok ((pho', ne', runs0 ++ runs), code) /\
         outcome b validate c mh mr test (r :: l) runs (match code with Some x => x | None => 0 end)) \/
       (exists k, walk (pf_body b validate c mh mr) (S test) (o_pho (pr_hw run), o_ne (pr_hw run), a) l = UB k /\ reaches_undefined b validate c mh mr test (r :: l) k)).
    { intros a HA ->.
      assert (O1' : forall runs, (forall i x, nth_error runs i = Some x -> exists r', nth_error l i = Some r' /\ run_ok b c (mh (S test + i)%nat) (mr (S test + i)%nat) r' x) ->
        forall i x, nth_error (run :: runs) i = Some x -> exists r', nth_error (r :: l) i = Some r' /\ run_ok b c (mh (test + i)%nat) (mr (test + i)%nat) r' x).
      { intros runs O1 [|i] x Hx; cbn [nth_error] in Hx |- *; [injection Hx as <-; exists r; rewrite Nat.add_0_r; auto|]. rewrite Nat.add_succ_r. exact (O1 i x Hx). }
      destruct (IH (S test) (o_pho (pr_hw run)) (o_ne (pr_hw run)) (runs0 ++ [run])) as [(p' & n' & runs & code & W & O1 & O2)|(k & W & runs & r' & U1 & U2 & U3 & U4)]; [apply Sh..|exact R2| |].
      - left. exists p', n', (run :: runs), code. rewrite <- app_assoc in W. split; [exact W|]. split; [apply O1', O1|].
        destruct O2 as [(C & L & A)|(C & V & before & bad & -> & A & B)]; [left|right].
        + split; [exact C|]. cbn [length]. split; [congruence|]. intros V. constructor; [apply HA, V|apply A, V].
        + split; [exact C|]. split; [exact V|]. exists (run :: before), bad. split; [reflexivity|]. split; [constructor; [apply HA, V|exact A]|exact B].
      - right. exists k. split; [exact W|]. exists (run :: runs), r'. cbn [length nth_error]. rewrite Nat.add_succ_r. split; [exact U1|]. split; [exact U2|]. split; [apply O1', U3|].
        intros V. constructor; [apply HA, V|apply U4, V]. }
    change (match b with Plain => true | _ => validate end) with (compares b validate). destruct (compares b validate) eqn:EV.
    + destruct (compare_ok b c _ _ HB Sr Sh) as (e & -> & He). cbn [bind]. destruct (Z.eqb_spec e 0) as [->|Hn].
      * apply REST; [intros _; apply He; reflexivity|reflexivity].
      * left. eexists _, _, [run], (Some 1). split; [reflexivity|]. split.
        -- intros [|[|i]] x Hx; cbn [nth_error] in Hx |- *; try discriminate. injection Hx as <-. exists r. rewrite Nat.add_0_r. auto.
        -- right. split; [reflexivity|]. split; [exact EV|]. exists [], run. split; [reflexivity|]. split; [constructor|]. rewrite <- He. exact Hn.
    + cbn [bind]. apply REST; [discriminate|reflexivity].
Qed.

Lemma in_firstn {A} n (x : A) l : In x (firstn n l) -> In x l.
Proof. intros H. rewrite <- (firstn_skipn n l). apply in_or_app. auto. Qed.
Lemma tested_ok c special n evs : Forall (region_ok c) (tested c special n evs).
Proof.
  apply Forall_forall. intros r Hr. apply in_firstn in Hr. apply in_map_iff in Hr as (p & <- & _). apply (show_ok c special p).
Qed.
Lemma main_total b validate c special mh mr g arr pho ne evs : build_ok b c -> (forall t, mem_typed (mh t)) -> arrays_ok c arr -> length pho = NEMCALO c -> length ne = NSELCALO c -> Forall good_event evs ->
  exists N,
   (exists code runs, (forall fuel, (N <= fuel)%nat -> pf_main b validate c special (Ok true) fuel mh mr g arr pho ne (Some (dump evs)) = Some (Ok (code, runs))) /\
      outcome b validate c mh mr 1 (tested c special NTEST evs) runs code) \/
   (exists k, (forall fuel, (N <= fuel)%nat -> pf_main b validate c special (Ok true) fuel mh mr g arr pho ne (Some (dump evs)) = Some (UB k)) /\
      reaches_undefined b validate c mh mr 1 (tested c special NTEST evs) k).
Proof.
  intros HB HM HA Lp Ln HG. unfold pf_main. destruct (inputs_open g (Some (dump evs))) as [s|k] eqn:EO; [|discriminate EO].
  destruct (loop_dump c special clear_arrays (pf_body b validate c mh mr) (clear_ok c) NTEST g evs s HG EO) as (N & HW). exists N.
  destruct (walk_total b validate c mh mr HB HM (tested c special NTEST evs) 1 pho ne [] Lp Ln (tested_ok _ _ _ _)) as [(p' & n' & runs & code & W & O)|(k & W & O)].
  - left. exists (match code with Some x => x | None => 0 end), runs. split; [|exact O]. intros fuel Hf. rewrite (HW fuel 1%nat (pho, ne, []) arr Hf HA), W. reflexivity.
  - right. exists k. split; [|exact O]. intros fuel Hf. rewrite (HW fuel 1%nat (pho, ne, []) arr Hf HA), W. reflexivity.
Qed.
Lemma main_outcome b validate c special mh mr g arr pho ne evs : build_ok b c -> (forall t, mem_typed (mh t)) -> arrays_ok c arr -> length pho = NEMCALO c -> length ne = NSELCALO c -> Forall good_event evs ->
  (forall i r, nth_error (tested c special NTEST evs) i = Some r -> exists o q, hw_on c (mh (1 + i)%nat) r = Ok o /\ ref_on c (mr (1 + i)%nat) r = Ok q) ->
  exists N code runs, (forall fuel, (N <= fuel)%nat -> pf_main b validate c special (Ok true) fuel mh mr g arr pho ne (Some (dump evs)) = Some (Ok (code, runs))) /\
    outcome b validate c mh mr 1 (tested c special NTEST evs) runs code.
Proof.
  intros HB HM HA Lp Ln HG HD. destruct (main_total b validate c special mh mr g arr pho ne evs HB HM HA Lp Ln HG) as (N & [(code & runs & H)|(k & _ & runs & r & Hr & HU & _)]); [eauto|].
  exfalso. destruct (HD _ _ Hr) as (o & q & H1 & H2). unfold undefined_on in HU. rewrite H1, H2 in HU.
  destruct b; destruct HU as [HU|(x & _ & HU)]; discriminate HU.
Qed.
