(** Proofs about the files the particle-flow test program writes. *)
From Coq Require Import Ascii String.
From Verif Require Import Base BaseFacts Data PFHw PFRef PFTotal Encoding SpecEnc EncFacts EncProofs SpecOut
  Discrete Convert DiscreteIO SpecIO RegionLoop PFTest SpecTest PFTestProofs Serializer SpecSer SerProofs SerRecover SerFinal HumanRead SpecHR HRProofs.
Local Open Scope list_scope.
Local Open Scope Z_scope.

Lemma flat_32 {A} (f : A -> list Z) l : (forall x, Forall (inU 32) (f x)) -> Forall (inU 32) (flat_map f l).
Proof. intros H. induction l; cbn; [constructor|]. apply Forall_app. auto. Qed.
Lemma region_words_32 r : Forall (inU 32) (region_words r).
Proof.
  unfold region_words. repeat (apply Forall_app; split); apply flat_32; intros x; unfold em_words, had_words, tk_words, mu_words; repeat constructor; unfold inU; try destruct (h_isem x); try destruct (t_tight x); lia.
Qed.
Lemma output_words_32 o : Forall (inU 32) (output_words o).
Proof. unfold output_words. repeat (apply Forall_app; split); apply flat_32; intros x; unfold ch_words, ne_words; repeat constructor; unfold inU; lia. Qed.
Lemma padded_32 n l : Forall (inU 32) l -> Forall (inU 32) (padded n l).
Proof. intros H. apply Forall_app. split; [exact H|]. apply Forall_forall. intros x Hx. apply repeat_spec in Hx. subst. unfold inU. lia. Qed.
Lemma padded_len n l : (length l <= n)%nat -> length (padded n l) = n.
Proof. intros H. unfold padded. rewrite app_length, repeat_length. lia. Qed.

(** every test is of some region *)
Lemma outcome_run b validate c mh mr first l runs code t : outcome b validate c mh mr first l runs code -> In t runs -> exists i r, In r l /\ run_ok b c (mh i) (mr i) r t.
Proof. intros (H & _) Ht. apply In_nth_error in Ht as (i & Hi). destruct (H i t Hi) as (r & Hr & OK). exists (first + i)%nat, r. split; [eapply nth_error_In; exact Hr|exact OK]. Qed.
Lemma outcome_len b validate c mh mr first l runs code : outcome b validate c mh mr first l runs code -> (length runs <= length l)%nat.
Proof.
  intros (H & _). destruct (nth_error runs (length l)) eqn:E; [|apply nth_error_None in E; exact E]. destruct (H _ _ E) as (r & Hr & _).
  assert (nth_error l (length l) = None) by (apply nth_error_None; lia). congruence.
Qed.

(** words of every test *)
Lemma run_words b c mh mr r t : build_ok b c -> b <> Plain -> region_ok c r -> run_ok b c mh mr r t ->
  length (pr_in t) = in_size b /\ length (pr_out t) = out_size b /\ Forall (inU 32) (pr_in t) /\ Forall (inU 32) (pr_out t).
Proof.
  intros HB Hb ((A1 & A2 & A3 & A4) & _) (_ & _ & o & Ho & _ & HW).
  destruct (pf_shape _ _ _ _ _ _ _ Ho) as (S1 & S2 & S3 & S4 & _).
  assert (F : (2 * (NEMCALO c + NCALO c + NTRACK c + NMU c) <= Nat.min MP7_NCHANN (in_size b))%nat /\ (2 * (NTRACK c + NEMCALO c + NSELCALO c + NMU c) <= Nat.min MP7_NCHANN (out_size b))%nat) by (destruct HB as (_ & HB); destruct b; [congruence|exact HB..]).
  assert (E : pr_in t = padded (in_size b) (region_words r) /\ pr_out t = padded (out_size b) (output_words o)) by (destruct b; [congruence|exact HW..]). destruct E as [-> ->].
  rewrite !padded_len by (rewrite ?region_words_len, ?output_words_len; lia).
  repeat split; apply padded_32; [apply region_words_32|apply output_words_32].
Qed.

Lemma few_small nempty words : Z.of_nat (length words) <= 20000 -> Z.abs nempty <= 144 -> few nempty words.
Proof. intros H1 H2. unfold few, npatterns. nia. Qed.
Lemma mux_range ii : (MP7_NCHANN mod ii = 0)%nat -> (1 <= ii)%nat -> (ii <= 144)%nat.
Proof. intros H H1. destruct (Nat.le_gt_cases ii 144) as [L|L]; [exact L|]. rewrite Nat.mod_small in H by (rewrite NCH_144; lia). discriminate H. Qed.
Lemma session_frames ii nempty words : (1 <= ii)%nat -> (MP7_NCHANN mod ii = 0)%nat -> Z.abs nempty = Z.of_nat ii - 1 -> Forall event_ok words -> Z.of_nat (length words) <= 20000 ->
  exists before, mp7_session true ii nempty 0 words = Ok (before, map (frame ii (MP7_NCHANN / ii) (pattern (ii - 1) (nempty <? 0) words)) (seq 0 (ii * length words))).
Proof.
  intros H1 H2 Ha HE HL. pose proof (mux_range ii H2 H1) as H3.
  assert (M : mux_ok ii nempty 0). { split; [exact H1|]. split; [exact H2|]. split; [unfold links; cbn [Nat.eqb]; apply Nat.div_le_upper_bound; [lia|]; destruct ii; lia|lia]. }
  assert (A : Z.abs_nat nempty = (ii - 1)%nat) by lia.
  destruct (c44_words ii nempty 0 words M HE (few_small nempty words HL ltac:(lia))) as (before & closed & E & _ & (_ & F)). rewrite A in *.
  assert (P : npatterns (ii - 1) words = (length words * ii)%nat) by (unfold npatterns; replace (ii - 1 + 1)%nat with ii by lia; reflexivity). rewrite P in F.
  assert (R : ((length words * ii) mod ii = 0)%nat) by (apply Nat.mod_mul; lia).
  assert (D : ((length words * ii + ii - 1) / ii)%nat = length words). { replace (length words * ii + ii - 1)%nat with ((ii - 1) + length words * ii)%nat by lia. rewrite Nat.div_add, Nat.div_small by lia. reflexivity. }
  rewrite D in F. exists before. rewrite E, F by (left; exact R). reflexivity.
Qed.
Lemma mp7_files ii words : (1 <= ii)%nat -> (MP7_NCHANN mod ii = 0)%nat -> Forall event_ok words -> Z.of_nat (length words) <= 20000 ->
  pf_mp7_files ii words = Ok (map (frame ii (MP7_NCHANN / ii) (pattern (ii - 1) false words)) (seq 0 (ii * length words)),
                              map (frame ii (MP7_NCHANN / ii) (pattern (ii - 1) (1 <? ii)%nat words)) (seq 0 (ii * length words)),
                              map (fun i => (Z.of_nat i, nth i words [])) (seq 0 (length words))).
Proof.
  intros H1 H2 HE HL. unfold pf_mp7_files.
  destruct (session_frames ii (Z.of_nat ii - 1) words H1 H2 ltac:(lia) HE HL) as (b1 & E1). rewrite E1. cbn [bind snd].
  destruct (session_frames ii (- Z.of_nat ii + 1) words H1 H2 ltac:(lia) HE HL) as (b2 & E2). rewrite E2. cbn [bind snd].
  pose proof (c43_nomux 0 words ltac:(apply Nat.leb_le; reflexivity) HE (few_small 0 words HL ltac:(lia))) as E3. cbn zeta in E3. rewrite E3. cbn [bind snd].
  replace (Z.of_nat ii - 1 <? 0) with false by (symmetry; apply Z.ltb_ge; lia).
  replace (- Z.of_nat ii + 1 <? 0) with (1 <? ii)%nat by (destruct (Nat.ltb_spec 1 ii); symmetry; [apply Z.ltb_lt|apply Z.ltb_ge]; lia).
  do 2 f_equal. apply map_ext_in. intros i Hi. apply in_seq in Hi. f_equal. change (links 1 0) with MP7_NCHANN. apply firstn_all2.
  assert (Hn : In (nth i words []) words) by (apply nth_In; lia). destruct (proj1 (Forall_forall _ _) HE _ Hn) as (-> & _). lia.
Qed.

Lemma tested_len c special n evs : (length (tested c special n evs) <= n)%nat.
Proof. unfold tested. apply firstn_le_length. Qed.

Section files.
Context (validate : bool) (c : config) (special : Z -> Z) (mh mr : nat -> pfmem) (evs : list event) (runs : list pfrun) (code : Z).
Lemma runs_500 b : outcome b validate c mh mr 1 (tested c special NTEST evs) runs code -> (length runs <= 500)%nat.
Proof. intros H. apply outcome_len in H. pose proof (tested_len c special NTEST evs). change NTEST with 500%nat in *. lia. Qed.
Lemma run_region b t : outcome b validate c mh mr 1 (tested c special NTEST evs) runs code -> In t runs -> exists i, region_ok c (pr_region t) /\ run_ok b c (mh i) (mr i) (pr_region t) t.
Proof.
  intros H Ht. destruct (outcome_run _ _ _ _ _ _ _ _ _ _ H Ht) as (i & r & Hr & OK). exists i. pose proof OK as (E & _). subst r. split; [|exact OK].
  exact (proj1 (Forall_forall _ _) (tested_ok c special NTEST evs) _ Hr).
Qed.
Lemma c57_mp7 ii : build_ok MP7 c -> outcome MP7 validate c mh mr 1 (tested c special NTEST evs) runs code -> (1 <= ii)%nat -> (MP7_NCHANN mod ii = 0)%nat ->
  forall words, words = map pr_in runs \/ words = map pr_out runs ->
  pf_mp7_files ii words = Ok (map (frame ii (MP7_NCHANN / ii) (pattern (ii - 1) false words)) (seq 0 (ii * length runs)),
                              map (frame ii (MP7_NCHANN / ii) (pattern (ii - 1) (1 <? ii)%nat words)) (seq 0 (ii * length runs)),
                              map (fun i => (Z.of_nat i, nth i words [])) (seq 0 (length runs))).
Proof.
  intros HB HO H1 H2 words HW. assert (L : length words = length runs) by (destruct HW as [-> | ->]; apply map_length). rewrite <- L.
  apply mp7_files; try assumption; [|rewrite L; pose proof (runs_500 _ HO); lia].
  apply Forall_forall. intros w Hw. assert (exists t, In t runs /\ (w = pr_in t \/ w = pr_out t)) as (t & Ht & E) by (destruct HW as [-> | ->]; apply in_map_iff in Hw as (t & <- & Ht); eauto).
  destruct (run_region _ t HO Ht) as (i & RO & OK). destruct (run_words _ _ _ _ _ _ HB ltac:(discriminate) RO OK) as (W1 & W2 & W3 & W4). destruct E as [-> | ->]; split; assumption.
Qed.
Lemma c57_ctp7 : build_ok CTP7 c -> outcome CTP7 validate c mh mr 1 (tested c special NTEST evs) runs code ->
  pf_ctp7_file (in_size CTP7) (map pr_in runs) = Ok (map (fun i => (Z.of_nat i, if (i mod 6 =? 0)%nat then nth (i / 6) (map pr_in runs) [] else repeat 0 (in_size CTP7))) (seq 0 (Nat.min 1024 (6 * length runs)))) /\
  pf_ctp7_file (out_size CTP7) (map pr_out runs) = Ok (map (fun i => (Z.of_nat i, if (i mod 6 =? 0)%nat then nth (i / 6) (map pr_out runs) [] else repeat 0 (out_size CTP7))) (seq 0 (Nat.min 1024 (6 * length runs)))).
Proof.
  intros HB HO.
  assert (G : forall n words, length words = length runs -> Forall (fun w => length w = n) words ->
     pf_ctp7_file n words = Ok (map (fun i => (Z.of_nat i, if (i mod 6 =? 0)%nat then nth (i / 6) words [] else repeat 0 n)) (seq 0 (Nat.min 1024 (6 * length runs))))).
  { intros n words L HW. unfold pf_ctp7_file. rewrite ctp7_session_ok.
    - rewrite map_length, L. f_equal. apply map_ext_in. intros i Hi. apply in_seq in Hi. unfold ctp7_line.
      assert (Hd : (i / 6 < length words)%nat) by (apply Nat.div_lt_upper_bound; lia).
      rewrite (nth_indep _ _ ([], n)) by (rewrite map_length; exact Hd). change (@nil Z, n) with ((fun w => (w, n)) (@nil Z)). rewrite map_nth. f_equal. destruct (_ =? 0)%nat; [|reflexivity].
      apply firstn_all2. assert (Hn : In (nth (i / 6) words []) words) by (apply nth_In; exact Hd). rewrite (proj1 (Forall_forall _ _) HW _ Hn). lia.
    - apply Forall_forall. intros p Hp. apply in_firstn in Hp. apply in_map_iff in Hp as (w & <- & Hw). cbn [fst snd]. rewrite (proj1 (Forall_forall _ _) HW _ Hw). lia. }
  split; apply G; try apply map_length; apply Forall_forall; intros w Hw; apply in_map_iff in Hw as (t & <- & Ht);
    destruct (run_region _ t HO Ht) as (i & RO & OK); destruct (run_words _ _ _ _ _ _ HB ltac:(discriminate) RO OK) as (W1 & W2 & W3 & W4); assumption.
Qed.

Definition hr_of (t : pfrun) : hrev := mkHrev (fw_emcalo (pr_region t)) (fw_calo (pr_region t)) (fw_track (pr_region t)) (fw_muon (pr_region t)) (pr_hw t).
Lemma same_ok l1 l2 : Forall2 same_ne l1 l2 -> Forall ne_ok l1 -> Forall ne_ok l2.
Proof.
  induction 1 as [|x y l1 l2 (E1 & E2 & E3 & E4) _ IH]; intros H; [constructor|]. inversion H as [|? ? (N1 & N2 & N3 & N4) H2]; subst. constructor; [|auto]. unfold ne_ok. rewrite <- E1, <- E2, <- E3, <- E4. auto.
Qed.
Lemma c57_hr b : cfg_fits c -> (forall t, mem_typed (mh t)) -> outcome b validate c mh mr 1 (tested c special NTEST evs) runs code ->
  exists text, pf_hr_file runs = Ok text /\ read_table text = table (map hr_of runs).
Proof.
  intros HC HM HO. unfold pf_hr_file. apply (table_text c); [exact HC| | |rewrite map_length; pose proof (runs_500 _ HO); lia].
  - apply Forall_forall. intros e He. apply in_map_iff in He as (t & <- & Ht). destruct (run_region _ t HO Ht) as (i & ((A1 & A2 & A3 & A4) & _) & (_ & _ & o & Ho & (E1 & E2 & E3 & E4) & _)).
    destruct (pf_shape _ _ _ _ _ _ _ Ho) as (S1 & S2 & S3 & S4 & _). apply Forall2_len in E2, E3. unfold hrev_sized, hr_of. cbn [he_em he_had he_tk he_mu he_out]. rewrite <- E1, <- E4. repeat split; congruence.
  - apply Forall_forall. intros e He. apply in_map_iff in He as (t & <- & Ht). destruct (run_region _ t HO Ht) as (i & (_ & HE & HH & HT & HU) & (_ & _ & o & Ho & (E1 & E2 & E3 & E4) & _)).
    destruct (pf_ranges _ _ _ _ _ _ _ HE HH HT (HM i) Ho) as (R1 & R2 & R3 & R4). unfold hrev_ok, hr_of. cbn [he_em he_had he_tk he_mu he_out]. rewrite <- E1, <- E4. repeat (split; [assumption || (eapply same_ok; eassumption)|]). assumption.
Qed.
End files.
