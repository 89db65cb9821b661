(** Proofs of C84. *)
From Coq Require Import Ascii String.
From Verif Require Import Base BaseFacts Data PFHw PFRef PFTotal Encoding SpecEnc EncFacts EncProofs SpecOut
  Discrete Convert DiscreteIO SpecIO RegionLoop PFTest SpecTest PFTestProofs Serializer SerText SpecSer SerProofs SerTextFacts SerRecover SerFinal PFFileProofs SpecMemory MemProofs SpecReplay.
Local Open Scope list_scope.
Local Open Scope Z_scope.

Lemma same_ne_trans a b x : same_ne a b -> same_ne a x -> same_ne b x.
Proof. unfold same_ne. intros (E1 & E2 & E3 & E4) (F1 & F2 & F3 & F4). repeat split; congruence. Qed.
Lemma same_nes_trans l l' : Forall2 same_ne l l' -> forall m, Forall2 same_ne l m -> Forall2 same_ne l' m.
Proof. induction 1 as [|a b l l' E H IH]; intros m Hm; inversion Hm; subst; constructor; [eapply same_ne_trans; eassumption|auto]. Qed.
Lemma zip_same : forall q p, length p = length q -> Forall2 same_ne q (zip_puppi p q).
Proof.
  unfold zip_puppi. induction q as [|x q IH]; intros [|y p] L; try discriminate L; cbn [combine map]; constructor; [repeat split|].
  apply IH. cbn in L. congruence.
Qed.

Lemma run_replays b c mh mr r t : build_ok b c -> b <> Plain -> (NSELCALO c <= NCALO c)%nat -> mem_typed mh -> region_ok c r -> Forall (fun h => 0 <= h_pt h) (fw_calo r) ->
  run_ok b c mh mr r t -> replays b c (pr_in t) (pr_out t) t.
Proof.
  intros HB Hb Hn HM RO HP (E & _ & o & Ho & HS & HW). subst r.
  assert (X : pr_in t = padded (in_size b) (region_words (pr_region t)) /\ pr_out t = padded (out_size b) (output_words o)) by (destruct b; [congruence|exact HW..]). destruct X as [-> ->].
  assert (U : mp7wrapped_unpack_in MP7_NCHANN (NEMCALO c) (NCALO c) (NTRACK c) (NMU c) (padded (in_size b) (region_words (pr_region t))) =
    Ok (fw_emcalo (pr_region t), fw_calo (pr_region t), fw_track (pr_region t), fw_muon (pr_region t))).
  { destruct RO as ((A1 & A2 & A3 & A4) & HE & HH & HT & HU).
    assert (F1 : (2 * (NEMCALO c + NCALO c + NTRACK c + NMU c) <= Nat.min MP7_NCHANN (in_size b))%nat) by (destruct HB as (_ & HB); destruct b; [congruence|apply HB..]).
    unfold padded, region_words. rewrite <- !app_assoc, <- A1, <- A2, <- A3, <- A4. apply unpack_in_layout; try assumption; lia. }
  split; [exact U|]. split.
  - intros mem. destruct (pf_run_words b c mh (repeat (mkNe 0 0 0 0 0) (NEMCALO c)) (repeat (mkNe 0 0 0 0 0) (NSELCALO c)) (pr_region t) o HB HM ltac:(apply repeat_length) ltac:(apply repeat_length) RO Ho Hb) as (d & _ & Ed & -> & _).
    rewrite <- Ed. apply wrapper_same; [exact Hn|]. intros em had tk mu U'. rewrite U in U'. injection U' as _ <- _ _. exact HP.
  - intros pho ne Lp Ln. destruct (pf_run_words b c mh pho ne (pr_region t) o HB HM Lp Ln RO Ho Hb) as (d & _ & _ & -> & Ud). destruct HS as (S1 & S2 & S3 & S4).
    exists (zip_puppi pho (o_pho o)), (zip_puppi ne (o_ne o)). rewrite Ud, S1, S4. split; [reflexivity|].
    destruct RO as ((A1 & A2 & A3 & A4) & _). destruct (pf_shape _ _ _ _ _ _ _ Ho) as (Z1 & Z2 & Z3 & Z4 & _).
    split; eapply same_nes_trans; try eassumption; apply zip_same; congruence.
Qed.

(** ** Reading the files *)
Lemma filler_32 m p e j : inU 32 (filler m p e j).
Proof. unfold filler, inU. destruct m; [|lia]. pose proof (Z.mod_pos_bound (Z.of_nat p) 65536 eq_refl). pose proof (Z.mod_pos_bound (Z.of_nat e) 256 eq_refl). pose proof (Z.mod_pos_bound (Z.of_nat j) 256 eq_refl). lia. Qed.
Lemma nth_32 l j : Forall (inU 32) l -> inU 32 (nth j l 0).
Proof. intros H. destruct (nth_in_or_default j l 0) as [I| ->]; [exact (proj1 (Forall_forall _ _) H _ I)|unfold inU; lia]. Qed.
Lemma pattern_32 n m words p j : Forall event_ok words -> inU 32 (pattern n m words p j).
Proof.
  intros H. unfold pattern. cbv zeta. destruct (_ <? _)%nat; [|unfold inU; lia]. destruct (_ =? 0)%nat; [|apply filler_32]. apply nth_32.
  destruct (nth_in_or_default (p / (n + 1)) words []) as [I| ->]; [|constructor]. apply (proj1 (Forall_forall _ _) H _ I).
Qed.
Lemma frames_ok ii m words n nl : Forall event_ok words -> Z.of_nat n < 2 ^ 32 -> Forall line_ok (map (frame ii nl (pattern (ii - 1) m words)) (seq 0 n)).
Proof.
  intros H Hn. apply Forall_forall. intros l Hl. apply in_map_iff in Hl as (f & <- & Hf). apply in_seq in Hf. unfold line_ok, frame. cbn [fst snd]. split; [lia|].
  apply Forall_forall. intros x Hx. unfold clock in Hx. apply in_map_iff in Hx as (w & <- & _). unfold muxed. apply pattern_32. exact H.
Qed.
Lemma frame_words ii m words i : (1 <= ii)%nat -> (MP7_NCHANN mod ii = 0)%nat -> Forall event_ok words -> (i < length words)%nat ->
  test_words ii (map (frame ii (MP7_NCHANN / ii) (pattern (ii - 1) m words)) (seq 0 (ii * length words))) i = nth i words [].
Proof.
  intros H1 H2 HE Hi. assert (LN : length (nth i words []) = MP7_NCHANN) by (apply (proj1 (Forall_forall _ _) HE); apply nth_In; exact Hi).
  unfold test_words. apply (nth_ext _ _ 0 0); [rewrite map_length, seq_length; symmetry; exact LN|]. intros j Hj. rewrite map_length, seq_length in Hj.
  rewrite (nth_indep _ 0 ((fun j => nth (j / ii) (snd (nth (ii * i + j mod ii) (map (frame ii (MP7_NCHANN / ii) (pattern (ii - 1) m words)) (seq 0 (ii * length words))) (0, []))) 0) 0%nat)) by (rewrite map_length, seq_length; exact Hj).
  rewrite (map_nth (fun j => nth (j / ii) (snd (nth (ii * i + j mod ii) (map (frame ii (MP7_NCHANN / ii) (pattern (ii - 1) m words)) (seq 0 (ii * length words))) (0, []))) 0)).
  rewrite seq_nth by exact Hj. cbn [Nat.add]. pose proof (Nat.mod_upper_bound j ii ltac:(lia)) as Hm. pose proof (Nat.div_mod j ii ltac:(lia)) as Hd.
  assert (Hf : (ii * i + j mod ii < ii * length words)%nat) by nia.
  rewrite (nth_indep _ (0, []) (frame ii (MP7_NCHANN / ii) (pattern (ii - 1) m words) 0%nat)) by (rewrite map_length, seq_length; exact Hf).
  rewrite map_nth, seq_nth by exact Hf. cbn [Nat.add]. unfold frame. cbn [snd]. unfold clock.
  assert (Hq : (j / ii < MP7_NCHANN / ii)%nat). { apply Nat.div_lt_upper_bound; [lia|]. assert (MP7_NCHANN = ii * (MP7_NCHANN / ii))%nat by (apply Nat.div_exact; [lia|exact H2]). lia. }
  rewrite (nth_indep _ 0 (muxed ii (pattern (ii - 1) m words) (ii * i + j mod ii) 0%nat)) by (rewrite map_length, seq_length; exact Hq).
  rewrite map_nth, seq_nth by exact Hq. cbn [Nat.add]. unfold muxed. cbv zeta.
  rewrite (Nat.div_small (j / ii)) by exact Hq. rewrite (Nat.mod_small (j / ii)) by exact Hq.
  replace ((ii * i + j mod ii) / ii)%nat with i by (rewrite Nat.add_comm, Nat.mul_comm, Nat.div_add, Nat.div_small by lia; lia).
  replace ((ii * i + j mod ii) mod ii)%nat with (j mod ii)%nat by (rewrite Nat.add_comm, Nat.mul_comm, Nat.mod_add, Nat.mod_mod by lia; reflexivity).
  rewrite Nat.add_0_r. unfold pattern. cbv zeta. replace (ii - 1 + 1)%nat with ii by lia. unfold npatterns. replace (ii - 1 + 1)%nat with ii by lia.
  replace (i * ii <? length words * ii)%nat with true by (symmetry; apply Nat.ltb_lt; nia). rewrite Nat.mod_mul, Nat.div_mul by lia. cbn [Nat.eqb]. f_equal. lia.
Qed.
Lemma plain_words words i : (i < length words)%nat -> line_words (map (fun i => (Z.of_nat i, nth i words [])) (seq 0 (length words))) i = nth i words [].
Proof.
  intros Hi. unfold line_words. rewrite (nth_indep _ (0, []) ((fun i => (Z.of_nat i, nth i words [])) 0%nat)) by (rewrite map_length, seq_length; exact Hi).
  rewrite (map_nth (fun i => (Z.of_nat i, nth i words []))), seq_nth by exact Hi. reflexivity.
Qed.
Lemma plain_ok words : Forall event_ok words -> Z.of_nat (length words) < 2 ^ 32 -> Forall line_ok (map (fun i => (Z.of_nat i, nth i words [])) (seq 0 (length words))).
Proof.
  intros HE Hn. apply Forall_forall. intros l Hl. apply in_map_iff in Hl as (f & <- & Hf). apply in_seq in Hf. unfold line_ok. cbn [fst snd]. split; [lia|].
  apply (proj1 (Forall_forall _ _) HE). apply nth_In. lia.
Qed.

Section replay.
Context (validate : bool) (c : config) (special : Z -> Z) (mh mr : nat -> pfmem) (evs : list event) (runs : list pfrun) (code : Z).
Context (HM : forall t, mem_typed (mh t)) (Hn : (NSELCALO c <= NCALO c)%nat) (HP : Forall (fun t => Forall (fun h => 0 <= h_pt h) (fw_calo (pr_region t))) runs).
Lemma words_ok b : build_ok b c -> b <> Plain -> outcome b validate c mh mr 1 (tested c special NTEST evs) runs code ->
  Forall (fun w => length w = in_size b /\ Forall (inU 32) w) (map pr_in runs) /\ Forall (fun w => length w = out_size b /\ Forall (inU 32) w) (map pr_out runs) /\
  forall i t, nth_error runs i = Some t -> replays b c (nth i (map pr_in runs) []) (nth i (map pr_out runs) []) t.
Proof.
  intros HB Hb HO. split; [|split].
  - apply Forall_forall. intros w Hw. apply in_map_iff in Hw as (t & <- & Ht). destruct (run_region validate c special mh mr evs runs code _ t HO Ht) as (i & RO & OK). destruct (run_words _ _ _ _ _ _ HB Hb RO OK) as (W1 & W2 & W3 & W4). auto.
  - apply Forall_forall. intros w Hw. apply in_map_iff in Hw as (t & <- & Ht). destruct (run_region validate c special mh mr evs runs code _ t HO Ht) as (i & RO & OK). destruct (run_words _ _ _ _ _ _ HB Hb RO OK) as (W1 & W2 & W3 & W4). auto.
  - intros i t Ht. destruct (run_region validate c special mh mr evs runs code _ t HO (nth_error_In _ _ Ht)) as (k & RO & OK).
    assert (E : forall f : pfrun -> list Z, nth i (map f runs) [] = f t). { intros f. apply nth_error_nth. rewrite nth_error_map, Ht. reflexivity. } rewrite !E.
    apply (run_replays b c (mh k) (mr k) (pr_region t) t HB Hb Hn (HM k) RO (proj1 (Forall_forall _ _) HP _ (nth_error_In _ _ Ht)) OK).
Qed.
Lemma c84_mp7 ii board : build_ok MP7 c -> outcome MP7 validate c mh mr 1 (tested c special NTEST evs) runs code -> (1 <= ii)%nat -> (MP7_NCHANN mod ii = 0)%nat -> ~ In newline (chars board) ->
  exists in1 in2 in3 out1 out2 out3, pf_mp7_files ii (map pr_in runs) = Ok (in1, in2, in3) /\ pf_mp7_files ii (map pr_out runs) = Ok (out1, out2, out3) /\
    (forall fin fout, In fin [in1; in2] -> In fout [out1; out2] -> exists lin lout, mp7_read (mp7_text board (links ii 0) fin) = Some lin /\ mp7_read (mp7_text board (links ii 0) fout) = Some lout /\
       length lin = (ii * length runs)%nat /\ length lout = (ii * length runs)%nat /\
       forall i t, nth_error runs i = Some t -> replays MP7 c (test_words ii lin i) (test_words ii lout i) t) /\
    (exists lin lout, mp7_read (mp7_text board (links 1 0) in3) = Some lin /\ mp7_read (mp7_text board (links 1 0) out3) = Some lout /\
       length lin = length runs /\ length lout = length runs /\
       forall i t, nth_error runs i = Some t -> replays MP7 c (line_words lin i) (line_words lout i) t).
Proof.
  intros HB HO H1 H2 Hnl. destruct (words_ok MP7 HB ltac:(discriminate) HO) as (WI & WO & WR).
  pose proof (runs_500 validate c special mh mr evs runs code MP7 HO) as H5. pose proof (mux_range ii H2 H1) as H3.
  assert (NB : nonl (chars board)). { apply Forall_forall. intros x Hx E. subst. contradiction. }
  assert (LI : length (map pr_in runs) = length runs) by apply map_length. assert (LO : length (map pr_out runs) = length runs) by apply map_length.
  rewrite (mp7_files ii (map pr_in runs)) by (try assumption; rewrite LI; lia). rewrite (mp7_files ii (map pr_out runs)) by (try assumption; rewrite LO; lia).
  assert (N0 : Z.of_nat (ii * 500) < 2 ^ 32) by lia. assert (N1 : (ii * length runs <= ii * 500)%nat) by nia.
  do 6 eexists. split; [reflexivity|]. split; [reflexivity|]. split.
  - assert (G : forall words fx m, Forall event_ok words -> length words = length runs -> fx = map (frame ii (MP7_NCHANN / ii) (pattern (ii - 1) m words)) (seq 0 (ii * length words)) ->
      mp7_read (mp7_text board (links ii 0) fx) = Some fx /\ length fx = (ii * length runs)%nat /\ forall i, (i < length runs)%nat -> test_words ii fx i = nth i words []).
    { intros words fx m W L ->. split; [|split].
      - apply mp7_read_text; [exact NB| |apply frames_ok; [exact W|rewrite L; lia]]. unfold links. cbn [Nat.eqb]. assert (MP7_NCHANN / ii <= 144)%nat by (rewrite <- NCH_144; apply Nat.div_le_upper_bound; [lia|nia]). lia.
      - rewrite map_length, seq_length, L. reflexivity.
      - intros i Hi. apply frame_words; try assumption. rewrite L. exact Hi. }
    intros fin fout HI HT. assert (exists m, fin = map (frame ii (MP7_NCHANN / ii) (pattern (ii - 1) m (map pr_in runs))) (seq 0 (ii * length (map pr_in runs)))) as (mi & Ei) by (destruct HI as [<-|[<-|[]]]; eexists; reflexivity).
    assert (exists m, fout = map (frame ii (MP7_NCHANN / ii) (pattern (ii - 1) m (map pr_out runs))) (seq 0 (ii * length (map pr_out runs)))) as (mo & Eo) by (destruct HT as [<-|[<-|[]]]; eexists; reflexivity).
    destruct (G _ fin mi WI LI Ei) as (R1 & L1 & T1). destruct (G _ fout mo WO LO Eo) as (R2 & L2 & T2). exists fin, fout. split; [exact R1|]. split; [exact R2|]. split; [exact L1|]. split; [exact L2|].
    intros i t Ht. assert (Hi : (i < length runs)%nat) by (apply nth_error_Some; congruence). rewrite T1, T2 by exact Hi. apply WR. exact Ht.
  - assert (G : forall words, Forall event_ok words -> length words = length runs -> let fx := map (fun i => (Z.of_nat i, nth i words [])) (seq 0 (length words)) in
      mp7_read (mp7_text board (links 1 0) fx) = Some fx /\ length fx = length runs /\ forall i, (i < length runs)%nat -> line_words fx i = nth i words []).
    { intros words W L fx. split; [|split].
      - apply mp7_read_text; [exact NB|reflexivity|apply plain_ok; [exact W|rewrite L; lia]].
      - unfold fx. rewrite map_length, seq_length, L. reflexivity.
      - intros i Hi. apply plain_words. rewrite L. exact Hi. }
    destruct (G _ WI LI) as (R1 & L1 & T1). destruct (G _ WO LO) as (R2 & L2 & T2). do 2 eexists. split; [exact R1|]. split; [exact R2|]. split; [exact L1|]. split; [exact L2|].
    intros i t Ht. assert (Hi : (i < length runs)%nat) by (apply nth_error_Some; congruence). rewrite T1, T2 by exact Hi. apply WR. exact Ht.
Qed.
Lemma c84_ctp7 : build_ok CTP7 c -> outcome CTP7 validate c mh mr 1 (tested c special NTEST evs) runs code ->
  exists fin fout lin lout, pf_ctp7_file (in_size CTP7) (map pr_in runs) = Ok fin /\ pf_ctp7_file (out_size CTP7) (map pr_out runs) = Ok fout /\
    ctp7_read (ctp7_text true (in_size CTP7) fin) = Some lin /\ ctp7_read (ctp7_text false (out_size CTP7) fout) = Some lout /\
    length lin = Nat.min 1024 (6 * length runs) /\ length lout = Nat.min 1024 (6 * length runs) /\
    forall i t, nth_error (firstn 171 runs) i = Some t -> replays CTP7 c (line_words lin (6 * i)) (line_words lout (6 * i)) t.
Proof.
  intros HB HO. destruct (words_ok CTP7 HB ltac:(discriminate) HO) as (WI & WO & WR).
  assert (LI : length (map pr_in runs) = length runs) by apply map_length. assert (LO : length (map pr_out runs) = length runs) by apply map_length.
  assert (G : forall isInput n words, Z.of_nat n < 2 ^ 32 -> Forall (fun w => length w = n /\ Forall (inU 32) w) words -> length words = length runs ->
    exists fx lx, pf_ctp7_file n words = Ok fx /\ ctp7_read (ctp7_text isInput n fx) = Some lx /\ length lx = Nat.min 1024 (6 * length runs) /\
      forall i, (i < Nat.min 171 (length runs))%nat -> line_words lx (6 * i) = nth i words []).
  { intros isInput n words Hn0 W L.
    assert (E : pf_ctp7_file n words = Ok (map (ctp7_line (map (fun w => (w, n)) words)) (seq 0 (Nat.min 1024 (6 * length (map (fun w => (w, n)) words)))))).
    { unfold pf_ctp7_file. apply ctp7_session_ok. apply Forall_forall. intros p Hp. apply in_firstn in Hp. apply in_map_iff in Hp as (w & <- & Hw). cbn [fst snd]. destruct (proj1 (Forall_forall _ _) W _ Hw) as (Lw & _). lia. }
    eexists. eexists. split; [exact E|]. split; [|split].
    - apply ctp7_text_back with (calls := map (fun w => (w, n)) words); [exact Hn0| |exact E]. apply Forall_forall. intros p Hp. apply in_map_iff in Hp as (w & <- & Hw). cbn [fst snd]. destruct (proj1 (Forall_forall _ _) W _ Hw) as (Lw & Fw). split; [lia|exact Fw].
    - rewrite map_length, seq_length, map_length, L. reflexivity.
    - intros i Hi. unfold line_words. rewrite map_length, L. assert (H6 : (6 * i < Nat.min 1024 (6 * length runs))%nat) by lia.
      rewrite (nth_indep _ (0, []) (ctp7_line (map (fun w => (w, n)) words) 0%nat)) by (rewrite map_length, seq_length; exact H6).
      rewrite map_nth, seq_nth by exact H6. cbn [Nat.add]. unfold ctp7_line. replace (6 * i / 6)%nat with i by (rewrite Nat.mul_comm, Nat.div_mul by lia; reflexivity).
      assert (Hl : (i < length words)%nat) by lia.
      rewrite (nth_indep _ _ ([], n)) by (rewrite map_length; exact Hl). change (@nil Z, n) with ((fun w => (w, n)) (@nil Z)). rewrite map_nth. cbn [snd].
      replace ((6 * i) mod 6)%nat with 0%nat by (rewrite Nat.mul_comm, Nat.mod_mul by lia; reflexivity). cbn [Nat.eqb]. apply firstn_all2.
      destruct (proj1 (Forall_forall _ _) W (nth i words [])) as (Lw & _); [apply nth_In; exact Hl|lia]. }
  destruct (G true (in_size CTP7) _ ltac:(reflexivity) WI LI) as (fin & lin & E1 & R1 & L1 & T1). destruct (G false (out_size CTP7) _ ltac:(reflexivity) WO LO) as (fout & lout & E2 & R2 & L2 & T2).
  exists fin, fout, lin, lout. do 6 (split; [assumption|]). intros i t Ht.
  assert (Hi : (i < Nat.min 171 (length runs))%nat). { rewrite <- firstn_length. apply nth_error_Some. congruence. }
  rewrite T1, T2 by exact Hi. apply WR. rewrite <- Ht. clear - Hi. assert (H : (i < 171)%nat) by lia. rewrite <- (firstn_skipn 171 runs) at 1. apply nth_error_app1. rewrite firstn_length. exact Hi.
Qed.
End replay.
