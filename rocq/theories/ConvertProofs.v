From Verif Require Import Base BaseFacts Data TabFacts Discrete Convert DiscreteIO SpecIO SpecConvert IOFacts ConvertFacts.

Lemma narrow_eta x : narrow10 x (etaphi_t x).
Proof.
  split; [apply wrapS_range; lia|]. unfold etaphi_t. destruct (wrapS10_spec x) as (k & ->). replace (x + 1024 * k - x) with (k * 1024) by lia. apply Z_mod_mult.
Qed.
Lemma pt_id x : inS 16 x -> pt_t x = x.
Proof. intros H. apply wrapS_id; [lia|exact H]. Qed.
Lemma slots {In Out} (conv : In -> Out) clr (of : In -> Out -> Prop) (wf : In -> Prop) NMAX ins out : (forall x, wf x -> of x (conv x)) ->
  fits ins -> length out = NMAX -> Forall wf ins -> exists r, convert_in conv clr NMAX ins out = Ok r /\ slots_ok of clr NMAX ins r.
Proof.
  intros HC HF HL HW. eexists. split; [apply convert_in_ok; assumption|]. split; [apply length_filled|].
  intros i y. unfold filled. destruct (Nat.lt_ge_cases i (length (firstn NMAX ins))) as [G|G].
  - rewrite nth_error_app1 by (rewrite map_length; exact G). rewrite nth_error_map'. intros H.
    assert (E : nth_error (firstn NMAX ins) i = nth_error ins i) by (rewrite <- (firstn_skipn NMAX ins) at 2; rewrite nth_error_app1 by exact G; reflexivity).
    rewrite E in H. destruct (nth_error ins i) as [x|] eqn:EX; [|discriminate]. injection H as <-. apply HC. apply nth_error_In in EX. rewrite Forall_forall in HW. auto.
  - rewrite nth_error_app2 by (rewrite map_length; exact G). intros H. pose proof (nth_error_In _ _ H) as HI. apply repeat_spec in HI. subst y.
    assert (B : (i - length (map conv (firstn NMAX ins)) < NMAX - length ins)%nat) by (rewrite <- (repeat_length clr (NMAX - length ins)); apply nth_error_Some; congruence).
    rewrite map_length, firstn_length in B. rewrite firstn_length in G.
    destruct (nth_error ins i) eqn:EX; [|reflexivity]. assert (nth_error ins i <> None) as X by congruence. apply nth_error_Some in X. lia.
Qed.
Lemma tk_conv x : ptk_wf x -> tk_of x (fw_tk x).
Proof.
  intros (_ & H1 & H2 & H3 & _). unfold tk_of, fw_tk. cbn [t_pt t_pterr t_eta t_phi t_z0 t_tight]. rewrite !pt_id by assumption. repeat (split; [first [reflexivity|apply narrow_eta]|]).
  rewrite andb_true_iff. lia.
Qed.
Lemma had_conv x : clu_wf x -> had_of x (fw_had x).
Proof. intros (H1 & H2 & _). unfold had_of, fw_had. cbn. rewrite !pt_id by assumption. repeat (split; [first [reflexivity|apply narrow_eta]|]). reflexivity. Qed.
Lemma em_conv x : clu_wf x -> em_of x (fw_em x).
Proof. intros (H1 & H2 & H3 & _). unfold em_of, fw_em. cbn. rewrite !pt_id by assumption. repeat (split; [first [reflexivity|apply narrow_eta]|]). apply narrow_eta. Qed.
Lemma mu_conv x : dmu_wf x -> mu_of x (fw_mu x).
Proof. intros (H1 & _). unfold mu_of, fw_mu. cbn. rewrite !pt_id by assumption. repeat (split; [first [reflexivity|apply narrow_eta]|]). apply narrow_eta. Qed.

Lemma c49_tracks NMAX ins out : fits ins -> length out = NMAX -> Forall ptk_wf ins -> exists r, convert_in fw_tk tk0 NMAX ins out = Ok r /\ slots_ok tk_of tk0 NMAX ins r.
Proof. intros. apply (slots _ _ _ ptk_wf); auto using tk_conv. Qed.
Lemma c49_had NMAX ins out : fits ins -> length out = NMAX -> Forall clu_wf ins -> exists r, convert_in fw_had had0 NMAX ins out = Ok r /\ slots_ok had_of had0 NMAX ins r.
Proof. intros. apply (slots _ _ _ clu_wf); auto using had_conv. Qed.
Lemma c49_em NMAX ins out : fits ins -> length out = NMAX -> Forall clu_wf ins -> exists r, convert_in fw_em em0 NMAX ins out = Ok r /\ slots_ok em_of em0 NMAX ins r.
Proof. intros. apply (slots _ _ _ clu_wf); auto using em_conv. Qed.
Lemma c49_mu NMAX ins out : fits ins -> length out = NMAX -> Forall dmu_wf ins -> exists r, convert_in fw_mu mu0 NMAX ins out = Ok r /\ slots_ok mu_of mu0 NMAX ins r.
Proof. intros. apply (slots _ _ _ dmu_wf); auto using mu_conv. Qed.
Lemma narrow_same x y : narrow10 x y -> inS 10 x -> y = x.
Proof. intros ((A & B) & M) (C & D). change (10 - 1) with 9 in *. change (2 ^ 9) with 512 in *. lia. Qed.

(** ** Firmware to discrete *)
Lemma foldM_filter {A B} (p : A -> bool) (f : A -> res B) (k : list B -> A -> res (list B)) :
  (forall o x, k o x = if p x then do y <- f x; Ok (o ++ [y]) else Ok o) -> forall l o, foldM k l o = do ys <- mapM f (filter p l); Ok (o ++ ys).
Proof.
  intros H. induction l as [|x r IH]; intros o; cbn [foldM filter]; [cbn; rewrite app_nil_r; reflexivity|]. rewrite H. destruct (p x); cbn [mapM bind]; [|apply IH].
  destruct (f x) as [y|u]; cbn [bind]; [|reflexivity]. rewrite IH. destruct (mapM f (filter p r)) as [ys|u]; cbn [bind]; [|reflexivity]. now rewrite <- app_assoc.
Qed.
Lemma foldM_rd_indexed {A S} (ins : list A) (k : S -> nat -> A -> res S) s : foldM (fun o i => do x <- rd ins i; k o i x) (seq 0 (length ins)) s = foldM (fun o p => k o (fst p) (snd p)) (indexed ins) s.
Proof.
  unfold indexed. assert (G : forall l pre s, foldM (fun o i => do x <- rd (pre ++ l) i; k o i x) (seq (length pre) (length l)) s = foldM (fun o p => k o (fst p) (snd p)) (combine (seq (length pre) (length l)) l) s).
  { induction l as [|x r IH]; intros pre s0; [reflexivity|]. cbn [length seq combine foldM fst snd]. unfold rd at 1. rewrite nth_error_app2, Nat.sub_diag by lia. cbn [nth_error bind].
    destruct (k s0 (length pre) x) as [s1|u]; cbn [bind]; [|reflexivity]. specialize (IH (pre ++ [x]) s1). rewrite app_length in IH. cbn [length] in IH. rewrite Nat.add_1_r in IH. rewrite <- IH.
    rewrite <- app_assoc. reflexivity. }
  apply (G ins []).
Qed.
Lemma filter_snd_indexed {A} (p : A -> bool) (l : list A) : map snd (filter (fun q => p (snd q)) (indexed l)) = filter p l.
Proof.
  rewrite <- (map_snd_indexed l) at 2. generalize (indexed l). induction l0 as [|[i x] r IH]; [reflexivity|]. cbn [filter map snd]. destruct (p x); cbn [map snd]; rewrite IH; reflexivity.
Qed.
Lemma ne_conv g x : ne_of x (dpf_ne g x).
Proof. unfold ne_of, dpf_ne. cbn. repeat (split; [reflexivity|]). intros k [<-|[<-|[]]] ->; reflexivity. Qed.
Lemma ch_conv g x t : ch_of x t (dpf_ch g x t).
Proof. unfold ch_of, dpf_ch. cbn. repeat (split; [reflexivity|]). intros k [<-|[<-|[<-|[]]]] ->; reflexivity. Qed.

Lemma c50_neutrals garb ins out : exists ps, convert_ne garb (length ins) ins out = Ok (out ++ ps) /\ Forall2 ne_of (filter (fun x => n_pt x >? 0) ins) ps.
Proof.
  unfold convert_ne. rewrite (foldM_rd_indexed ins (fun o i x => Ok (if n_pt x >? 0 then o ++ [dpf_ne (garb i) x] else o))).
  rewrite (foldM_filter (fun q => n_pt (snd q) >? 0) (fun q => Ok (dpf_ne (garb (fst q)) (snd q)))) by (intros o [i x]; cbn; destruct (n_pt x >? 0); reflexivity).
  rewrite (mapM_Ok _ (fun q => dpf_ne (garb (fst q)) (snd q))) by auto. cbn [bind]. eexists. split; [reflexivity|].
  rewrite <- filter_snd_indexed. induction (filter _ (indexed ins)) as [|q r IH]; cbn; constructor; [apply ne_conv|exact IH].
Qed.
Lemma c50_charged garb ins src out : (forall i x, nth_error ins i = Some x -> 0 < c_pt x -> (i < length src)%nat) ->
  exists ps, convert_ch garb (length ins) ins src out = Ok (out ++ ps) /\ Forall2 (fun q p => exists t, nth_error src (fst q) = Some t /\ ch_of (snd q) t p) (filter (fun q => c_pt (snd q) >? 0) (indexed ins)) ps.
Proof.
  intros H. unfold convert_ch.
  rewrite (foldM_rd_indexed ins (fun o i x => if c_pt x >? 0 then (if (i <? length src)%nat then do t <- rd src i; Ok (o ++ [dpf_ch (garb i) x t]) else UB AssertFail) else Ok o)).
  rewrite (foldM_filter (fun q => c_pt (snd q) >? 0) (fun q => if (fst q <? length src)%nat then do t <- rd src (fst q); Ok (dpf_ch (garb (fst q)) (snd q) t) else UB AssertFail)).
  2: { intros o [i x]. cbn [fst snd]. destruct (c_pt x >? 0); [|reflexivity]. destruct (i <? length src)%nat; [|reflexivity]. destruct (rd src i); reflexivity. }
  assert (G : forall q, In q (filter (fun q => c_pt (snd q) >? 0) (indexed ins)) -> exists t, nth_error src (fst q) = Some t).
  { intros [i x] Hq. apply filter_In in Hq. destruct Hq as (Hi & Hp). cbn [fst snd] in *. apply in_indexed in Hi. apply nth_error_lt. eapply H; [exact Hi|lia]. }
  rewrite (mapM_Ok _ (fun q => dpf_ch (garb (fst q)) (snd q) (nth (fst q) src ptk0))).
  - cbn [bind]. eexists. split; [reflexivity|]. revert G. induction (filter _ (indexed ins)) as [|q r IH]; intros G; cbn; constructor.
    + destruct (G q (or_introl eq_refl)) as (t & Ht). exists t. split; [exact Ht|]. rewrite (nth_error_nth' _ _ _ _ Ht). apply ch_conv.
    + apply IH. intros q' Hq'. apply G. right. exact Hq'.
  - intros q Hq. destruct (G q Hq) as (t & Ht). assert ((fst q < length src)%nat) by (apply nth_error_Some; congruence).
    destruct (Nat.ltb_spec (fst q) (length src)); [|lia]. rewrite (rd_Ok _ _ ptk0) by assumption. reflexivity.
Qed.
Lemma c50_assert garb ins src out i x : nth_error ins i = Some x -> 0 < c_pt x -> (length src <= i)%nat -> convert_ch garb (length ins) ins src out = UB AssertFail.
Proof.
  intros Hi Hp HL. unfold convert_ch.
  rewrite (foldM_rd_indexed ins (fun o i x => if c_pt x >? 0 then (if (i <? length src)%nat then do t <- rd src i; Ok (o ++ [dpf_ch (garb i) x t]) else UB AssertFail) else Ok o)).
  rewrite (foldM_filter (fun q => c_pt (snd q) >? 0) (fun q => if (fst q <? length src)%nat then do t <- rd src (fst q); Ok (dpf_ch (garb (fst q)) (snd q) t) else UB AssertFail)).
  2: { intros o [j y]. cbn [fst snd]. destruct (c_pt y >? 0); [|reflexivity]. destruct (j <? length src)%nat; [|reflexivity]. destruct (rd src j); reflexivity. }
  assert (HI : In (i, x) (filter (fun q => c_pt (snd q) >? 0) (indexed ins))) by (apply filter_In; split; [apply in_indexed; exact Hi|cbn; lia]).
  assert (E : mapM (fun q : nat * PFCh => if (fst q <? length src)%nat then do t <- rd src (fst q); Ok (dpf_ch (garb (fst q)) (snd q) t) else UB AssertFail) (filter (fun q => c_pt (snd q) >? 0) (indexed ins)) = UB AssertFail).
  { revert HI. induction (filter _ (indexed ins)) as [|q r IH]; intros HI; [destruct HI|]. cbn [mapM]. destruct HI as [->|HI].
    - cbn [fst]. destruct (Nat.ltb_spec i (length src)); [lia|reflexivity].
    - destruct (Nat.ltb_spec (fst q) (length src)); [|reflexivity]. rewrite (rd_Ok _ _ ptk0) by assumption. cbn [bind]. rewrite (IH HI). reflexivity. }
  rewrite E. reflexivity.
Qed.

(** ** Round trip *)
Lemma eta_id x : inS 10 x -> etaphi_t x = x.
Proof. intros H. apply wrapS_id; [lia|exact H]. Qed.
Lemma c55_had h o : had_ok h -> fw_had (dpf_had h o) = h.
Proof. destruct h. intros (H1 & H2 & H3 & H4). cbn in *. unfold fw_had, dpf_had. cbn. rewrite !pt_id, !eta_id by assumption. reflexivity. Qed.
Lemma c55_em h o : em_ok h -> fw_em (dpf_em h o) = h.
Proof. destruct h. intros (H1 & H2 & H3 & H4). cbn in *. unfold fw_em, dpf_em. cbn. rewrite !pt_id, !eta_id by assumption. reflexivity. Qed.
Lemma c55_mu h o : mu_ok h -> fw_mu (dpf_mu h o) = mkMu (m_pt h) 0 (m_eta h) (m_phi h).
Proof. destruct h. intros (H1 & H2 & H3 & H4). cbn in *. unfold fw_mu, dpf_mu. cbn. rewrite !pt_id, !eta_id by assumption. reflexivity. Qed.
Lemma c55_tk h o : tk_ok h -> fw_tk (dpf_tk h o) = mkTk (t_pt h) (t_pterr h) (t_eta h) (t_phi h) (t_z0 h) ((6 <=? it_stubs (pt_in o)) && (it_chi2 (pt_in o) <? 500)).
Proof.
  destruct h as [a b c d e f]. intros (H1 & H2 & H3 & H4 & H5). cbn [t_pt t_pterr t_eta t_phi t_z0] in *. unfold fw_tk, dpf_tk, z0_t. cbn [pt_pt pt_calopterr pt_eta pt_phi pt_in it_z0 it_stubs it_chi2 t_pt t_pterr t_eta t_phi t_z0].
  rewrite !pt_id, !eta_id by assumption. rewrite Z.geb_leb. reflexivity.
Qed.
