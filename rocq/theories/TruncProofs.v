(** Reading dumps that are cut short. *)
From Verif Require Import Base BaseFacts Data Discrete Convert ConvertFacts DiscreteIO SpecIO IOFacts IOProofs RegionLoop EventLoop EventLoopFacts SpecTrunc TruncFacts.

(** ** A cut inside the head of an event *)
Lemma rfail_then {A B} (e : reader A) (K : A -> reader B) b : rfail e b -> rfail (get x <- e; K x) b.
Proof. intros H s t f E N. rewrite (H s t f E N). reflexivity. Qed.
Lemma many_regions_short old rs : Forall region_wf rs -> fits rs -> rfail (read_many region0 region_read old) (le 4 (Z.of_nat (length rs)) ++ regions_head rs).
Proof.
  intros HW HF s t f E N. destruct (cut_app _ _ _ _ E N) as [(t' & E' & N')|(s' & -> & E')]; [apply (count_short _ _ _ _ s t' f E' N')|].
  rewrite count_ok by (unfold fits in HF; lia). rewrite Nat2Z.id. destruct rs as [|r rs]; [cbn [regions_head] in E'; destruct s', t; try discriminate; contradiction|].
  apply (regions_short (r :: rs) HW ltac:(discriminate) _ (length_resize _ _ _) s' t f E' N).
Qed.
Lemma nfail_after tail run o : nfail (get lumi <- freadU 4 (ev_lumi o); get num <- freadU 8 (ev_event o);
  get regions <- read_many region0 region_read (ev_regions o);
  get z0 <- freadU 4 (ev_z0 o); get gz <- freadU 4 (ev_genz0 o); get acm <- freadU 4 (ev_acm o); get acr <- freadU 4 (ev_acr o);
  get afm <- freadU 4 (ev_afm o); get afr <- freadU 4 (ev_afr o);
  fun s => do b <- tail; Ok ((b : bool, mkEv run lumi num z0 gz acm acr afm afr regions), s)).
Proof. do 2 (apply nfail_bind; [apply nokU; lia|intros ?]). apply nfail_bind'. apply nfail_many. Qed.
Lemma cut_head tail o e s t f : event_wf e -> event_head e = s ++ t -> t <> [] -> (4 <= length s)%nat -> event_read tail o (mkFile s f) = UB Uninit.
Proof.
  intros (H1 & H2 & H3 & _ & HR & HF) E N L. unfold event_head in E. destruct (cut_app _ _ _ _ E N) as [(t' & E' & N')|(s' & -> & E')]; [apply cut_len in E'; [|exact N']; rewrite length_le in E'; lia|].
  unfold event_read. rewrite fread_exact by apply length_le. cbn [bind negb]. clear E L. revert s' t f E' N.
  match goal with |- forall s t f, ?bb = _ -> _ -> bind _ _ = _ => change (rfail (get lumi <- freadU 4 (ev_lumi o); get num <- freadU 8 (ev_event o);
    get regions <- read_many region0 region_read (ev_regions o);
    get z0 <- freadU 4 (ev_z0 o); get gz <- freadU 4 (ev_genz0 o); get acm <- freadU 4 (ev_acm o); get acr <- freadU 4 (ev_acr o);
    get afm <- freadU 4 (ev_afm o); get afr <- freadU 4 (ev_afr o);
    fun s => do b <- tail; Ok ((b, mkEv (unle (le 4 (ev_run e))) lumi num z0 gz acm acr afm afr regions), s)) bb) end.
  eapply rfail_bind; [apply rokU; exact H2|apply rshU|intros ?; apply nfail_bind; [apply nokU; lia|intros ?]; apply nfail_bind'; apply nfail_many|].
  eapply rfail_bind; [apply rokU; exact H3|apply rshU|intros ?; apply nfail_bind'; apply nfail_many|]. apply rfail_then. apply many_regions_short; assumption.
Qed.

(** ** Partial muons and floats *)
Lemma le_bytes n : forall x, Forall (inU 8) (le n x).
Proof. induction n as [|n IH]; intros x; cbn [le]; constructor; [unfold inU; change (2 ^ 8) with 256; lia|apply IH]. Qed.
Lemma unle_range l : Forall (inU 8) l -> inU (8 * Z.of_nat (length l)) (unle l).
Proof.
  unfold inU. induction 1 as [|b l Hb _ IH]; [cbn; lia|]. cbn [unle length]. replace (8 * Z.of_nat (S (length l))) with (8 * Z.of_nat (length l) + 8) by lia. rewrite Z.pow_add_r by lia. change (2 ^ 8) with 256 in *. lia.
Qed.
Lemma Forall_skipn {A} (P : A -> Prop) n l : Forall P l -> Forall P (skipn n l).
Proof. intros H. rewrite <- (firstn_skipn n l) in H. apply Forall_app in H. tauto. Qed.
Lemma cut_bytes (b s t : list Z) : b = s ++ t -> Forall (inU 8) b -> Forall (inU 8) s.
Proof. intros -> H. apply Forall_app in H. tauto. Qed.
(** a field of which the file holds at most the bytes [s] *)
Lemma partU n old s f : Forall (inU 8) s -> (length s < n)%nat -> exists v, freadU n old (mkFile s f) = Ok (v, mkFile [] true) /\ inU (8 * Z.of_nat n) v /\ (s = [] -> inU (8 * Z.of_nat n) old -> v = old).
Proof.
  intros HB HL. unfold freadU. rewrite fread_short by exact HL. eexists. split; [reflexivity|]. split.
  - replace n with (length (s ++ skipn (length s) (le n old))) at 1 by (rewrite app_length, skipn_length, length_le; lia). apply unle_range. apply Forall_app. split; [exact HB|apply Forall_skipn, le_bytes].
  - intros -> H. cbn [length skipn app]. apply unle_le. exact H.
Qed.
Lemma partS n old s f : (0 < n)%nat -> (length s < n)%nat -> exists v, freadS n old (mkFile s f) = Ok (v, mkFile [] true) /\ inS (8 * Z.of_nat n) v /\ (s = [] -> inS (8 * Z.of_nat n) old -> v = old).
Proof.
  intros Hn HL. unfold freadS. rewrite fread_short by exact HL. eexists. split; [reflexivity|]. split; [apply wrapS_range; lia|]. intros -> H. cbn [length skipn app]. apply wrapS_le; assumption.
Qed.
(** the rest of a muon once the file has ended *)
Lemma dmu_part o m s t f : dmu_wf m -> dmu_write m = s ++ t -> t <> [] -> dmu_wf o -> exists y, dmu_read o (mkFile s f) = Ok (y, mkFile [] true) /\ dmu_wf y /\ (s = [] -> y = o).
Proof.
  destruct m as [a1 a2 a3 a4 a5], o as [b1 b2 b3 b4 b5]. unfold dmu_wf, dmu_write, dmu_read. cbn [dm_pt dm_eta dm_phi dm_flags dm_charge]. intros (H1 & H2 & H3 & H4) E N (G1 & G2 & G3 & G4).
  assert (SE : forall b, freadB b (mkFile [] true) = Ok (b, mkFile [] true)) by (intros []; reflexivity).
  assert (SS : forall b, inS 16 b -> freadS 2 b (mkFile [] true) = Ok (b, mkFile [] true)) by (intros b Hb; destruct (partS 2 b [] true ltac:(lia) ltac:(cbn; lia)) as (v & -> & _ & V); rewrite V by (reflexivity || exact Hb); reflexivity).
  assert (SU : forall b, inU 16 b -> freadU 2 b (mkFile [] true) = Ok (b, mkFile [] true)) by (intros b Hb; destruct (partU 2 b [] true ltac:(constructor) ltac:(cbn; lia)) as (v & -> & _ & V); rewrite V by (reflexivity || exact Hb); reflexivity).
  destruct (cut_app _ _ _ _ E N) as [(t1 & E1 & N1)|(s1 & -> & E1)].
  { destruct (partS 2 b1 s f ltac:(lia) ltac:(apply cut_len in E1; [rewrite length_le in E1; exact E1|exact N1])) as (v & -> & V1 & V2). cbn [bind]. repeat (rewrite SS by assumption; cbn [bind]). rewrite SU by assumption. cbn [bind]. rewrite SE. cbn [bind]. eexists. split; [reflexivity|].
    cbn [dm_pt dm_eta dm_phi dm_flags dm_charge]. split; [auto|]. intros Es. rewrite V2 by (exact Es || exact G1). reflexivity. }
  rewrite freadS_le by (lia || exact H1). cbn [bind]. destruct (cut_app _ _ _ _ E1 N) as [(t2 & E2 & N2)|(s2 & -> & E2)].
  { destruct (partS 2 b2 s1 f ltac:(lia) ltac:(apply cut_len in E2; [rewrite length_le in E2; exact E2|exact N2])) as (v & -> & V1 & V2). cbn [bind]. repeat (rewrite SS by assumption; cbn [bind]). rewrite SU by assumption. cbn [bind]. rewrite SE. cbn [bind]. eexists. split; [reflexivity|].
    cbn [dm_pt dm_eta dm_phi dm_flags dm_charge]. split; [auto|]. cbn [le app]. discriminate. }
  rewrite freadS_le by (lia || exact H2). cbn [bind]. destruct (cut_app _ _ _ _ E2 N) as [(t3 & E3 & N3)|(s3 & -> & E3)].
  { destruct (partS 2 b3 s2 f ltac:(lia) ltac:(apply cut_len in E3; [rewrite length_le in E3; exact E3|exact N3])) as (v & -> & V1 & V2). cbn [bind]. rewrite SU by assumption. cbn [bind]. rewrite SE. cbn [bind]. eexists. split; [reflexivity|].
    cbn [dm_pt dm_eta dm_phi dm_flags dm_charge]. split; [auto|]. cbn [le app]. discriminate. }
  rewrite freadS_le by (lia || exact H3). cbn [bind]. destruct (cut_app _ _ _ _ E3 N) as [(t4 & E4 & N4)|(s4 & -> & E4)].
  { destruct (partU 2 b4 s3 f ltac:(apply (cut_bytes _ _ _ E4), le_bytes) ltac:(apply cut_len in E4; [rewrite length_le in E4; exact E4|exact N4])) as (v & -> & V1 & V2). cbn [bind]. rewrite SE. cbn [bind]. eexists. split; [reflexivity|].
    cbn [dm_pt dm_eta dm_phi dm_flags dm_charge]. split; [auto|]. cbn [le app]. discriminate. }
  rewrite freadU_le by exact H4. cbn [bind]. assert (s4 = []) as -> by (apply cut_len in E4; [|exact N]; rewrite length_le in E4; destruct s4; [reflexivity|cbn in E4; lia]).
  assert (FB : freadB b5 (mkFile [] f) = Ok (b5, mkFile [] true)) by (unfold freadB; rewrite fread_short by (cbn; lia); cbn [bind length skipn app]; destruct b5; reflexivity).
  rewrite FB. cbn [bind]. eexists. split; [reflexivity|]. cbn [dm_pt dm_eta dm_phi dm_flags dm_charge]. split; [auto|]. cbn [le app]. discriminate.
Qed.
Lemma dmu_write_len m : length (dmu_write m) = 9%nat.
Proof. unfold dmu_write. rewrite !app_length, !length_le. reflexivity. Qed.
Lemma dmus_nil : forall olds, Forall dmu_wf olds -> read_each dmu_read olds (mkFile [] true) = Ok (olds, mkFile [] true).
Proof.
  induction 1 as [|o l H _ IH]; [reflexivity|]. cbn [read_each]. destruct (dmu_part o o [] (dmu_write o) true H eq_refl ltac:(intros E; apply (f_equal (@length _)) in E; rewrite dmu_write_len in E; discriminate) H) as (y & -> & _ & V). rewrite V by reflexivity. cbn [bind]. rewrite IH. reflexivity.
Qed.
Lemma dmus_part mus : Forall dmu_wf mus -> forall olds s t f, Forall dmu_wf olds -> length olds = length mus -> concat (map dmu_write mus) = s ++ t -> t <> [] ->
  exists ys, read_each dmu_read olds (mkFile s f) = Ok (ys, mkFile [] true) /\ length ys = length mus /\ Forall dmu_wf ys /\
  (forall i, (9 * i + 9 <= length s)%nat -> nth i ys dmu0 = nth i mus dmu0) /\ (forall i, (i < length ys)%nat -> (length s <= 9 * i)%nat -> nth i ys dmu0 = nth i olds dmu0).
Proof.
  induction 1 as [|m mus Hm HM IH]; intros olds s t f HO HL E N; [cbn in E; destruct s, t; try discriminate; contradiction|]. destruct olds as [|o olds]; [discriminate HL|]. inversion_clear HO as [|? ? Ho HO']. cbn [map concat] in E. cbn [read_each].
  destruct (cut_app _ _ _ _ E N) as [(t' & E' & N')|(s' & -> & E')].
  - destruct (dmu_part o m s t' f Hm E' N' Ho) as (y & -> & W & V). cbn [bind]. rewrite dmus_nil by exact HO'. cbn [bind]. exists (y :: olds). split; [reflexivity|]. split; [exact HL|]. split; [constructor; assumption|].
    apply cut_len in E'; [|exact N']. rewrite dmu_write_len in E'. split; [intros i Hi; lia|]. intros [|i] Hi Hs; [|reflexivity]. cbn [nth]. apply V. destruct s; [reflexivity|cbn in Hs; lia].
  - rewrite dmu_codec by exact Hm. cbn [bind]. destruct (IH olds s' t f HO' ltac:(cbn in HL; lia) E' N) as (ys & -> & L & W & V1 & V2). cbn [bind]. exists (m :: ys). split; [reflexivity|]. split; [cbn; lia|]. split; [constructor; assumption|].
    rewrite app_length, dmu_write_len. split; intros [|i]; cbn [nth length]; intros; try reflexivity; try lia; [apply V1; lia|apply V2; lia].
Qed.
(** one float *)
Lemma flt old x c r f : inU 32 x -> inU 32 old -> (exists q, le 4 x ++ c = r ++ q) -> exists v f', freadU 4 old (mkFile r f) = Ok (v, mkFile (skipn 4 r) f') /\ inU 32 v /\
  ((4 <= length r)%nat -> v = x) /\ (r = [] -> v = old) /\ ((length r < 4)%nat -> f' = true) /\ (exists q, c = skipn 4 r ++ q).
Proof.
  intros Hx Ho (q & E). destruct (Nat.le_gt_cases 4 (length r)) as [L|L].
  - assert (ER : r = le 4 x ++ skipn 4 r).
    { rewrite <- (firstn_skipn 4 r) at 1. f_equal. apply (f_equal (firstn 4)) in E. rewrite !firstn_app, length_le, Nat.sub_diag in E. replace (4 - length r)%nat with 0%nat in E by lia. rewrite !firstn_O, !app_nil_r in E. rewrite <- E. apply firstn_all2. rewrite length_le. lia. }
    assert (EC : c = skipn 4 r ++ q).
    { apply (f_equal (skipn 4)) in E. rewrite !skipn_app, length_le, Nat.sub_diag in E. replace (4 - length r)%nat with 0%nat in E by lia. exact E. }
    exists x, f. rewrite ER at 1. split; [apply freadU_le; exact Hx|]. split; [exact Hx|]. split; [reflexivity|]. split; [intros ->; cbn in L; lia|]. split; [lia|]. exists q. exact EC.
  - destruct (partU 4 old r f) as (v & -> & V1 & V2); [|exact L|].
    + apply (f_equal (firstn (length r))) in E. rewrite firstn_app in E. rewrite length_le in E. replace (length r - 4)%nat with 0%nat in E by lia. cbn [firstn] in E. rewrite app_nil_r in E. rewrite firstn_app, firstn_all, Nat.sub_diag in E. cbn [firstn] in E. rewrite app_nil_r in E. rewrite <- E.
      pose proof (le_bytes 4 x) as B. rewrite <- (firstn_skipn (length r)) in B. apply Forall_app in B. tauto.
    + exists v, true. rewrite skipn_all2 by lia. split; [reflexivity|]. split; [exact V1|]. split; [lia|]. split; [intros ->; apply V2; [reflexivity|exact Ho]|]. split; [reflexivity|]. exists c. reflexivity.
Qed.

(** ** A cut after the head *)
Definition mem_wf (o : event) : Prop := Forall (inU 32) (floats o) /\ Forall (fun r => Forall dmu_wf (rg_muon r)) (ev_regions o).
Lemma dmu0_wf : dmu_wf dmu0. Proof. unfold dmu_wf, inS, inU. cbn. lia. Qed.
Lemma resize_Forall {A} (P : A -> Prop) d n l : P d -> Forall P l -> Forall P (resize d n l).
Proof. intros Hd H. unfold resize. apply Forall_app. split; [rewrite <- (firstn_skipn n l) in H; apply Forall_app in H; tauto|]. apply Forall_forall. intros x Hx. apply repeat_spec in Hx. subst. exact Hd. Qed.
Lemma resize_nth {A} (d : A) n l i : (i < n)%nat -> nth i (resize d n l) d = nth i l d.
Proof.
  intros H. unfold resize. destruct (Nat.lt_ge_cases i (length l)) as [L|L].
  - rewrite app_nth1 by (rewrite firstn_length; lia). rewrite <- (firstn_skipn n l) at 2. rewrite app_nth1 by (rewrite firstn_length; lia). reflexivity.
  - rewrite (nth_overflow l) by exact L. destruct (nth_in_or_default i (firstn n l ++ repeat d (n - length l)) d) as [H1|H1]; [|exact H1].
    rewrite app_nth2 by (rewrite firstn_length; lia). apply nth_repeat.
Qed.
Lemma muons_wf o i : mem_wf o -> Forall dmu_wf (rg_muon (nth i (ev_regions o) region0)).
Proof. intros (_ & H). destruct (nth_in_or_default i (ev_regions o) region0) as [E|E]; [apply (proj1 (Forall_forall _ _) H _ E)|rewrite E; constructor]. Qed.
Lemma muon_bytes_len e : length (muon_bytes e) = (9 * length (last_muons e))%nat.
Proof. unfold muon_bytes. induction (last_muons e) as [|m l IH]; [reflexivity|]. cbn [map concat length]. rewrite app_length, dmu_write_len, IH. lia. Qed.
Lemma trailer_len e : length (trailer e) = 24%nat.
Proof. unfold trailer, floats. cbn [map concat]. rewrite !app_length, !length_le. reflexivity. Qed.
Lemma muons_at_head e : event_wf e -> muons_at e = length (event_head e).
Proof. intros H. unfold muons_at. rewrite event_split by exact H. rewrite !app_length, trailer_len, muon_bytes_len. lia. Qed.
Lemma clu_keep_wf c : clu_wf c -> clu_wf (clu_kept c). Proof. exact (fun H => H). Qed.
Lemma ptk_keep_wf t : ptk_wf t -> ptk_wf (ptk_kept t). Proof. exact (fun H => H). Qed.
Lemma Forall_kept {A} (P : A -> Prop) k l : (forall x, P x -> P (k x)) -> Forall P l -> Forall P (map k l).
Proof. intros HK H. apply Forall_map. revert H. apply Forall_impl. exact HK. Qed.
Lemma region_keep_wf r mus : region_wf r -> Forall dmu_wf mus -> fits mus -> region_wf (with_muons (region_kept r) mus).
Proof.
  intros (HF & (H1 & F1) & (H2 & F2) & (H3 & F3) & (H4 & F4)) HM FM. unfold region_wf, with_muons, region_kept, fits in *. cbn [rg_etac rg_etamin rg_etamax rg_phic rg_phihw rg_etax rg_phix rg_calo rg_emcalo rg_track rg_muon].
  rewrite !map_length. split; [exact HF|]. repeat split; try assumption; first [apply (Forall_kept clu_wf); [exact clu_keep_wf|assumption]|apply (Forall_kept ptk_wf); [exact ptk_keep_wf|assumption]].
Qed.
Lemma kept_keeps r mus : region_kept (with_muons (region_kept r) mus) = with_muons (region_kept r) mus.
Proof. unfold region_kept, with_muons. cbn [rg_etac rg_etamin rg_etamax rg_phic rg_phihw rg_etax rg_phix rg_calo rg_emcalo rg_track rg_muon]. rewrite !map_map. reflexivity. Qed.
Lemma kept_is_with r : region_kept r = with_muons (region_kept r) (rg_muon r).
Proof. reflexivity. Qed.
Lemma last_in {A} (l : list A) d : l <> [] -> In (last l d) l.
Proof. intros H. rewrite (app_removelast_last d H) at 2. apply in_or_app. right. left. reflexivity. Qed.
Lemma removelast_incl {A} (l : list A) x : In x (removelast l) -> In x l.
Proof. intros H. destruct l as [|a l]; [exact H|]. rewrite (app_removelast_last a) by discriminate. apply in_or_app. left. exact H. Qed.
Lemma removelast_len {A} (l : list A) : length (removelast l) = (length l - 1)%nat.
Proof. destruct l as [|a l]; [reflexivity|]. rewrite (app_removelast_last (l := a :: l) a) at 2 by discriminate. rewrite app_length. cbn [length]. lia. Qed.

Definition patched_regions (e : event) (mus : list DMu) : list Region :=
  map region_kept (removelast (ev_regions e)) ++ match ev_regions e with [] => [] | r0 :: _ => [with_muons (region_kept (last (ev_regions e) r0)) mus] end.
(** the region part, when the file holds [p] after the count *)
Lemma regions_tail o e p f : event_wf e -> mem_wf o -> (exists t, muon_bytes e ++ trailer e = p ++ t) -> exists mus f',
  read_many region0 region_read (ev_regions o) (mkFile (le 4 (Z.of_nat (length (ev_regions e))) ++ regions_head (ev_regions e) ++ p) f) = Ok (patched_regions e mus, mkFile (skipn (9 * length (last_muons e)) p) f') /\
  length mus = length (last_muons e) /\ Forall dmu_wf mus /\
  (forall i, (9 * i + 9 <= length p)%nat -> nth i mus dmu0 = nth i (last_muons e) dmu0) /\
  (forall i, (i < length mus)%nat -> (length p <= 9 * i)%nat -> nth i mus dmu0 = nth i (rg_muon (nth (length (ev_regions e) - 1) (ev_regions o) region0)) dmu0).
Proof.
  intros (_ & _ & _ & _ & HW & HF) HO (t & E). rewrite count_ok by (unfold fits in HF; lia). rewrite Nat2Z.id. unfold patched_regions, muon_bytes, last_muons in *.
  destruct (ev_regions e) as [|r0 rs] eqn:ER.
  - exists [], f. cbn [length resize regions_head app map removelast last rg_muon region0 Nat.mul skipn]. unfold resize. cbn [firstn Nat.sub repeat app read_each].
    split; [reflexivity|]. split; [reflexivity|]. split; [constructor|]. split; [intros i _; destruct i; reflexivity|]. intros i Hi. cbn in Hi. lia.
  - rewrite regions_head_ok by (exact HW || apply length_resize). set (ms := rg_muon (last (r0 :: rs) region0)) in *.
    assert (WM : Forall dmu_wf ms). { destruct (proj1 (Forall_forall _ _) HW (last (r0 :: rs) region0) ltac:(apply last_in; discriminate)) as (_ & _ & _ & _ & W & _). exact W. }
    replace (length (r0 :: rs) - 1)%nat with (length rs) by (cbn; lia). rewrite resize_nth by (cbn; lia). set (old := rg_muon (nth (length rs) (ev_regions o) region0)).
    assert (WO : Forall dmu_wf (resize dmu0 (length ms) old)) by (apply resize_Forall; [exact dmu0_wf|apply muons_wf; exact HO]).
    assert (LB : length (concat (map dmu_write ms)) = (9 * length ms)%nat) by (clear; induction ms as [|m l IH]; [reflexivity|]; cbn [map concat length]; rewrite app_length, dmu_write_len, IH; lia).
    destruct (Nat.lt_ge_cases (length p) (9 * length ms)) as [L|L].
    + destruct t as [|b t]; [rewrite app_nil_r in E; apply (f_equal (@length _)) in E; rewrite app_length, LB in E; lia|].
      destruct (cut_app _ _ _ _ E ltac:(discriminate)) as [(t' & E' & N')|(s' & -> & E')]; [|rewrite app_length, LB in L; lia].
      destruct (dmus_part ms WM (resize dmu0 (length ms) old) p t' f WO (length_resize _ _ _) E' N') as (ys & -> & V1 & V2 & V3 & V4). cbn [bind].
      exists ys, true. rewrite skipn_all2 by lia. split; [reflexivity|]. split; [exact V1|]. split; [exact V2|]. split; [exact V3|]. intros i Hi Hs. rewrite V4 by assumption. apply resize_nth. lia.
    + assert (EP : p = concat (map dmu_write ms) ++ skipn (9 * length ms) p).
      { rewrite <- (firstn_skipn (9 * length ms) p) at 1. f_equal. apply (f_equal (firstn (9 * length ms))) in E. rewrite !firstn_app, LB, Nat.sub_diag in E. replace (9 * length ms - length p)%nat with 0%nat in E by lia. cbn [firstn] in E. rewrite !app_nil_r in E. rewrite <- E. apply firstn_all2. lia. }
      replace (mkFile p f) with (mkFile (concat (map dmu_write ms) ++ skipn (9 * length ms) p) f) by (rewrite <- EP; reflexivity). rewrite (each_codec DMu dmu_write dmu_read dmu_wf (fun m => m)) by (exact dmu_codec || exact WM || apply length_resize). cbn [bind]. rewrite map_id.
      exists ms, f. split; [reflexivity|]. split; [reflexivity|]. split; [exact WM|]. split; [reflexivity|]. intros i Hi Hs. lia.
Qed.
Lemma skipn_add {A} (l : list A) : forall a b, skipn a (skipn b l) = skipn (b + a) l.
Proof. intros a b. revert l. induction b as [|b IH]; intros l; [reflexivity|]. destruct l as [|x l]; [cbn; destruct a; reflexivity|]. cbn [skipn plus]. apply IH. Qed.
Lemma cut_tail o e p f : event_wf e -> mem_wf o -> cut_from e p -> (muons_at e <= length p)%nat ->
  exists e', event_read (Ok true) o (mkFile p f) = Ok ((true, e'), mkFile [] true) /\ patched o e (length p) e' /\ event_wf e' /\ event_kept e' = e'.
Proof.
  intros HW HO (q & E & N) L. pose proof HW as (W1 & W2 & W3 & W4 & W5 & W6). rewrite muons_at_head in L by exact HW.
  assert (LE : length (event_dump e) = (length (event_head e) + 9 * length (last_muons e) + 24)%nat) by (rewrite event_split by exact HW; rewrite !app_length, trailer_len, muon_bytes_len; lia).
  assert (LP : (length p < length (event_dump e))%nat) by (apply (cut_len _ _ q); assumption).
  rewrite event_split in E by exact HW. destruct (cut_app _ _ _ _ E N) as [(t' & E' & N')|(s' & -> & E')]; [apply cut_len in E'; [lia|exact N']|]. rewrite app_length in LP, L.
  destruct (regions_tail o e s' f HW HO (ex_intro _ q E')) as (mus & f1 & HR & V1 & V2 & V3 & V4).
  unfold event_head at 1. rewrite <- !app_assoc. unfold event_read. rewrite fread_exact by apply length_le. cbn [bind negb]. rewrite freadU_le by exact W2. cbn [bind]. rewrite freadU_le by exact W3. cbn [bind]. rewrite HR. cbn [bind]. rewrite unle_le by exact W1.
  set (r := skipn (9 * length (last_muons e)) s') in *.
  assert (HT : exists q', trailer e = r ++ q').
  { unfold r. destruct (Nat.lt_ge_cases (length s') (9 * length (last_muons e))) as [G|G]; [exists (trailer e); rewrite skipn_all2 by lia; reflexivity|].
    exists q. apply (f_equal (skipn (9 * length (last_muons e)))) in E'. rewrite !skipn_app, muon_bytes_len, Nat.sub_diag in E'. rewrite (skipn_all2 (muon_bytes e)) in E' by (rewrite muon_bytes_len; lia). assert (Z0 : (9 * length (last_muons e) - length s' = 0)%nat) by (apply Nat.sub_0_le; exact G). rewrite Z0 in E'. exact E'. }
  assert (LR : (length r < 24)%nat) by (unfold r; rewrite skipn_length; lia).
  destruct HO as (HO & _). unfold floats in HO. unfold trailer, floats in HT. cbn [map concat] in HT. rewrite app_nil_r in HT.
  assert (I : forall A (P : A -> Prop) x l, Forall P (x :: l) -> P x /\ Forall P l) by (intros ? ? ? ? G; inversion G; auto).
  apply I in W4 as (X1 & W4). apply I in W4 as (X2 & W4). apply I in W4 as (X3 & W4). apply I in W4 as (X4 & W4). apply I in W4 as (X5 & W4). apply I in W4 as (X6 & _).
  apply I in HO as (Y1 & HO). apply I in HO as (Y2 & HO). apply I in HO as (Y3 & HO). apply I in HO as (Y4 & HO). apply I in HO as (Y5 & HO). apply I in HO as (Y6 & _).
  rewrite <- (app_nil_r (le 4 (ev_afr e))) in HT.
  destruct (flt (ev_z0 o) (ev_z0 e) _ r f1 X1 Y1 HT) as (v1 & g1 & -> & A1 & B1 & C1 & _ & HT1). cbn [bind].
  destruct (flt (ev_genz0 o) (ev_genz0 e) _ _ g1 X2 Y2 HT1) as (v2 & g2 & -> & A2 & B2 & C2 & _ & HT2). cbn [bind]. rewrite skipn_add in *. cbn [plus] in *.
  destruct (flt (ev_acm o) (ev_acm e) _ _ g2 X3 Y3 HT2) as (v3 & g3 & -> & A3 & B3 & C3 & _ & HT3). cbn [bind]. rewrite skipn_add in *. cbn [plus] in *.
  destruct (flt (ev_acr o) (ev_acr e) _ _ g3 X4 Y4 HT3) as (v4 & g4 & -> & A4 & B4 & C4 & _ & HT4). cbn [bind]. rewrite skipn_add in *. cbn [plus] in *.
  destruct (flt (ev_afm o) (ev_afm e) _ _ g4 X5 Y5 HT4) as (v5 & g5 & -> & A5 & B5 & C5 & _ & HT5). cbn [bind]. rewrite skipn_add in *. cbn [plus] in *.
  destruct (flt (ev_afr o) (ev_afr e) _ _ g5 X6 Y6 HT5) as (v6 & g6 & -> & A6 & B6 & C6 & D6 & HT6). cbn [bind]. rewrite skipn_add in *. cbn [plus] in *.
  assert (g6 = true) as -> by (apply D6; rewrite skipn_length; lia). rewrite (skipn_all2 r) by lia.
  eexists. split; [reflexivity|].
  assert (LS : length r = (length s' - 9 * length (last_muons e))%nat) by (unfold r; apply skipn_length).
  split; [|split].
  - unfold patched. cbn [ev_run ev_lumi ev_event ev_regions floats ev_z0 ev_genz0 ev_acm ev_acr ev_afm ev_afr]. rewrite muons_at_head by exact HW. rewrite LE, app_length.
    split; [reflexivity|]. split; [reflexivity|]. split; [reflexivity|]. split.
    + exists mus. split; [reflexivity|]. split; [exact V1|]. split; [intros i Hi; apply V3; lia|intros i Hi Hn; apply V4; lia].
    + assert (NL : forall k, (length r <= k)%nat -> skipn k r = []) by (intros k Hk; apply skipn_all2; exact Hk).
      split.
      * intros j Hj. destruct j as [|[|[|[|[|[|j]]]]]]; cbn [nth]; [apply B1|apply B2|apply B3|apply B4|apply B5|apply B6|destruct j; reflexivity]; rewrite ?skipn_length; lia.
      * intros j Hj Hn. destruct j as [|[|[|[|[|[|j]]]]]]; cbn [nth]; [apply C1; destruct r; [reflexivity|cbn [length] in *; lia]|apply C2|apply C3|apply C4|apply C5|apply C6|lia]; apply NL; lia.
  - unfold event_wf. cbn [ev_run ev_lumi ev_event ev_regions ev_z0 ev_genz0 ev_acm ev_acr ev_afm ev_afr]. split; [exact W1|]. split; [exact W2|]. split; [exact W3|]. split; [repeat (apply Forall_cons; [assumption|]); apply Forall_nil|].
    unfold patched_regions, last_muons in *. destruct (ev_regions e) as [|r0 rs]; [split; [constructor|unfold fits; cbn; lia]|]. split.
    + apply Forall_app. split.
      * apply Forall_map. apply Forall_forall. intros x Hx. apply removelast_incl in Hx. pose proof (proj1 (Forall_forall _ _) W5 x Hx) as WX. rewrite kept_is_with. destruct WX as (WA & WB & WC & WD & (WE & WF)). apply region_keep_wf; [split; auto|exact WE|exact WF].
      * constructor; [|constructor]. pose proof (proj1 (Forall_forall _ _) W5 _ (last_in (r0 :: rs) region0 ltac:(discriminate))) as WX. rewrite (last_indep _ r0 region0) by discriminate. apply region_keep_wf; [exact WX|exact V2|]. destruct WX as (_ & _ & _ & _ & (_ & WF)). unfold fits in *. rewrite V1. exact WF.
    + unfold fits in *. rewrite app_length, map_length, removelast_len. cbn [length] in *. lia.
  - unfold event_kept. cbn [ev_run ev_lumi ev_event ev_regions ev_z0 ev_genz0 ev_acm ev_acr ev_afm ev_afr]. f_equal. unfold patched_regions. rewrite map_app, map_map. f_equal; [apply map_ext; intros x; rewrite (kept_is_with x) at 1; rewrite kept_keeps; reflexivity|].
    destruct (ev_regions e); [reflexivity|]. cbn [map]. rewrite kept_keeps. reflexivity.
Qed.
