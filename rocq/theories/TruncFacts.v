(** Readers at the end of a file cut short. *)
From Verif Require Import Base BaseFacts Data Discrete Convert DiscreteIO SpecIO IOFacts SpecTrunc.

(** ** Bytes of a prefix *)
Definition rok {A} (e : reader A) (b : list Z) (v : A) : Prop := forall rest f, e (mkFile (b ++ rest) f) = Ok (v, mkFile rest f).
(** the reader survives a file that ends inside [b] *)
Definition rsh {A} (e : reader A) (b : list Z) : Prop := forall s t f, b = s ++ t -> t <> [] -> exists y, e (mkFile s f) = Ok (y, mkFile [] true).
(** the reader fails on such a file *)
Definition rfail {A} (e : reader A) (b : list Z) : Prop := forall s t f, b = s ++ t -> t <> [] -> e (mkFile s f) = UB Uninit.
Definition nok {A} (e : reader A) : Prop := exists y, e (mkFile [] true) = Ok (y, mkFile [] true).
Definition nfail {A} (e : reader A) : Prop := e (mkFile [] true) = UB Uninit.

(** where the cut of [b ++ c] falls *)
Lemma cut_app {A} (b c s t : list A) : b ++ c = s ++ t -> t <> [] -> (exists t', b = s ++ t' /\ t' <> []) \/ (exists s', s = b ++ s' /\ c = s' ++ t).
Proof.
  revert s. induction b as [|x b IH]; intros s E N; [right; exists s; auto|]. destruct s as [|y s]; [left; exists (x :: b); split; [reflexivity|discriminate]|].
  cbn [app] in E. injection E as -> E. destruct (IH s E N) as [(t' & -> & N')|(s' & -> & E')]; [left; exists t'|right; exists s']; auto.
Qed.
Lemma rsh_bind {A B} (e : reader A) (K : A -> reader B) b c v : rok e b v -> rsh e b -> (forall y, nok (K y)) -> rsh (K v) c -> rsh (get x <- e; K x) (b ++ c).
Proof.
  intros H1 H2 H3 H4 s t f E N. destruct (cut_app _ _ _ _ E N) as [(t' & E' & N')|(s' & -> & E')].
  - destruct (H2 s t' f E' N') as (y & ->). cbn [bind]. apply H3.
  - rewrite H1. cbn [bind]. eapply H4; eassumption.
Qed.
Lemma rsh_ret {A} (x : A) : rsh (ret x) [].
Proof. intros s t f E N. destruct s, t; try discriminate. contradiction. Qed.
Lemma rfail_bind {A B} (e : reader A) (K : A -> reader B) b c v : rok e b v -> rsh e b -> (forall y, nfail (K y)) -> rfail (K v) c -> rfail (get x <- e; K x) (b ++ c).
Proof.
  intros H1 H2 H3 H4 s t f E N. destruct (cut_app _ _ _ _ E N) as [(t' & E' & N')|(s' & -> & E')].
  - destruct (H2 s t' f E' N') as (y & ->). cbn [bind]. apply H3.
  - rewrite H1. cbn [bind]. eapply H4; eassumption.
Qed.
Lemma nok_bind {A B} (e : reader A) (K : A -> reader B) : nok e -> (forall y, nok (K y)) -> nok (get x <- e; K x).
Proof. intros (y & E) H. unfold nok. rewrite E. cbn [bind]. apply H. Qed.
Lemma nfail_bind {A B} (e : reader A) (K : A -> reader B) : nok e -> (forall y, nfail (K y)) -> nfail (get x <- e; K x).
Proof. intros (y & E) H. unfold nfail. rewrite E. cbn [bind]. apply H. Qed.
Lemma nfail_bind' {A B} (e : reader A) (K : A -> reader B) : nfail e -> nfail (get x <- e; K x).
Proof. unfold nfail. intros ->. reflexivity. Qed.
Lemma nok_ret {A} (x : A) : nok (ret x). Proof. eexists. reflexivity. Qed.

(** ** Fields *)
Lemma fread_short n old s f : (length s < n)%nat -> fread n old (mkFile s f) = Ok ((s ++ skipn (length s) old, false), mkFile [] true).
Proof.
  intros H. unfold fread. cbn [f_rest f_eof]. rewrite Nat.min_r by lia. rewrite firstn_all, skipn_all. destruct (Nat.eqb_spec (length s) n); [lia|]. destruct (Nat.ltb_spec (length s) n); [|lia]. rewrite orb_true_r. reflexivity.
Qed.
Lemma cut_len {A} (b s t : list A) : b = s ++ t -> t <> [] -> (length s < length b)%nat.
Proof. intros -> N. rewrite app_length. destruct t; [contradiction|cbn; lia]. Qed.
Lemma rshU n old x : rsh (freadU n old) (le n x).
Proof. intros s t f E N. unfold freadU. rewrite fread_short by (apply cut_len in E; [rewrite length_le in E; exact E|exact N]). eexists. reflexivity. Qed.
Lemma rshS n old x : rsh (freadS n old) (le n x).
Proof. intros s t f E N. unfold freadS. rewrite fread_short by (apply cut_len in E; [rewrite length_le in E; exact E|exact N]). eexists. reflexivity. Qed.
Lemma rshB old x : rsh (freadB old) (le 1 x).
Proof. intros s t f E N. apply cut_len in E; [|exact N]. rewrite length_le in E. destruct s; [|cbn in E; lia]. unfold freadB. rewrite fread_short by (cbn; lia). cbn [bind length skipn app]. destruct old; eexists; reflexivity. Qed.
Lemma nokU n old : (0 < n)%nat -> nok (freadU n old).
Proof. intros H. unfold nok, freadU. rewrite fread_short by (cbn; lia). eexists. reflexivity. Qed.
Lemma nokS n old : (0 < n)%nat -> nok (freadS n old).
Proof. intros H. unfold nok, freadS. rewrite fread_short by (cbn; lia). eexists. reflexivity. Qed.
Lemma nokB old : nok (freadB old).
Proof. unfold nok, freadB. rewrite fread_short by (cbn; lia). cbn [bind length skipn app]. destruct old; eexists; reflexivity. Qed.
Lemma rokU n old x : inU (8 * Z.of_nat n) x -> rok (freadU n old) (le n x) x.
Proof. intros H rest f. apply freadU_le. exact H. Qed.
Lemma rokS n old x : (0 < n)%nat -> inS (8 * Z.of_nat n) x -> rok (freadS n old) (le n x) x.
Proof. intros H H' rest f. apply freadS_le; assumption. Qed.
Lemma rokB old x : rok (freadB old) (le 1 (b2z x)) x.
Proof. intros rest f. apply freadB_le. Qed.
Ltac nok_tac := repeat first [apply nokU; lia|apply nokS; lia|apply nokB|apply nok_ret|apply nok_bind; [|intros ?]].
Ltac short_tac := repeat first
  [eapply rsh_bind; [first [apply rokU; eassumption|apply rokS; [lia|eassumption]|apply rokB]|first [apply rshU|apply rshS|apply rshB]|intros ?; nok_tac|]
  |rewrite <- (app_nil_r (le _ _)); eapply rsh_bind; [first [apply rokU; eassumption|apply rokS; [lia|eassumption]|apply rokB]|first [apply rshU|apply rshS|apply rshB]|intros ?; nok_tac|]
  |apply rsh_ret].
Lemma clu_short o c : clu_wf c -> rsh (clu_read o) (clu_write c).
Proof.
  destruct c as [a1 a2 a3 a4 a5 a6 a7 a8]. unfold clu_wf, clu_write, clu_read. cbn [cl_pt cl_empt cl_pterr cl_eta cl_phi cl_flags cl_isem]. intros (H1 & H2 & H3 & H4 & H5 & H6). short_tac.
Qed.
Lemma itk_short o t : itk_wf t -> rsh (itk_read o) (itk_write t).
Proof.
  destruct t as [a1 a2 a3 a4 a5 a6 a7 a8]. unfold itk_wf, itk_write, itk_read. cbn [it_invpt it_veta it_vphi it_charge it_z0 it_chi2 it_stubs it_flags]. intros (H1 & H2 & H3 & H4 & H5 & H6 & H7). short_tac.
Qed.
Lemma ptk_short o t : ptk_wf t -> rsh (ptk_read o) (ptk_write t).
Proof.
  destruct t as [i a2 a3 a4 a5 a6 a7 a8 a9]. unfold ptk_wf, ptk_write, ptk_read. cbn [pt_in pt_pt pt_pterr pt_calopterr pt_eta pt_phi]. intros (H0 & H1 & H2 & H3 & H4 & H5).
  eapply rsh_bind; [intros rest f; apply itk_codec; exact H0|apply itk_short; exact H0|intros ?; nok_tac|]. short_tac.
Qed.
Lemma dmu_short o m : dmu_wf m -> rsh (dmu_read o) (dmu_write m).
Proof.
  destruct m as [a1 a2 a3 a4 a5]. unfold dmu_wf, dmu_write, dmu_read. cbn [dm_pt dm_eta dm_phi dm_flags dm_charge]. intros (H1 & H2 & H3 & H4). short_tac.
Qed.
Lemma nok_clu o : nok (clu_read o). Proof. unfold clu_read. nok_tac. Qed.
Lemma nok_itk o : nok (itk_read o). Proof. unfold itk_read. nok_tac. Qed.
Lemma nok_ptk o : nok (ptk_read o). Proof. unfold ptk_read. apply nok_bind; [apply nok_itk|intros ?]. nok_tac. Qed.
Lemma nok_dmu o : nok (dmu_read o). Proof. unfold dmu_read. nok_tac. Qed.

(** ** Vectors *)
Lemma nok_each {T} (rd1 : T -> reader T) l : (forall o, nok (rd1 o)) -> nok (read_each rd1 l).
Proof. intros H. induction l as [|o l IH]; cbn [read_each]; [apply nok_ret|]. apply nok_bind; [apply H|intros x]. apply nok_bind; [exact IH|intros xs]. apply nok_ret. Qed.
Lemma nfail_many {T} d (rd1 : T -> reader T) l : nfail (read_many d rd1 l).
Proof. unfold nfail, read_many. rewrite fread_short by (cbn; lia). reflexivity. Qed.
Lemma rsh_each {T} (rd1 : T -> reader T) w (wf : T -> Prop) kept : (forall o x, wf x -> rok (rd1 o) (w x) (kept x)) -> (forall o x, wf x -> rsh (rd1 o) (w x)) -> (forall o, nok (rd1 o)) ->
  forall xs l, length l = length xs -> Forall wf xs -> rsh (read_each rd1 l) (concat (map w xs)).
Proof.
  intros HO HS HN. induction xs as [|x xs IH]; intros [|o l] HL HW; try discriminate HL; [apply rsh_ret|]. inversion_clear HW. cbn [read_each map concat]. eapply rsh_bind; [apply HO; assumption|apply HS; assumption|intros y|].
  - apply nok_bind; [apply nok_each, HN|intros ?; apply nok_ret].
  - rewrite <- (app_nil_r (concat _)). eapply rsh_bind; [|apply IH; [cbn in HL; lia|assumption]|intros ?; apply nok_ret|apply rsh_ret].
    intros rest f. apply (each_codec T w rd1 wf kept); [intros; apply HO; assumption|cbn in HL; lia|assumption].
Qed.
(** the count of a vector *)
Lemma count_ok {T} d (rd1 : T -> reader T) old n rest f : 0 <= n < 2 ^ 32 -> read_many d rd1 old (mkFile (le 4 n ++ rest) f) = read_each rd1 (resize d (Z.to_nat n) old) (mkFile rest f).
Proof. intros H. unfold read_many. rewrite fread_exact by (try apply length_le; reflexivity). cbn [bind]. rewrite unle_le by (unfold inU; change (8 * Z.of_nat 4) with 32; lia). reflexivity. Qed.
Lemma count_short {T} d (rd1 : T -> reader T) old n : rfail (read_many d rd1 old) (le 4 n).
Proof. intros s t f E N. apply cut_len in E; [|exact N]. rewrite length_le in E. unfold read_many. rewrite fread_short by exact E. reflexivity. Qed.
(** a vector of fixed-size objects followed by something that fails at the end *)
Lemma rfail_many {T B} d (rd1 : T -> reader T) w (wf : T -> Prop) kept (K : list T -> reader B) old xs c : (forall o x, wf x -> rok (rd1 o) (w x) (kept x)) -> (forall o x, wf x -> rsh (rd1 o) (w x)) -> (forall o, nok (rd1 o)) ->
  fits xs -> Forall wf xs -> (forall y, nfail (K y)) -> rfail (K (map kept xs)) c -> rfail (get x <- read_many d rd1 old; K x) (write_many w xs ++ c).
Proof.
  intros HO HS HN HF HW HK HC s t f E N. destruct (cut_app _ _ _ _ E N) as [(t' & E' & N')|(s' & -> & E')].
  - rewrite write_many_fits in E' by exact HF. destruct (cut_app _ _ _ _ E' N') as [(t2 & E2 & N2)|(s2 & -> & E2)].
    + rewrite (count_short d rd1 old _ s t2 f E2 N2). reflexivity.
    + rewrite count_ok by (unfold fits in HF; lia). rewrite Nat2Z.id. destruct (rsh_each rd1 w wf kept HO HS HN xs (resize d (length xs) old) (length_resize d _ _) HW s2 t' f E2 N') as (y & ->). cbn [bind]. apply HK.
  - rewrite (many_codec T d w rd1 wf kept (fun o x rest e H => HO o x H rest e)) by assumption. cbn [bind]. eapply HC; eassumption.
Qed.

(** ** Regions *)
Definition region_head (r : Region) : list Z :=
  le 4 (rg_etac r) ++ le 4 (rg_etamin r) ++ le 4 (rg_etamax r) ++ le 4 (rg_phic r) ++ le 4 (rg_phihw r) ++ le 4 (rg_etax r) ++ le 4 (rg_phix r) ++
  write_many clu_write (rg_calo r) ++ write_many clu_write (rg_emcalo r) ++ write_many ptk_write (rg_track r) ++ le 4 (Z.of_nat (length (rg_muon r))).
Lemma region_split r : region_wf r -> region_write r = region_head r ++ concat (map dmu_write (rg_muon r)).
Proof. intros (_ & _ & _ & _ & (_ & F)). unfold region_write, region_head. rewrite (write_many_fits dmu_write) by exact F. rewrite <- !app_assoc. reflexivity. Qed.
Definition with_muons (r : Region) (mus : list DMu) : Region :=
  mkRegion (rg_etac r) (rg_etamin r) (rg_etamax r) (rg_phic r) (rg_phihw r) (rg_etax r) (rg_phix r) (rg_calo r) (rg_emcalo r) (rg_track r) mus.
Ltac inv_floats := repeat match goal with H : Forall _ (_ :: _) |- _ => inversion H; subst; clear H end.
(** reading on after the head *)
Lemma region_head_ok o r rest f : region_wf r -> region_read o (mkFile (region_head r ++ rest) f) =
  do (mus, f1) <- read_each dmu_read (resize dmu0 (length (rg_muon r)) (rg_muon o)) (mkFile rest f); Ok (with_muons (region_kept r) mus, f1).
Proof.
  destruct r as [a b c d ee ff g ca em tk mu]. unfold region_wf, region_head, region_read, with_muons, region_kept.
  cbn [rg_etac rg_etamin rg_etamax rg_phic rg_phihw rg_etax rg_phix rg_calo rg_emcalo rg_track rg_muon].
  intros (HF & (H1 & F1) & (H2 & F2) & (H3 & F3) & (H4 & F4)). inv_floats. rewrite <- !app_assoc. repeat readone.
  rewrite (many_codec Clu clu0 clu_write clu_read clu_wf clu_kept clu_codec) by assumption. cbn [bind].
  rewrite (many_codec Clu clu0 clu_write clu_read clu_wf clu_kept clu_codec) by assumption. cbn [bind].
  rewrite (many_codec PTk ptk0 ptk_write ptk_read ptk_wf ptk_kept ptk_codec) by assumption. cbn [bind].
  rewrite count_ok by (unfold fits in F4; lia). rewrite Nat2Z.id. reflexivity.
Qed.
Ltac nfail_tac := repeat first [apply nfail_bind'; apply nfail_many|apply nfail_bind; [apply nokU; lia|intros ?]].
Lemma nfail_region o : nfail (region_read o).
Proof. unfold region_read. nfail_tac. Qed.
Lemma region_head_short o r : region_wf r -> rfail (region_read o) (region_head r).
Proof.
  destruct r as [a b c d ee ff g ca em tk mu]. unfold region_wf, region_head, region_read.
  cbn [rg_etac rg_etamin rg_etamax rg_phic rg_phihw rg_etax rg_phix rg_calo rg_emcalo rg_track rg_muon].
  intros (HF & (H1 & F1) & (H2 & F2) & (H3 & F3) & (H4 & F4)). inv_floats.
  do 7 (eapply rfail_bind; [apply rokU; eassumption|apply rshU|intros ?; nfail_tac|]).
  eapply (rfail_many clu0 clu_read clu_write clu_wf clu_kept); [intros; intros ? ?; apply clu_codec; assumption|exact clu_short|exact nok_clu|assumption|assumption|intros ?; nfail_tac|].
  eapply (rfail_many clu0 clu_read clu_write clu_wf clu_kept); [intros; intros ? ?; apply clu_codec; assumption|exact clu_short|exact nok_clu|assumption|assumption|intros ?; nfail_tac|].
  eapply (rfail_many ptk0 ptk_read ptk_write ptk_wf ptk_kept); [intros; intros ? ?; apply ptk_codec; assumption|exact ptk_short|exact nok_ptk|assumption|assumption|intros ?; nfail_tac|].
  intros s t f E N. rewrite (count_short _ _ _ _ s t f E N). reflexivity.
Qed.
Lemma dmus_short o mus : Forall dmu_wf mus -> length o = length mus -> rsh (read_each dmu_read o) (concat (map dmu_write mus)).
Proof. intros H L. apply (rsh_each dmu_read dmu_write dmu_wf (fun m => m)); [intros ? ? ? ? ?; apply dmu_codec; assumption|exact dmu_short|exact nok_dmu|exact L|exact H]. Qed.

(** ** The bytes of an event up to the muons of its last region *)
Fixpoint regions_head (rs : list Region) : list Z :=
  match rs with [] => [] | [r] => region_head r | r :: rs => region_write r ++ regions_head rs end.
Definition muon_bytes (e : event) : list Z := concat (map dmu_write (last_muons e)).
Definition event_head (e : event) : list Z :=
  le 4 (ev_run e) ++ le 4 (ev_lumi e) ++ le 8 (ev_event e) ++ le 4 (Z.of_nat (length (ev_regions e))) ++ regions_head (ev_regions e).
Definition trailer (e : event) : list Z := concat (map (le 4) (floats e)).
Lemma regions_split rs : Forall region_wf rs -> concat (map region_write rs) = regions_head rs ++ concat (map dmu_write (rg_muon (last rs region0))).
Proof.
  induction rs as [|r rs IH]; intros H; [reflexivity|]. inversion_clear H. destruct rs as [|r' rs]; [cbn [map concat regions_head last]; rewrite app_nil_r; apply region_split; assumption|].
  change (concat (map region_write (r :: r' :: rs))) with (region_write r ++ concat (map region_write (r' :: rs))). rewrite IH by assumption. rewrite app_assoc. reflexivity.
Qed.
Lemma event_split e : event_wf e -> event_dump e = event_head e ++ muon_bytes e ++ trailer e.
Proof.
  intros (_ & _ & _ & _ & W & F). unfold event_dump, event_head, muon_bytes, trailer, floats, last_muons. rewrite write_many_fits by exact F. rewrite regions_split by exact W. cbn [map concat]. rewrite app_nil_r, <- !app_assoc. reflexivity.
Qed.
Lemma regions_short rs : Forall region_wf rs -> rs <> [] -> forall l, length l = length rs -> rfail (read_each region_read l) (regions_head rs).
Proof.
  induction rs as [|r rs IH]; intros HW HN l HL; [contradiction|]. inversion_clear HW as [|? ? H HW']. destruct l as [|o l]; [discriminate HL|]. cbn [read_each].
  destruct rs as [|r' rs].
  - intros s t f E N. rewrite (region_head_short o r H s t f E N). reflexivity.
  - change (regions_head (r :: r' :: rs)) with (region_write r ++ regions_head (r' :: rs)). intros s t f E N.
    assert (NF : nfail (get xs <- read_each region_read l; ret xs)).
    { apply nfail_bind'. destruct l as [|o' l]; [discriminate HL|]. cbn [read_each]. apply nfail_bind'. apply nfail_region. }
    assert (NF' : read_each region_read l (mkFile [] true) = UB Uninit). { unfold nfail in NF. destruct (read_each region_read l (mkFile [] true)) as [[? ?]|]; [discriminate NF|exact NF]. }
    destruct (cut_app _ _ _ _ E N) as [(t' & E' & N')|(s' & -> & E')].
    + rewrite region_split in E' by exact H. destruct (cut_app _ _ _ _ E' N') as [(t2 & E2 & N2)|(s2 & -> & E2)].
      * rewrite (region_head_short o r H s t2 f E2 N2). reflexivity.
      * rewrite region_head_ok by exact H. destruct (dmus_short (resize dmu0 (length (rg_muon r)) (rg_muon o)) (rg_muon r) ltac:(apply H) (length_resize _ _ _) s2 t' f E2 N') as (y & ->). cbn [bind]. rewrite NF'. reflexivity.
    + rewrite region_codec by exact H. cbn [bind]. rewrite (IH HW' ltac:(discriminate) l ltac:(cbn in HL |- *; lia) s' t f E' N). reflexivity.
Qed.
Lemma last_indep {A} (l : list A) d d' : l <> [] -> last l d = last l d'.
Proof. induction l as [|x l IH]; intros N; [contradiction|]. destruct l; [reflexivity|]. apply IH. discriminate. Qed.
(** reading on after the heads *)
Lemma regions_head_ok rs r0 : Forall region_wf (r0 :: rs) -> forall l rest f, length l = S (length rs) -> read_each region_read l (mkFile (regions_head (r0 :: rs) ++ rest) f) =
  do (mus, f1) <- read_each dmu_read (resize dmu0 (length (rg_muon (last (r0 :: rs) region0))) (rg_muon (nth (length rs) l region0))) (mkFile rest f);
  Ok (map region_kept (removelast (r0 :: rs)) ++ [with_muons (region_kept (last (r0 :: rs) r0)) mus], f1).
Proof.
  revert r0. induction rs as [|r rs IH]; intros r0 HW l rest f HL; inversion_clear HW as [|? ? H HW']; (destruct l as [|o l]; [discriminate HL|]).
  - destruct l; [|discriminate HL]. cbn [read_each regions_head length nth last removelast map app]. rewrite region_head_ok by exact H. destruct (read_each dmu_read _ _) as [[mus f1]|]; reflexivity.
  - change (regions_head (r0 :: r :: rs)) with (region_write r0 ++ regions_head (r :: rs)). cbn [read_each]. rewrite <- app_assoc, region_codec by exact H. cbn [bind]. rewrite (IH r HW' l rest f) by (cbn in HL |- *; lia).
    change (last (r0 :: r :: rs) region0) with (last (r :: rs) region0). change (nth (length (r :: rs)) (o :: l) region0) with (nth (length rs) l region0).
    assert (EL : last (r0 :: r :: rs) r0 = last (r :: rs) r) by (apply (last_indep (r :: rs)); discriminate).
    rewrite EL. change (removelast (r0 :: r :: rs)) with (r0 :: removelast (r :: rs)). destruct (read_each dmu_read _ _) as [[mus f1]|]; reflexivity.
Qed.
