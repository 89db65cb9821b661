(** Codec facts. *)
From Verif Require Import Base BaseFacts Data Discrete DiscreteIO SpecIO.

Lemma length_le n x : length (le n x) = n.
Proof. revert x. induction n; intros x; cbn; [|rewrite IHn]; reflexivity. Qed.
Lemma unle_le n x : inU (8 * Z.of_nat n) x -> unle (le n x) = x.
Proof.
  revert x. induction n as [|n IH]; intros x H.
  - unfold inU in H. cbn in H. cbn. lia.
  - cbn [le unle]. rewrite IH; [pose proof (Z.div_mod x 256); lia|].
    unfold inU in *. replace (8 * Z.of_nat (S n)) with (8 * Z.of_nat n + 8) in H by lia. rewrite Z.pow_add_r in H by lia.
    change (2 ^ 8) with 256 in H. generalize dependent (2 ^ (8 * Z.of_nat n)). intros P H. split; [apply Z.div_pos; lia|]. apply Z.div_lt_upper_bound; lia.
Qed.
Lemma wrapS_le n x : (0 < n)%nat -> inS (8 * Z.of_nat n) x -> wrapS (8 * Z.of_nat n) (unle (le n x)) = x.
Proof.
  intros Hn H. set (w := 8 * Z.of_nat n) in *.
  assert (E : unle (le n x) = x mod 2 ^ w).
  { assert (G : forall m y, unle (le m y) = y mod 2 ^ (8 * Z.of_nat m)).
    { induction m as [|m IH]; intros y; [cbn; now rewrite Z.mod_1_r|].
      cbn [le unle]. rewrite IH. replace (8 * Z.of_nat (S m)) with (8 + 8 * Z.of_nat m) by lia. rewrite Z.pow_add_r by lia. change (2 ^ 8) with 256.
      rewrite Z.rem_mul_r by (try lia; apply Z.pow_nonzero; lia). reflexivity. }
    apply G. }
  rewrite E. unfold wrapS. unfold inS in H.
  assert (P : 2 ^ w = 2 * 2 ^ (w - 1)) by (replace w with (1 + (w - 1)) at 1 by lia; rewrite Z.pow_add_r by lia; reflexivity).
  assert (0 < 2 ^ (w - 1)) by (apply Z.pow_pos_nonneg; lia).
  rewrite Zplus_mod_idemp_l. rewrite Z.mod_small; lia.
Qed.

Lemma fread_exact n old bs rest e : length bs = n -> length old = n -> fread n old (mkFile (bs ++ rest) e) = Ok ((bs, true), mkFile rest e).
Proof.
  intros H1 H2. unfold fread. cbn [f_rest f_eof]. rewrite app_length, Nat.min_l by lia. rewrite Nat.eqb_refl, Nat.ltb_irrefl, orb_false_r.
  rewrite skipn_all2 by lia. rewrite app_nil_r. rewrite firstn_app, skipn_app, H1, Nat.sub_diag, firstn_all2, skipn_all2 by lia. cbn [firstn skipn app]. now rewrite app_nil_r.
Qed.
Lemma freadU_le n old x rest e : inU (8 * Z.of_nat n) x -> freadU n old (mkFile (le n x ++ rest) e) = Ok (x, mkFile rest e).
Proof. intros H. unfold freadU. rewrite fread_exact by apply length_le. cbn [bind]. unfold ret. now rewrite unle_le. Qed.
Lemma freadS_le n old x rest e : (0 < n)%nat -> inS (8 * Z.of_nat n) x -> freadS n old (mkFile (le n x ++ rest) e) = Ok (x, mkFile rest e).
Proof. intros Hn H. unfold freadS. rewrite fread_exact by apply length_le. cbn [bind]. unfold ret. now rewrite wrapS_le. Qed.
Lemma freadB_le old x rest e : freadB old (mkFile (le 1 (b2z x) ++ rest) e) = Ok (x, mkFile rest e).
Proof. unfold freadB. rewrite fread_exact by apply length_le. cbn [bind]. destruct x; reflexivity. Qed.

Ltac readone := first [rewrite freadU_le by assumption | rewrite freadS_le by (first [assumption|lia]) | rewrite freadB_le]; cbn [bind].
Lemma clu_codec o c rest e : clu_wf c -> clu_read o (mkFile (clu_write c ++ rest) e) = Ok (clu_kept c, mkFile rest e).
Proof.
  destruct c as [a1 a2 a3 a4 a5 a6 a7 a8]. unfold clu_wf, clu_write, clu_read, clu_kept. cbn [cl_pt cl_empt cl_pterr cl_eta cl_phi cl_flags cl_isem cl_used].
  intros (H1 & H2 & H3 & H4 & H5 & H6). rewrite <- !app_assoc. repeat readone. reflexivity.
Qed.
Lemma itk_codec o t rest e : itk_wf t -> itk_read o (mkFile (itk_write t ++ rest) e) = Ok (t, mkFile rest e).
Proof.
  destruct t as [a1 a2 a3 a4 a5 a6 a7 a8]. unfold itk_wf, itk_write, itk_read. cbn [it_invpt it_veta it_vphi it_charge it_z0 it_chi2 it_stubs it_flags].
  intros (H1 & H2 & H3 & H4 & H5 & H6 & H7). rewrite <- !app_assoc. repeat readone. reflexivity.
Qed.
Lemma ptk_codec o t rest e : ptk_wf t -> ptk_read o (mkFile (ptk_write t ++ rest) e) = Ok (ptk_kept t, mkFile rest e).
Proof.
  destruct t as [i a2 a3 a4 a5 a6 a7 a8 a9]. unfold ptk_wf, ptk_write, ptk_read, ptk_kept. cbn [pt_in pt_pt pt_pterr pt_calopterr pt_eta pt_phi].
  intros (H0 & H1 & H2 & H3 & H4 & H5). rewrite <- !app_assoc. rewrite itk_codec by exact H0. cbn [bind]. repeat readone. reflexivity.
Qed.
Lemma dmu_codec o m rest e : dmu_wf m -> dmu_read o (mkFile (dmu_write m ++ rest) e) = Ok (m, mkFile rest e).
Proof.
  destruct m as [a1 a2 a3 a4 a5]. unfold dmu_wf, dmu_write, dmu_read. cbn [dm_pt dm_eta dm_phi dm_flags dm_charge].
  intros (H1 & H2 & H3 & H4). rewrite <- !app_assoc. repeat readone. reflexivity.
Qed.

Lemma length_resize {T} (d : T) n l : length (resize d n l) = n.
Proof. unfold resize. rewrite app_length, firstn_length, repeat_length. lia. Qed.
Lemma write_many_fits {T} (w : T -> list Z) xs : fits xs -> write_many w xs = le 4 (Z.of_nat (length xs)) ++ concat (map w xs).
Proof.
  intros HF. unfold write_many, fits in *. rewrite (wrapU_id 32) by (unfold inU; lia). rewrite Nat2Z.id, firstn_all. reflexivity.
Qed.

Section many.
Variable T : Type.
Variable d : T.
Variable w : T -> list Z.
Variable rd1 : T -> reader T.
Variable wf : T -> Prop.
Variable kept : T -> T.
Hypothesis codec : forall o x rest e, wf x -> rd1 o (mkFile (w x ++ rest) e) = Ok (kept x, mkFile rest e).

Lemma each_codec xs olds rest e : length olds = length xs -> Forall wf xs ->
  read_each rd1 olds (mkFile (concat (map w xs) ++ rest) e) = Ok (map kept xs, mkFile rest e).
Proof.
  revert olds. induction xs as [|x xs IH]; intros [|o olds] HL HW; cbn in HL; try discriminate; [reflexivity|].
  inversion HW; subst. cbn [read_each concat map]. rewrite <- app_assoc, codec by assumption. cbn [bind]. rewrite IH by (try assumption; lia). reflexivity.
Qed.
Lemma many_codec xs objs rest e : fits xs -> Forall wf xs ->
  read_many d rd1 objs (mkFile (write_many w xs ++ rest) e) = Ok (map kept xs, mkFile rest e).
Proof.
  intros HF HW. rewrite write_many_fits by exact HF. rewrite <- app_assoc. unfold read_many. rewrite fread_exact by (try apply length_le; reflexivity). cbn [bind].
  rewrite unle_le by (unfold inU, fits in *; change (8 * Z.of_nat 4) with 32; lia). rewrite Nat2Z.id. apply each_codec; [apply length_resize|exact HW].
Qed.
End many.

Lemma region_codec o r rest e : region_wf r -> region_read o (mkFile (region_write r ++ rest) e) = Ok (region_kept r, mkFile rest e).
Proof.
  destruct r as [a b c d ee f g ca em tk mu]. unfold region_wf, region_write, region_read, region_kept.
  cbn [rg_etac rg_etamin rg_etamax rg_phic rg_phihw rg_etax rg_phix rg_calo rg_emcalo rg_track rg_muon].
  intros (HF & (H1 & F1) & (H2 & F2) & (H3 & F3) & (H4 & F4)).
  repeat match goal with H : Forall _ (_ :: _) |- _ => inversion H; subst; clear H end.
  rewrite <- !app_assoc. repeat readone.
  rewrite (many_codec Clu clu0 clu_write clu_read clu_wf clu_kept clu_codec) by assumption. cbn [bind].
  rewrite (many_codec Clu clu0 clu_write clu_read clu_wf clu_kept clu_codec) by assumption. cbn [bind].
  rewrite (many_codec PTk ptk0 ptk_write ptk_read ptk_wf ptk_kept ptk_codec) by assumption. cbn [bind].
  rewrite (many_codec DMu dmu0 dmu_write dmu_read dmu_wf (fun m => m) dmu_codec) by assumption. cbn [bind]. rewrite map_id. reflexivity.
Qed.

Lemma event_codec tail o ev rest e : event_wf ev ->
  event_read tail o (mkFile (event_dump ev ++ rest) e) = do b <- tail; Ok ((b, event_kept ev), mkFile rest e).
Proof.
  destruct ev as [a b c z gz q1 q2 q3 q4 rs]. unfold event_wf, event_dump, event_read, event_kept.
  cbn [ev_run ev_lumi ev_event ev_z0 ev_genz0 ev_acm ev_acr ev_afm ev_afr ev_regions]. intros (H1 & H2 & H3 & HF & HR & FR).
  repeat match goal with H : Forall _ (_ :: _) |- _ => inversion H; subst; clear H end.
  rewrite <- !app_assoc. rewrite fread_exact by apply length_le. cbn [bind negb]. rewrite unle_le by assumption. repeat readone.
  rewrite (many_codec Region region0 region_write region_read region_wf region_kept region_codec) by assumption. cbn [bind]. repeat readone. reflexivity.
Qed.

(** ** The other direction: an object read without reaching the end of the
    file was written as exactly the bytes consumed *)
Definition exact_read {T} (rd1 : reader T) (w : T -> list Z) : Prop := forall f x f',
  Forall (inU 8) (f_rest f) -> rd1 f = Ok (x, f') -> f_eof f' = false -> f_rest f = w x ++ f_rest f' /\ f_eof f = false /\ Forall (inU 8) (f_rest f').

Lemma le_unle l : Forall (inU 8) l -> le (length l) (unle l) = l.
Proof.
  induction 1 as [|b r Hb Hr IH]; [reflexivity|]. cbn [length le unle]. unfold inU in Hb.
  replace ((b + 256 * unle r) mod 256) with b by (change (2 ^ 8) with 256 in Hb; lia).
  replace ((b + 256 * unle r) / 256) with (unle r) by (change (2 ^ 8) with 256 in Hb; lia). now rewrite IH.
Qed.
Lemma le_wrapS n x : le n (wrapS (8 * Z.of_nat n) x) = le n x.
Proof.
  assert (G : forall m y k, le m (y + k * 2 ^ (8 * Z.of_nat m)) = le m y).
  { induction m as [|m IH]; intros y k; [reflexivity|]. cbn [le]. replace (8 * Z.of_nat (S m)) with (8 * Z.of_nat m + 8) by lia. rewrite Z.pow_add_r by lia. change (2 ^ 8) with 256.
    rewrite Z.mul_assoc. rewrite Z_mod_plus_full, Z_div_plus_full by lia. now rewrite IH. }
  destruct n as [|n]; [reflexivity|]. set (w := 8 * Z.of_nat (S n)). unfold wrapS.
  set (h := 2 ^ (w - 1)). pose proof (Z.div_mod (x + h) (2 ^ w) ltac:(apply Z.pow_nonzero; lia)) as D.
  replace ((x + h) mod 2 ^ w - h) with (x + (- ((x + h) / 2 ^ w)) * 2 ^ w) by lia. apply G.
Qed.
Lemma fread_inv n old f bs ok f' : fread n old f = Ok ((bs, ok), f') -> f_eof f' = false -> length old = n -> Forall (inU 8) (f_rest f) ->
  ok = true /\ length bs = n /\ f_rest f = bs ++ f_rest f' /\ f_eof f = false /\ Forall (inU 8) bs /\ Forall (inU 8) (f_rest f').
Proof.
  unfold fread. intros E HE HL HB. injection E as <- <- <-. cbn [f_eof f_rest] in *. apply orb_false_iff in HE. destruct HE as [HE1 HE2]. apply Nat.ltb_ge in HE2.
  assert (K : Nat.min n (length (f_rest f)) = n) by lia. rewrite K. rewrite Nat.eqb_refl. rewrite skipn_all2 by lia. rewrite app_nil_r.
  rewrite firstn_length, firstn_skipn. pose proof HB as HB'. rewrite <- (firstn_skipn n) in HB'. apply Forall_app in HB'. intuition lia.
Qed.
Lemma freadU_inv n old : exact_read (freadU n old) (le n).
Proof.
  intros f x f' HB E HE. unfold freadU in E. destruct (fread n (le n old) f) as [[[bs ok] s]|] eqn:F; [|discriminate]. cbn [bind] in E. unfold ret in E. injection E as <- <-.
  destruct (fread_inv _ _ _ _ _ _ F HE (length_le _ _) HB) as (_ & L & R & EF & B1 & B2). split; [|tauto]. rewrite <- L, le_unle by exact B1. exact R.
Qed.
Lemma freadS_inv n old : exact_read (freadS n old) (le n).
Proof.
  intros f x f' HB E HE. unfold freadS in E. destruct (fread n (le n old) f) as [[[bs ok] s]|] eqn:F; [|discriminate]. cbn [bind] in E. unfold ret in E. injection E as <- <-.
  destruct (fread_inv _ _ _ _ _ _ F HE (length_le _ _) HB) as (_ & L & R & EF & B1 & B2). split; [|tauto]. rewrite le_wrapS. rewrite <- L, le_unle by exact B1. exact R.
Qed.
Lemma freadB_inv old : exact_read (freadB old) (fun b => le 1 (b2z b)).
Proof.
  intros f x f' HB E HE. unfold freadB in E. destruct (fread 1 (le 1 (b2z old)) f) as [[[bs ok] s]|] eqn:F; [|discriminate]. cbn [bind] in E.
  assert (X : bs = [b2z x] /\ s = f').
  { destruct bs as [|b0 [|b1 l]]; try discriminate E. all: destruct b0 as [|[p|p|]|p]; cbn in E; try discriminate E; unfold ret in E; injection E as <- <-; split; reflexivity. }
  destruct X as [-> ->].
  destruct (fread_inv _ _ _ _ _ _ F HE (length_le _ _) HB) as (_ & L & R & EF & B1 & B2). split; [|tauto]. destruct x; exact R.
Qed.

(** sequencing: the bytes consumed are related to the result by P *)
Definition reads {T} (rd1 : reader T) (P : T -> list Z -> Prop) : Prop := forall f x f',
  Forall (inU 8) (f_rest f) -> rd1 f = Ok (x, f') -> f_eof f' = false ->
  exists bs, f_rest f = bs ++ f_rest f' /\ P x bs /\ f_eof f = false /\ Forall (inU 8) (f_rest f').
(** readers never clear the end-of-file indicator nor invent bytes *)
Definition tame {T} (rd1 : reader T) : Prop := forall f x f', rd1 f = Ok (x, f') ->
  (f_eof f' = false -> f_eof f = false) /\ (Forall (inU 8) (f_rest f) -> Forall (inU 8) (f_rest f')).

Lemma tame_ret {T} (x : T) : tame (ret x).
Proof. intros f y f' E. injection E as <- <-. auto. Qed.
Lemma tame_fail {T} k : tame (@fail T k).
Proof. intros f y f' E. discriminate E. Qed.
Lemma tame_bind {A B} (e : reader A) (K : A -> reader B) : tame e -> (forall x, tame (K x)) -> tame (get x <- e; K x).
Proof.
  intros H1 H2 f y f' E. destruct (e f) as [[x s]|] eqn:F; [|discriminate E]. cbn [bind] in E. destruct (H1 _ _ _ F). destruct (H2 _ _ _ _ E). auto.
Qed.
Lemma tame_fread n old : tame (fread n old).
Proof.
  intros f p f' E. unfold fread in E. injection E as <- <-. cbn [f_eof f_rest]. split; [intros H; apply orb_false_iff in H; tauto|].
  intros H. rewrite <- (firstn_skipn (Nat.min n (length (f_rest f)))) in H. apply Forall_app in H. tauto.
Qed.
Lemma tame_bind2 {A C B} (e : reader (A * C)) (K : A -> C -> reader B) : tame e -> (forall x c, tame (K x c)) -> tame (get (x, c) <- e; K x c).
Proof.
  intros H1 H2 f y f' E. destruct (e f) as [[[x c] s]|] eqn:F; [|discriminate E]. cbn [bind] in E. destruct (H1 _ _ _ F). destruct (H2 _ _ _ _ _ E). auto.
Qed.
Lemma tame_freadU n old : tame (freadU n old).
Proof. apply tame_bind2; [apply tame_fread|intros; apply tame_ret]. Qed.
Lemma tame_freadS n old : tame (freadS n old).
Proof. apply tame_bind2; [apply tame_fread|intros; apply tame_ret]. Qed.
Lemma tame_freadB old : tame (freadB old).
Proof.
  apply tame_bind2; [apply tame_fread|]. intros bs c. destruct bs as [|[|[p|p|]|p] [|b1 l]]; try apply tame_fail; apply tame_ret.
Qed.
Ltac tame_tac := repeat first [apply tame_freadU | apply tame_freadS | apply tame_freadB | apply tame_ret | apply tame_fail | apply tame_bind; [|intros ?]].
Lemma tame_clu o : tame (clu_read o). Proof. unfold clu_read. tame_tac. Qed.
Lemma tame_itk o : tame (itk_read o). Proof. unfold itk_read. tame_tac. Qed.
Lemma tame_ptk o : tame (ptk_read o). Proof. unfold ptk_read. apply tame_bind; [apply tame_itk|intros ?]. tame_tac. Qed.
Lemma tame_dmu o : tame (dmu_read o). Proof. unfold dmu_read. tame_tac. Qed.
Lemma tame_each {T} (rd1 : T -> reader T) l : (forall o, tame (rd1 o)) -> tame (read_each rd1 l).
Proof. intros H. induction l as [|o r IH]; cbn [read_each]; [apply tame_ret|]. apply tame_bind; [apply H|intros x]. apply tame_bind; [exact IH|intros xs]. apply tame_ret. Qed.
Lemma tame_many {T} d (rd1 : T -> reader T) l : (forall o, tame (rd1 o)) -> tame (read_many d rd1 l).
Proof. intros H. apply tame_bind2; [apply tame_fread|]. intros bs [|]; [apply tame_each; exact H|apply tame_fail]. Qed.
Lemma tame_region o : tame (region_read o).
Proof.
  unfold region_read. do 7 (apply tame_bind; [apply tame_freadU|intros ?]).
  repeat (apply tame_bind; [apply tame_many; first [exact tame_clu|exact tame_ptk|exact tame_dmu]|intros ?]). apply tame_ret.
Qed.

Lemma reads_of_exact {T} (rd1 : reader T) w : exact_read rd1 w -> reads rd1 (fun x bs => bs = w x).
Proof. intros H f x f' HB E HE. destruct (H _ _ _ HB E HE) as (R & EF & B). exists (w x). auto. Qed.
Lemma exact_of_reads {T} (rd1 : reader T) (P : T -> list Z -> Prop) w : reads rd1 P -> (forall x bs, P x bs -> bs = w x) -> exact_read rd1 w.
Proof. intros H HP f x f' HB E HE. destruct (H _ _ _ HB E HE) as (bs & R & HPx & EF & B). rewrite <- (HP _ _ HPx). auto. Qed.
Lemma reads_ret {T} (v : T) : reads (ret v) (fun x bs => x = v /\ bs = []).
Proof. intros f y f' HB E HE. injection E as <- <-. exists []. auto. Qed.
Lemma reads_bind {A B} (e : reader A) (K : A -> reader B) Pe PK : tame e -> (forall x, tame (K x)) -> reads e Pe -> (forall x, reads (K x) (PK x)) ->
  reads (get x <- e; K x) (fun y bs => exists x b1 b2, bs = b1 ++ b2 /\ Pe x b1 /\ PK x y b2).
Proof.
  intros T1 T2 H1 H2 f y f' HB E HE. destruct (e f) as [[x s]|] eqn:F; [|discriminate E]. cbn [bind] in E.
  destruct (T1 _ _ _ F) as (M1 & N1). destruct (T2 _ _ _ _ E) as (M2 & N2).
  destruct (H1 _ _ _ HB F (M2 HE)) as (b1 & R1 & P1 & E1 & B1). destruct (H2 _ _ _ _ B1 E HE) as (b2 & R2 & P2 & E2 & B2).
  exists (b1 ++ b2). split; [rewrite R1, R2, app_assoc; reflexivity|]. split; [exists x, b1, b2; auto|]. auto.
Qed.
Ltac reads_tac := repeat first [apply reads_of_exact; first [apply freadU_inv|apply freadS_inv|apply freadB_inv] | apply reads_ret
  | eapply reads_bind; [tame_tac|intros ?; tame_tac| |intros ?] ].
Ltac reads_end := let y := fresh in let bs := fresh in let H := fresh in intros y bs H; cbv beta in H;
  repeat match goal with H : exists _, _ |- _ => destruct H | H : _ /\ _ |- _ => destruct H end; subst; rewrite ?app_nil_r; first [reflexivity | rewrite ?app_assoc; reflexivity].
Lemma clu_exact o : exact_read (clu_read o) clu_write.
Proof. eapply exact_of_reads; [unfold clu_read; reads_tac|]. reads_end. Qed.
Lemma itk_exact o : exact_read (itk_read o) itk_write.
Proof. eapply exact_of_reads; [unfold itk_read; reads_tac|]. reads_end. Qed.
Lemma ptk_exact o : exact_read (ptk_read o) ptk_write.
Proof. eapply exact_of_reads; [unfold ptk_read; eapply reads_bind; [apply tame_itk|intros ?; tame_tac|apply reads_of_exact, itk_exact|intros ?; reads_tac]|]. reads_end. Qed.
Lemma dmu_exact o : exact_read (dmu_read o) dmu_write.
Proof. eapply exact_of_reads; [unfold dmu_read; reads_tac|]. reads_end. Qed.

Lemma each_exact {T} (rd1 : T -> reader T) w l : (forall o, tame (rd1 o)) -> (forall o, exact_read (rd1 o) w) ->
  reads (read_each rd1 l) (fun xs bs => bs = concat (map w xs) /\ length xs = length l).
Proof.
  intros HT HE. induction l as [|o r IH]; cbn [read_each].
  - intros f y f' HB E HF. injection E as <- <-. exists []. auto.
  - intros f y f' HB E HF. edestruct (reads_bind (rd1 o) (fun x => get xs <- read_each rd1 r; ret (x :: xs)) (fun x bs => bs = w x)) as (bs & R & P & F & B); try eassumption.
    + apply HT. + intros x. apply tame_bind; [apply tame_each, HT|intros; apply tame_ret]. + apply reads_of_exact, HE.
    + intros x. eapply reads_bind; [apply tame_each, HT|intros; apply tame_ret|exact IH|intros; apply reads_ret].
    + exists bs. split; [exact R|]. split; [|auto]. cbv beta in P. destruct P as (x & b1 & b2 & -> & -> & xs & b3 & b4 & -> & (-> & L) & -> & ->). cbn. rewrite app_nil_r. auto.
Qed.
Lemma many_exact {T} d (rd1 : T -> reader T) w l : (forall o, tame (rd1 o)) -> (forall o, exact_read (rd1 o) w) -> reads (read_many d rd1 l) (fun xs bs => bs = write_many w xs /\ fits xs).
Proof.
  intros HT HE f y f' HB E HF. unfold read_many in E. destruct (fread 4 [0; 0; 0; 0] f) as [[[bs ok] s]|] eqn:F; [|discriminate E]. cbn [bind] in E.
  destruct ok; [|discriminate E]. destruct (tame_each rd1 (resize d (Z.to_nat (unle bs)) l) HT _ _ _ E) as (M & _).
  destruct (fread_inv _ _ _ _ _ _ F (M HF) eq_refl HB) as (_ & L & R & EF & B1 & B2).
  destruct (each_exact rd1 w _ HT HE _ _ _ B2 E HF) as (b2 & R2 & (P2 & L2) & E2 & B3).
  exists (bs ++ b2). split; [rewrite R, R2, app_assoc; reflexivity|]. split; [|auto].
  assert (U : inU 32 (unle bs)).
  { clear -B1 L. destruct bs as [|a [|b [|c [|d [|]]]]]; try discriminate L. repeat match goal with H : Forall _ (_ :: _) |- _ => inversion H; subst; clear H end. unfold inU in *. cbn [unle]. lia. }
  unfold inU in U. rewrite length_resize in L2.
  assert (FY : fits y) by (unfold fits; lia). split; [|exact FY].
  rewrite write_many_fits by exact FY. rewrite L2. rewrite Z2Nat.id by lia. rewrite <- L. rewrite le_unle by exact B1. subst b2. reflexivity.
Qed.
Lemma region_exact o : exact_read (region_read o) region_write.
Proof.
  eapply exact_of_reads.
  - unfold region_read.
    do 7 (eapply reads_bind; [tame_tac|intros ?; repeat (first [apply tame_freadU|apply tame_many; first [exact tame_clu|exact tame_ptk|exact tame_dmu]|apply tame_ret|apply tame_bind; [|intros ?]])|apply reads_of_exact, freadU_inv|intros ?]).
    eapply reads_bind; [apply tame_many, tame_clu|intros ?; repeat (first [apply tame_many; first [exact tame_clu|exact tame_ptk|exact tame_dmu]|apply tame_ret|apply tame_bind; [|intros ?]])|apply many_exact; [exact tame_clu|exact clu_exact]|intros ?].
    eapply reads_bind; [apply tame_many, tame_clu|intros ?; repeat (first [apply tame_many; first [exact tame_clu|exact tame_ptk|exact tame_dmu]|apply tame_ret|apply tame_bind; [|intros ?]])|apply many_exact; [exact tame_clu|exact clu_exact]|intros ?].
    eapply reads_bind; [apply tame_many, tame_ptk|intros ?; repeat (first [apply tame_many; first [exact tame_clu|exact tame_ptk|exact tame_dmu]|apply tame_ret|apply tame_bind; [|intros ?]])|apply many_exact; [exact tame_ptk|exact ptk_exact]|intros ?].
    eapply reads_bind; [apply tame_many, tame_dmu|intros ?; apply tame_ret|apply many_exact; [exact tame_dmu|exact dmu_exact]|intros ?].
    apply reads_ret.
  - reads_end.
Qed.
