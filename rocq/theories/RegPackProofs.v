(** The words of the regionizer test program's pattern files. *)
From Coq Require Import Ascii String.
From Verif Require Import Base BaseFacts TabFacts MapiFacts Data PFHw Encoding SpecEnc EncFacts SpecRegion Regionizer Serializer SpecSer SerProofs SerRecover SerFinal
  SpecTest PFFileProofs RegTest RegFiles RegTestRun SpecRegFiles RegFilesProofs HRProofs RegFilesInj.
Local Open Scope list_scope.
Local Open Scope Z_scope.

(** ** Transposition *)
Section trans.
Context {T : Type} (d : T) (ri ci : nat -> nat -> nat) (n m R C : nat) (src : list (list T)).
Hypothesis (HS : dims2 n m src) (HR : forall is io, (is < n)%nat -> (io < m)%nat -> (ri is io < R)%nat /\ (ci is io < C)%nat)
  (HI : forall is io is' io', (is < n)%nat -> (io < m)%nat -> (is' < n)%nat -> (io' < m)%nat -> ri is io = ri is' io' -> ci is io = ci is' io' -> is = is' /\ io = io').
Definition cell (l : list (list T)) (r k : nat) : T := nth k (nth r l []) d.
Definition put (dst : list (list T)) (is io : nat) : res (list (list T)) :=
  do s <- rd src is; do x <- rd s io; do row <- rd dst (ri is io); do row <- wr row (ci is io) x; wr dst (ri is io) row.
Lemma put_ok dst is io : (is < n)%nat -> (io < m)%nat -> dims2 R C dst -> exists dst', put dst is io = Ok dst' /\ dims2 R C dst' /\
  cell dst' (ri is io) (ci is io) = cell src is io /\ forall r k, r <> ri is io \/ k <> ci is io -> cell dst' r k = cell dst r k.
Proof.
  intros H1 H2 D. destruct (HR is io H1 H2) as [B1 B2]. destruct (rd_nth n m src is HS H1) as [E1 L1]. destruct (rd_nth R C dst (ri is io) D B1) as [E2 L2]. unfold put. rewrite E1. cbn [bind].
  unfold rd at 1. rewrite (nth_error_nth' _ d) by lia. cbn [bind]. rewrite E2. cbn [bind]. unfold wr. destruct (Nat.ltb_spec (ci is io) (length (nth (ri is io) dst []))); [|lia]. cbn [bind].
  destruct D as [DL DM]. destruct (Nat.ltb_spec (ri is io) (length dst)); [|lia]. eexists. split; [reflexivity|]. split; [|split].
  - split; [rewrite length_upd; exact DL|]. intros a Ha. apply In_nth with (d := []) in Ha as (i & Hi & <-). rewrite length_upd in Hi. destruct (Nat.eq_dec i (ri is io)) as [->|NE].
    + rewrite nth_upd_eq by lia. rewrite length_upd. exact L2.
    + rewrite nth_upd_ne by lia. apply DM. apply nth_In. exact Hi.
  - unfold cell. rewrite nth_upd_eq by lia. rewrite nth_upd_eq by lia. reflexivity.
  - intros r k NE. unfold cell. destruct (Nat.eq_dec r (ri is io)) as [->|N1]; [|rewrite nth_upd_ne by lia; reflexivity]. rewrite nth_upd_eq by lia. rewrite nth_upd_ne by lia. reflexivity.
Qed.
Definition filled_cells (dst : list (list T)) (done : nat -> nat -> Prop) : Prop :=
  dims2 R C dst /\ forall is io, (is < n)%nat -> (io < m)%nat -> done is io -> cell dst (ri is io) (ci is io) = cell src is io.
Lemma put_step dst is io done : (is < n)%nat -> (io < m)%nat -> filled_cells dst done -> exists dst', put dst is io = Ok dst' /\ filled_cells dst' (fun is' io' => done is' io' \/ (is' = is /\ io' = io)).
Proof.
  intros H1 H2 [D F]. destruct (put_ok dst is io H1 H2 D) as (dst' & E & D' & S & O). exists dst'. split; [exact E|]. split; [exact D'|].
  intros is' io' H1' H2' [G|[-> ->]]; [|exact S]. destruct (Nat.eq_dec (ri is' io') (ri is io)) as [Er|Nr]; [destruct (Nat.eq_dec (ci is' io') (ci is io)) as [Ec|Nc]|].
  - destruct (HI _ _ _ _ H1' H2' H1 H2 Er Ec) as [-> ->]. exact S.
  - rewrite O by (right; exact Nc). apply F; assumption.
  - rewrite O by (left; exact Nr). apply F; assumption.
Qed.
Lemma transpose_ok dst : dims2 R C dst -> exists dst', transpose ri ci n m src dst = Ok dst' /\ filled_cells dst' (fun _ _ => True).
Proof.
  intros D. unfold transpose. fold put.
  assert (G : forall a, (a <= n)%nat -> exists dst', foldM (fun dst is => foldM (fun dst io => put dst is io) (seq 0 m) dst) (seq 0 a) dst = Ok dst' /\ filled_cells dst' (fun is _ => (is < a)%nat)).
  { induction a as [|a IH]; intros Ha; [exists dst; split; [reflexivity|split; [exact D|intros; lia]]|]. destruct IH as (d1 & E1 & F1); [lia|]. rewrite seq_S, foldM_app, E1. cbn [bind foldM Nat.add].
    assert (H : forall b, (b <= m)%nat -> exists dst', foldM (fun dst io => put dst a io) (seq 0 b) d1 = Ok dst' /\ filled_cells dst' (fun is io => (is < a)%nat \/ (is = a /\ (io < b)%nat))).
    { induction b as [|b IHb]; intros Hb; [exists d1; split; [reflexivity|split; [apply F1|intros is io H1 H2 [H3|[_ H3]]; [apply F1; assumption|lia]]]|].
      destruct IHb as (d2 & E2 & F2); [lia|]. rewrite seq_S, foldM_app, E2. cbn [bind foldM Nat.add]. destruct (put_step d2 a b _ ltac:(lia) ltac:(lia) F2) as (d3 & E3 & F3). rewrite E3. cbn [bind]. exists d3. split; [reflexivity|].
      split; [apply F3|]. intros is io H1 H2 H3. apply F3; [assumption..|]. destruct H3 as [H3|[H3 H4]]; [left; left; exact H3|]. destruct (Nat.eq_dec io b); [right; split; assumption|left; right; split; [exact H3|lia]]. }
    destruct (H m (le_n _)) as (d2 & E2 & F2). rewrite E2. cbn [bind]. exists d2. split; [reflexivity|]. split; [apply F2|]. intros is io H1 H2 H3. apply F2; [assumption..|]. destruct (Nat.eq_dec is a); [right; split; [assumption|exact H2]|left; lia]. }
  destruct (G n (le_n _)) as (d1 & E & F). exists d1. split; [exact E|]. split; [apply F|]. intros is io H1 H2 _. apply F; assumption.
Qed.
End trans.

(** ** Blocks of words *)
Definition packs {T} (pack : nat -> list T -> list Z -> res (list Z)) (words : T -> list Z) : Prop :=
  (forall offs l a b, offs = length a -> (2 * length l <= length b)%nat -> pack offs l (a ++ b) = Ok ((a ++ flat_map words l) ++ skipn (2 * length l) b)) /\ forall o, length (words o) = 2%nat.
Lemma packs_had : packs mp7_pack_had had_words.
Proof. split; [intros; apply (pack_gen _ had_words (fun o => two_words _ _) had_body); assumption|reflexivity]. Qed.
Lemma packs_em : packs mp7_pack_em em_words.
Proof. split; [intros; apply (pack_gen _ em_words (fun o => two_words _ _) em_body); assumption|reflexivity]. Qed.
Lemma packs_tk : packs mp7_pack_tk tk_words.
Proof. split; [intros; apply (pack_gen _ tk_words (fun o => two_words _ _) tk_body); assumption|reflexivity]. Qed.
Lemma packs_mu : packs mp7_pack_mu mu_words.
Proof. split; [intros; apply (pack_gen _ mu_words (fun o => two_words _ _) mu_body); assumption|reflexivity]. Qed.
Lemma flat_two {T} (words : T -> list Z) l : (forall o, length (words o) = 2%nat) -> length (flat_map words l) = (2 * length l)%nat.
Proof. intros H. induction l; cbn [flat_map]; [reflexivity|]. rewrite app_length, H, IHl. cbn [length]. lia. Qed.
Lemma skipn_zeros k m : skipn k (repeat 0 m) = repeat 0 (m - k).
Proof. revert m. induction k; intros [|m]; cbn [skipn repeat Nat.sub]; auto. Qed.
Lemma pack_block {T} pack (words : T -> list Z) offs n ic rows row a m : packs pack words -> offs = length a -> (2 * length row <= m)%nat -> ((ic < n)%nat -> rd rows ic = Ok row) ->
  pack_if pack offs n ic rows (a ++ repeat 0 m) = Ok ((a ++ block words n ic row) ++ repeat 0 (m - 2 * length row)).
Proof.
  intros [P W] HO HM HR. unfold pack_if, block. destruct (Nat.ltb_spec ic n) as [L|L].
  - rewrite (HR L). cbn [bind]. rewrite P by (rewrite ?repeat_length; assumption). rewrite skipn_zeros. reflexivity.
  - rewrite <- app_assoc, <- repeat_app. do 3 f_equal. lia.
Qed.
Lemma block_len {T} pack (words : T -> list Z) n ic row : packs pack words -> length (block words n ic row) = (2 * length row)%nat.
Proof. intros [_ W]. unfold block. destruct (ic <? n)%nat; [apply flat_two; exact W|apply repeat_length]. Qed.
(** one block alone *)
Lemma pack_alone {T} pack (words : T -> list Z) n ic rows row : packs pack words -> (2 * length row <= 144)%nat -> ((ic < n)%nat -> rd rows ic = Ok row) ->
  pack_if pack 0 n ic rows mp7_zeros = Ok (padded 144 (block words n ic row)).
Proof.
  intros P HM HR. pose proof (pack_block pack words 0 n ic rows row [] 144 P eq_refl HM HR) as E. cbn [app] in E. unfold mp7_zeros. rewrite NCH_144. rewrite E. unfold padded. rewrite (block_len pack) by exact P. reflexivity.
Qed.
Lemma pack_four {A B C D} pa pb pc pd (wa : A -> list Z) (wb : B -> list Z) (wc : C -> list Z) (wd : D -> list Z) oa ob oc na nb nc nd ic ra rb rc rd' a b c d :
  packs pa wa -> packs pb wb -> packs pc wc -> packs pd wd -> (2 * (length a + length b + length c + length d) <= 144)%nat ->
  oa = (2 * length a)%nat -> ob = (2 * (length a + length b))%nat -> oc = (2 * (length a + length b + length c))%nat ->
  ((ic < na)%nat -> rd ra ic = Ok a) -> ((ic < nb)%nat -> rd rb ic = Ok b) -> ((ic < nc)%nat -> rd rc ic = Ok c) -> ((ic < nd)%nat -> rd rd' ic = Ok d) ->
  (do w <- pack_if pa 0 na ic ra mp7_zeros; do w <- pack_if pb oa nb ic rb w; do w <- pack_if pc ob nc ic rc w; pack_if pd oc nd ic rd' w) =
  Ok (padded 144 (block wa na ic a ++ block wb nb ic b ++ block wc nc ic c ++ block wd nd ic d)).
Proof.
  intros PA PB PC PD HM -> -> -> RA RB RC RD. pose proof (pack_block pa wa 0 na ic ra a [] 144 PA eq_refl ltac:(lia) RA) as E. cbn [app] in E. unfold mp7_zeros. rewrite NCH_144. rewrite E. cbn [bind].
  rewrite (pack_block pb wb _ nb ic rb b _ _ PB) by (auto; rewrite ?(block_len pa) by exact PA; lia). cbn [bind].
  rewrite (pack_block pc wc _ nc ic rc c _ _ PC) by (auto; rewrite ?app_length, ?(block_len pa), ?(block_len pb) by assumption; lia). cbn [bind].
  rewrite (pack_block pd wd _ nd ic rd' d _ _ PD) by (auto; rewrite ?app_length, ?(block_len pa), ?(block_len pb), ?(block_len pc) by assumption; lia).
  unfold padded. rewrite !app_length, (block_len pa), (block_len pb), (block_len pc), (block_len pd) by assumption. rewrite <- !app_assoc. do 6 f_equal. lia.
Qed.

(** ** The transposed rows *)
Lemma nth_column {T} (d : T) j rows i : (i < length rows)%nat -> nth i (column d j rows) d = nth j (nth i rows []) d.
Proof. intros H. unfold column. rewrite (nth_indep _ d (nth j [] d)) by (rewrite map_length; exact H). apply (map_nth (fun row => nth j row d)). Qed.
Lemma plain_row {T} (d : T) n m C src dst ic : dims2 n m src -> filled_cells d (fun _ io => io) (fun is _ => is) n m m C src dst (fun _ _ => True) -> C = n -> (ic < m)%nat ->
  rd dst ic = Ok (column d ic src).
Proof.
  intros S [D F] -> H. destruct (rd_nth m n dst ic D H) as [E L]. rewrite E. f_equal. destruct S as [SL _]. apply nth_ext with (d := d) (d' := d); [unfold column; rewrite map_length; lia|].
  intros i Hi. rewrite nth_column by lia. apply (F i ic); [lia|exact H|exact I].
Qed.
Lemma pair_rows {T} (d : T) j : forall rows l, length l = (2 * length rows)%nat -> (forall i, (i < length rows)%nat -> nth (2 * i) l d = nth (2 * j) (nth i rows []) d /\ nth (2 * i + 1) l d = nth (2 * j + 1) (nth i rows []) d) ->
  l = flat_map (fun row => [nth (2 * j) row d; nth (2 * j + 1) row d]) rows.
Proof.
  induction rows as [|row rows IH]; intros l L H; [destruct l; [reflexivity|discriminate L]|]. destruct l as [|x [|y l]]; cbn [length] in L; try lia. cbn [flat_map app].
  destruct (H 0%nat ltac:(cbn; lia)) as [H1 H2]. rewrite Nat.mul_0_r in *. cbn [nth Nat.add] in H1, H2. rewrite <- H1, <- H2. f_equal. f_equal. apply IH; [lia|]. intros i Hi. destruct (H (S i) ltac:(cbn; lia)) as [H3 H4].
  replace (2 * S i)%nat with (S (S (2 * i))) in * by lia. cbn [nth Nat.add] in H3, H4. auto.
Qed.
Lemma track_row (src dst : list (list Tk)) ic : dims2 12 20 src -> filled_cells tk0 (fun _ io => (io / 2)%nat) (fun is io => (2 * is + io mod 2)%nat) 12 20 10 24 src dst (fun _ _ => True) -> (ic < 10)%nat ->
  rd dst ic = Ok (flat_map (fun row => [nth (2 * ic) row tk0; nth (2 * ic + 1) row tk0]) src).
Proof.
  intros [SL _] [D F] H. destruct (rd_nth 10 24 dst ic D H) as [E L]. rewrite E. f_equal. apply pair_rows; [lia|]. rewrite SL. intros i Hi. split.
  - pose proof (F i (2 * ic)%nat Hi ltac:(lia) I) as G. unfold cell in G. replace (2 * ic / 2)%nat with ic in G by lia. replace (2 * i + (2 * ic) mod 2)%nat with (2 * i)%nat in G by lia. exact G.
  - pose proof (F i (2 * ic + 1)%nat Hi ltac:(lia) I) as G. unfold cell in G. replace ((2 * ic + 1) / 2)%nat with ic in G by lia. replace (2 * i + (2 * ic + 1) mod 2)%nat with (2 * i + 1)%nat in G by lia. exact G.
Qed.
Definition rows_ok (c : config) (t : rtest) (tr : rtrans) : Prop :=
  (forall ic, (ic < 15)%nat -> rd (tr_calo tr) ic = Ok (column had0 ic (ri_calo (rt_ins t)))) /\
  (forall ic, (ic < 12)%nat -> rd (tr_em tr) ic = Ok (column em0 ic (ri_em (rt_ins t)))) /\
  (forall ic, (ic < 10)%nat -> rd (tr_tk tr) ic = Ok (flat_map (fun row => [nth (2 * ic) row tk0; nth (2 * ic + 1) row tk0]) (ri_tk (rt_ins t)))) /\
  (forall ic, (ic < NMU c)%nat -> rd (tr_mu tr) ic = Ok (column mu0 ic (ri_mu (rt_ins t)))).
Lemma reg_transpose_ok c t old : test_sized c t -> trans_ok c old -> exists tr, reg_transpose c (rt_ins t) old = Ok tr /\ trans_ok c tr /\ rows_ok c t tr.
Proof.
  intros (S1 & S2 & S3 & _ & S4 & _) (O1 & O2 & O3 & O4). unfold reg_transpose. change N_IN_SECTORS with 12%nat. change NCALO_PER_SECTOR with 15%nat. change NEMCALO_PER_SECTOR with 12%nat. change NTRACK_PER_SECTOR with 20%nat. change N_MUON_SECTORS with 4%nat.
  destruct (transpose_ok had0 (fun _ io => io) (fun is _ => is) 12 15 15 12 (ri_calo (rt_ins t)) S1 ltac:(cbv beta; intros; lia) ltac:(cbv beta; intros; lia) (tr_calo old) O1) as (d1 & E1 & F1).
  destruct (transpose_ok em0 (fun _ io => io) (fun is _ => is) 12 12 12 12 (ri_em (rt_ins t)) S2 ltac:(cbv beta; intros; lia) ltac:(cbv beta; intros; lia) (tr_em old) O2) as (d2 & E2 & F2).
  destruct (transpose_ok tk0 (fun _ io => (io / 2)%nat) (fun is io => (2 * is + io mod 2)%nat) 12 20 10 24 (ri_tk (rt_ins t)) S3 ltac:(cbv beta; intros; lia) ltac:(cbv beta; intros; lia) (tr_tk old) O3) as (d3 & E3 & F3).
  destruct (transpose_ok mu0 (fun _ io => io) (fun is _ => is) 4 (NMU c) (NMU c) 4 (ri_mu (rt_ins t)) S4 ltac:(cbv beta; intros; lia) ltac:(cbv beta; intros; lia) (tr_mu old) O4) as (d4 & E4 & F4).
  rewrite E1. cbn [bind]. rewrite E2. cbn [bind]. rewrite E3. cbn [bind]. rewrite E4. cbn [bind]. exists (mkTrans d1 d2 d3 d4). split; [reflexivity|].
  unfold trans_ok, rows_ok. cbn [tr_calo tr_em tr_tk tr_mu]. split; [repeat (split; [apply F1 || apply F2 || apply F3|]); apply F4|].
  split; [intros ic H; eapply plain_row; [exact S1|exact F1|reflexivity|exact H]|]. split; [intros ic H; eapply plain_row; [exact S2|exact F2|reflexivity|exact H]|].
  split; [intros ic H; apply track_row; assumption|]. intros ic H. eapply plain_row; [exact S4|exact F4|reflexivity|exact H].
Qed.

(** ** The words of a test *)
Lemma len_column {T} (d : T) j rows : length (column d j rows) = length rows.
Proof. apply map_length. Qed.
Lemma len_pairs {T} (f g : list T -> T) rows : length (flat_map (fun row => [f row; g row]) rows) = (2 * length rows)%nat.
Proof. induction rows; cbn [flat_map app length]; lia. Qed.
Lemma in_words_ok c t tr ic : test_sized c t -> rows_ok c t tr -> in_words c tr ic = Ok (in_event c t ic).
Proof.
  intros (S1 & S2 & S3 & _ & S4 & _) (R1 & R2 & R3 & R4). destruct S1 as [S1 _], S2 as [S2 _], S3 as [S3 _], S4 as [S4 _].
  unfold in_words, in_event. change N_IN_SECTORS with 12%nat. change NCALO_PER_SECTOR with 15%nat. change NEMCALO_PER_SECTOR with 12%nat. change (NTRACK_PER_SECTOR / 2)%nat with 10%nat.
  pose proof (pack_four _ _ _ _ _ _ _ _ (2 * 12) (4 * 12) (8 * 12) 15 12 10 (NMU c) ic (tr_calo tr) (tr_em tr) (tr_tk tr) (tr_mu tr) (column had0 ic (ri_calo (rt_ins t))) (column em0 ic (ri_em (rt_ins t)))
    (flat_map (fun row => [nth (2 * ic) row tk0; nth (2 * ic + 1) row tk0]) (ri_tk (rt_ins t))) (column mu0 ic (ri_mu (rt_ins t))) packs_had packs_em packs_tk packs_mu) as E.
  rewrite !len_column, len_pairs, S1, S2, S3, S4 in E. specialize (E ltac:(lia) eq_refl eq_refl eq_refl (R1 ic) (R2 ic) (R3 ic) (R4 ic)).
  set (W := padded 144 (_ ++ _ ++ _ ++ _)) in E |- *. clearbody W.
  rewrite (pack_alone mp7_pack_had had_words 15 ic (tr_calo tr) (column had0 ic (ri_calo (rt_ins t))) packs_had) in E |- * by (rewrite ?len_column; first [lia|apply R1]). cbn [bind] in E |- *.
  destruct (pack_if mp7_pack_em (2 * 12) 12 ic (tr_em tr) _) as [w2|k2]; [|discriminate E]. cbn [bind] in E |- *.
  destruct (pack_if mp7_pack_tk (4 * 12) 10 ic (tr_tk tr) w2) as [w3|k3]; [|discriminate E]. cbn [bind] in E |- *. rewrite E. cbn [bind].
  rewrite (pack_alone mp7_pack_tk tk_words 10 ic (tr_tk tr) (flat_map (fun row => [nth (2 * ic) row tk0; nth (2 * ic + 1) row tk0]) (ri_tk (rt_ins t))) packs_tk ltac:(rewrite len_pairs; lia) (R3 ic)). cbn [bind].
  rewrite (pack_alone mp7_pack_mu mu_words (NMU c) ic (tr_mu tr) (column mu0 ic (ri_mu (rt_ins t))) packs_mu ltac:(rewrite len_column; lia) (R4 ic)). reflexivity.
Qed.
Lemma block_below {T} (words : T -> list Z) n ic row : (ic < n)%nat -> block words n ic row = flat_map words row.
Proof. intros H. unfold block. destruct (Nat.ltb_spec ic n); [reflexivity|lia]. Qed.
Lemma out_words_ok c t ic : test_sized c t -> out_fits c -> (ic < 18)%nat -> out_words c t ic = Ok (out_event t ic).
Proof.
  intros (_ & _ & _ & _ & _ & S1 & S2 & S3 & S4) HF H. unfold out_fits in HF. unfold out_words, out_event. change N_OUT_REGIONS with 18%nat.
  destruct (rd_nth _ _ _ ic S1 H) as [R1 L1]. destruct (rd_nth _ _ _ ic S2 H) as [R2 L2]. destruct (rd_nth _ _ _ ic S3 H) as [R3 L3]. destruct (rd_nth _ _ _ ic S4 H) as [R4 L4].
  pose proof (pack_four _ _ _ _ _ _ _ _ (2 * NCALO c) (2 * (NCALO c + NEMCALO c)) (2 * (NCALO c + NEMCALO c + NTRACK c)) 18 18 18 18 ic _ _ _ _ _ _ _ _ packs_had packs_em packs_tk packs_mu
    ltac:(rewrite L1, L2, L3, L4; lia) ltac:(lia) ltac:(lia) ltac:(lia) (fun _ => R1) (fun _ => R2) (fun _ => R3) (fun _ => R4)) as E. rewrite !block_below in E by exact H.
  set (W := padded 144 (_ ++ _ ++ _ ++ _)) in E |- *. clearbody W.
  rewrite (pack_alone mp7_pack_had had_words 18 ic (rt_calo t) (nth ic (rt_calo t) []) packs_had ltac:(rewrite L1; lia) (fun _ => R1)) in E |- *. cbn [bind] in E |- *.
  destruct (pack_if mp7_pack_em (2 * NCALO c) 18 ic (rt_em t) _) as [w2|k2]; [|discriminate E]. cbn [bind] in E |- *.
  destruct (pack_if mp7_pack_tk (2 * (NCALO c + NEMCALO c)) 18 ic (rt_tk t) w2) as [w3|k3]; [|discriminate E]. cbn [bind] in E |- *. rewrite E. cbn [bind].
  rewrite (pack_alone mp7_pack_tk tk_words 18 ic (rt_tk t) (nth ic (rt_tk t) []) packs_tk ltac:(rewrite L3; lia) (fun _ => R3)). cbn [bind].
  rewrite (pack_alone mp7_pack_mu mu_words 18 ic (rt_mu t) (nth ic (rt_mu t) []) packs_mu ltac:(rewrite L4; lia) (fun _ => R4)). rewrite !block_below by exact H. reflexivity.
Qed.

(** ** The words of all the tests *)
Lemma all_in_ok c tests old : Forall (test_sized c) tests -> trans_ok c old -> all_in_words c tests old = Ok (in_stream c tests).
Proof.
  intros H O. unfold all_in_words. change (N_CLOCKS / 2)%nat with 18%nat.
  assert (G : forall l0 old, trans_ok c old -> exists tr, foldM (fun '(l, tr) t => do tr <- reg_transpose c (rt_ins t) tr; do ws <- mapM (in_words c tr) (seq 0 18); Ok (l ++ ws, tr)) tests (l0, old) = Ok (l0 ++ in_stream c tests, tr)).
  { clear O old. induction H as [|t tests T H IH]; intros l0 old O; cbn [foldM in_stream flat_map]; [exists old; rewrite app_nil_r; reflexivity|].
    destruct (reg_transpose_ok c t old T O) as (tr & E & O' & R). rewrite E. cbn [bind].
    rewrite (mapM_Ok _ (in_event c t)) by (intros; apply in_words_ok; assumption). cbn [bind]. destruct (IH (l0 ++ map (in_event c t) (seq 0 18)) tr O') as (tr' & E'). exists tr'. rewrite E', <- app_assoc. reflexivity. }
  destruct (G [] old O) as (tr & E). rewrite E. reflexivity.
Qed.
Lemma all_out_ok c tests : Forall (test_sized c) tests -> out_fits c -> all_out_words c tests = Ok (out_stream tests).
Proof.
  intros H F. unfold all_out_words. change (N_CLOCKS / 2)%nat with 18%nat. rewrite (mapM_Ok _ (fun t => map (out_event t) (seq 0 18))).
  - cbn [bind]. unfold out_stream. rewrite flat_map_concat_map. reflexivity.
  - intros t Ht. apply mapM_Ok. intros ic Hic. apply in_seq in Hic. apply out_words_ok; [eapply Forall_forall; eassumption|exact F|lia].
Qed.

(** ** The files *)
Lemma had_words_32 o : Forall (inU 32) (had_words o).
Proof. unfold had_words. repeat constructor; unfold inU; try destruct (h_isem o); lia. Qed.
Lemma em_words_32 o : Forall (inU 32) (em_words o).
Proof. unfold em_words. repeat constructor; unfold inU; lia. Qed.
Lemma tk_words_32 o : Forall (inU 32) (tk_words o).
Proof. unfold tk_words. repeat constructor; unfold inU; try destruct (t_tight o); lia. Qed.
Lemma mu_words_32 o : Forall (inU 32) (mu_words o).
Proof. unfold mu_words. repeat constructor; unfold inU; lia. Qed.
Lemma block_32 {T} (words : T -> list Z) n ic row : (forall o, Forall (inU 32) (words o)) -> Forall (inU 32) (block words n ic row).
Proof. intros H. unfold block. destruct (ic <? n)%nat; [apply flat_32; exact H|]. apply Forall_forall. intros x Hx. apply repeat_spec in Hx. subst. unfold inU. lia. Qed.
Definition event4_ok (w : list Z * list Z * list Z * list Z) : Prop := event_ok (w_all w) /\ event_ok (w_calo w) /\ event_ok (w_tk w) /\ event_ok (w_mu w).
Lemma padded_ok l : (length l <= 144)%nat -> Forall (inU 32) l -> event_ok (padded 144 l).
Proof. intros H1 H2. split; [rewrite NCH_144; apply padded_len; exact H1|apply padded_32; exact H2]. Qed.
Lemma in_event_ok c t ic : test_sized c t -> event4_ok (in_event c t ic).
Proof.
  intros (S1 & S2 & S3 & _ & S4 & _). destruct S1 as [S1 _], S2 as [S2 _], S3 as [S3 _], S4 as [S4 _]. unfold in_event, event4_ok, w_all, w_calo, w_tk, w_mu. cbn [fst snd].
  split; [|split; [|split]]; apply padded_ok; try (rewrite ?app_length, ?(block_len _ _ _ _ _ packs_had), ?(block_len _ _ _ _ _ packs_em), ?(block_len _ _ _ _ _ packs_tk), ?(block_len _ _ _ _ _ packs_mu), ?len_column, ?len_pairs; lia);
    repeat (apply Forall_app; split); apply block_32; first [exact had_words_32|exact em_words_32|exact tk_words_32|exact mu_words_32].
Qed.
Lemma row_len {T} n m (x : list (list T)) i : dims2 n m x -> (i < n)%nat -> length (nth i x []) = m.
Proof. intros D H. apply (rd_nth n m x i D H). Qed.
Lemma out_event_ok c t ir : test_sized c t -> out_fits c -> (ir < 18)%nat -> event4_ok (out_event t ir).
Proof.
  intros (_ & _ & _ & _ & _ & S1 & S2 & S3 & S4) HF H. unfold out_fits in HF. unfold out_event, event4_ok, w_all, w_calo, w_tk, w_mu. cbn [fst snd].
  pose proof (flat_two had_words (nth ir (rt_calo t) []) (fun _ => eq_refl)) as F1. pose proof (flat_two em_words (nth ir (rt_em t) []) (fun _ => eq_refl)) as F2.
  pose proof (flat_two tk_words (nth ir (rt_tk t) []) (fun _ => eq_refl)) as F3. pose proof (flat_two mu_words (nth ir (rt_mu t) []) (fun _ => eq_refl)) as F4.
  rewrite (row_len _ _ _ _ S1 H) in F1. rewrite (row_len _ _ _ _ S2 H) in F2. rewrite (row_len _ _ _ _ S3 H) in F3. rewrite (row_len _ _ _ _ S4 H) in F4.
  split; [|split; [|split]]; apply padded_ok; try (rewrite ?app_length; lia); repeat (apply Forall_app; split); apply flat_32; first [exact had_words_32|exact em_words_32|exact tk_words_32|exact mu_words_32].
Qed.
Lemma mux_session words : Forall event_ok words -> Z.of_nat (length words) <= 20000 -> exists before, mp7_session true 2 1 0 words = Ok (before, mux_file words).
Proof.
  intros H L. destruct (session_frames 2 1 words ltac:(lia) eq_refl eq_refl H L) as (b & E). exists b. rewrite E. do 2 f_equal. unfold mux_file. apply map_ext_in. intros f Hf. apply in_seq in Hf.
  unfold frame. f_equal. unfold clock. change (MP7_NCHANN / 2)%nat with 72%nat. apply map_ext_in. intros l Hl. apply in_seq in Hl.
  unfold muxed. change (MP7_NCHANN / 2)%nat with 72%nat. replace (l / 72)%nat with 0%nat by lia. replace (l mod 72)%nat with l by lia. unfold pattern, npatterns. change (2 - 1 + 1)%nat with 2%nat.
  destruct (Nat.ltb_spec (f / 2 * 2 + 0) (length words * 2)); [|lia]. destruct (Nat.eqb_spec ((f / 2 * 2 + 0) mod 2) 0); [|lia]. replace ((f / 2 * 2 + 0) / 2)%nat with (f / 2)%nat by lia. rewrite (Nat.mul_comm l 2). reflexivity.
Qed.
Lemma nth_doubled {A} (l : list A) d : forall i, nth i (flat_map (fun x => [x; x]) l) d = nth (i / 2) l d.
Proof.
  induction l as [|x l IH]; intros i; [cbn [flat_map]; destruct i as [|i]; [reflexivity|]; destruct (S i / 2)%nat; reflexivity|]. cbn [flat_map app]. destruct i as [|[|i]]; [reflexivity|reflexivity|].
  cbn [nth]. rewrite IH. replace (S (S i) / 2)%nat with (S (i / 2)) by lia. reflexivity.
Qed.
Lemma len_doubled {A} (l : list A) : length (flat_map (fun x => [x; x]) l) = (2 * length l)%nat.
Proof. induction l; cbn [flat_map app length]; lia. Qed.
Lemma nomux_session words : Forall event_ok words -> Z.of_nat (length words) <= 10000 -> exists before, mp7_session true 1 0 0 (flat_map (fun w => [w; w]) words) = Ok (before, nomux_file words).
Proof.
  intros H L. assert (H2 : Forall event_ok (flat_map (fun w => [w; w]) words)) by (apply Forall_forall; intros x Hx; apply in_flat_map in Hx as (y & Hy & [->|[->|[]]]); eapply Forall_forall; eassumption).
  rewrite (c43_nomux 0 _ ltac:(apply Nat.leb_le; reflexivity) H2 ltac:(apply few_small; [rewrite len_doubled; lia|lia])). eexists. apply f_equal. apply f_equal2; [reflexivity|]. unfold nomux_file. rewrite len_doubled. apply map_ext_in. intros f Hf. apply in_seq in Hf. rewrite nth_doubled. f_equal.
  change (links 1 0) with MP7_NCHANN. apply firstn_all2. assert (E : event_ok (nth (f / 2) words [])) by (eapply Forall_forall; [exact H|apply nth_In; lia]). destruct E as [E _]. lia.
Qed.
Lemma in_stream_ok c tests : Forall (test_sized c) tests -> Forall event4_ok (in_stream c tests).
Proof. intros H. apply Forall_forall. intros w Hw. apply in_flat_map in Hw as (t & Ht & Hw). apply in_map_iff in Hw as (ic & <- & _). apply in_event_ok. eapply Forall_forall; eassumption. Qed.
Lemma out_stream_ok c tests : Forall (test_sized c) tests -> out_fits c -> Forall event4_ok (out_stream tests).
Proof. intros H F. apply Forall_forall. intros w Hw. apply in_flat_map in Hw as (t & Ht & Hw). apply in_map_iff in Hw as (ic & <- & Hic). apply in_seq in Hic. apply (out_event_ok c); [eapply Forall_forall; eassumption|exact F|lia]. Qed.
Lemma stream_len {A B} (f : A -> nat -> B) l : length (flat_map (fun t => map (f t) (seq 0 18)) l) = (18 * length l)%nat.
Proof. induction l; cbn [flat_map length]; [reflexivity|]. rewrite app_length, map_length, seq_length. lia. Qed.
Lemma mux_files_ok ws : Forall event4_ok ws -> Z.of_nat (length ws) <= 20000 -> reg_mux_files ws = Ok (mux_files ws).
Proof.
  intros H L. unfold reg_mux_files. cbn [mapM].
  assert (G : forall sel, (forall w, event4_ok w -> event_ok (sel w)) -> exists b, mp7_session true 2 1 0 (map sel ws) = Ok (b, mux_file (map sel ws))).
  { intros sel S. apply mux_session; [|rewrite map_length; exact L]. apply Forall_forall. intros x Hx. apply in_map_iff in Hx as (w & <- & Hw). apply S. eapply Forall_forall; eassumption. }
  destruct (G w_all) as (b1 & ->); [intros w (X & _); exact X|]. cbn [bind snd]. destruct (G w_calo) as (b2 & ->); [intros w (_ & X & _); exact X|]. cbn [bind snd].
  destruct (G w_tk) as (b3 & ->); [intros w (_ & _ & X & _); exact X|]. cbn [bind snd]. destruct (G w_mu) as (b4 & ->); [intros w (_ & _ & _ & X); exact X|]. reflexivity.
Qed.
Lemma doubled_map {A B} (sel : A -> B) l : flat_map (fun w => [sel w; sel w]) l = flat_map (fun x => [x; x]) (map sel l).
Proof. induction l; cbn [flat_map map]; [reflexivity|]. rewrite IHl. reflexivity. Qed.
Lemma nomux_files_ok ws : Forall event4_ok ws -> Z.of_nat (length ws) <= 10000 -> reg_nomux_files ws = Ok (nomux_files ws).
Proof.
  intros H L. unfold reg_nomux_files. cbn [mapM].
  assert (G : forall sel, (forall w, event4_ok w -> event_ok (sel w)) -> exists b, mp7_session true 1 0 0 (flat_map (fun w => [sel w; sel w]) ws) = Ok (b, nomux_file (map sel ws))).
  { intros sel S. rewrite doubled_map. apply nomux_session; [|rewrite map_length; exact L]. apply Forall_forall. intros x Hx. apply in_map_iff in Hx as (w & <- & Hw). apply S. eapply Forall_forall; eassumption. }
  destruct (G w_calo) as (b2 & ->); [intros w (_ & X & _); exact X|]. cbn [bind snd]. destruct (G w_tk) as (b3 & ->); [intros w (_ & _ & X & _); exact X|]. reflexivity.
Qed.
Lemma c60_files c tests old : Forall (test_sized c) tests -> (length tests <= 50)%nat -> trans_ok c old -> out_fits c ->
  reg_mp7_files c tests old = Ok (mux_files (in_stream c tests), mux_files (out_stream tests), nomux_files (out_stream tests)).
Proof.
  intros H L O F. unfold reg_mp7_files. rewrite (all_in_ok c tests old H O). cbn [bind]. rewrite (all_out_ok c tests H F). cbn [bind].
  assert (LI : length (in_stream c tests) = (18 * length tests)%nat) by apply stream_len. assert (LO : length (out_stream tests) = (18 * length tests)%nat) by apply stream_len.
  rewrite (mux_files_ok _ (in_stream_ok c tests H)) by lia. cbn [bind]. rewrite (mux_files_ok _ (out_stream_ok c tests H F)) by lia. cbn [bind]. rewrite (nomux_files_ok _ (out_stream_ok c tests H F)) by lia. reflexivity.
Qed.

(** ** The files determine the objects *)
Lemma nth_map_seq {A} (f : nat -> A) n k d : (k < n)%nat -> nth k (map f (seq 0 n)) d = f k.
Proof. intros H. rewrite (nth_indep _ d (f 0%nat)) by (rewrite map_length, seq_length; exact H). rewrite map_nth, seq_nth by exact H. reflexivity. Qed.
Lemma mux_file_inj ws ws' : Forall event_ok ws -> Forall event_ok ws' -> mux_file ws = mux_file ws' -> ws = ws'.
Proof.
  intros H H' E. assert (L : length ws = length ws') by (apply (f_equal (@length _)) in E; unfold mux_file in E; rewrite !map_length, !seq_length in E; lia).
  apply nth_ext with (d := []) (d' := []); [exact L|]. intros i Hi.
  assert (E1 : event_ok (nth i ws [])) by (eapply Forall_forall; [exact H|apply nth_In; lia]). assert (E2 : event_ok (nth i ws' [])) by (eapply Forall_forall; [exact H'|apply nth_In; lia]).
  destruct E1 as [L1 _], E2 as [L2 _]. rewrite NCH_144 in *. apply nth_ext with (d := 0) (d' := 0); [congruence|]. intros j Hj.
  assert (X : nth (2 * i + j mod 2) (mux_file ws) (0, []) = nth (2 * i + j mod 2) (mux_file ws') (0, [])) by (rewrite E; reflexivity).
  unfold mux_file in X. rewrite <- L in X. rewrite !nth_map_seq in X by lia. apply (f_equal (fun p => nth (j / 2) (snd p) 0)) in X. cbn [snd] in X. rewrite !nth_map_seq in X by lia.
  replace ((2 * i + j mod 2) / 2)%nat with i in X by lia. replace ((2 * i + j mod 2) mod 2)%nat with (j mod 2)%nat in X by lia. replace (2 * (j / 2) + j mod 2)%nat with j in X by lia. exact X.
Qed.

Lemma words_inj {T} (words : T -> list Z) (ok : T -> Prop) (ex : Z -> Z -> T) : (forall o, length (words o) = 2%nat) -> (forall o, ok o -> ex (nth 0 (words o) 0) (nth 1 (words o) 0) = o) ->
  forall l l', Forall ok l -> Forall ok l' -> length l = length l' -> flat_map words l = flat_map words l' -> l = l'.
Proof.
  intros W X. induction l as [|x l IH]; intros [|y l'] H H' L E; try discriminate; [reflexivity|]. inversion_clear H. inversion_clear H'. cbn [flat_map] in E. apply app_inj_len in E as [E1 E2]; [|rewrite !W; reflexivity].
  f_equal; [rewrite <- (X x), <- (X y), E1 by assumption; reflexivity|apply IH; auto].
Qed.
Lemma nth_rows_ok {T} (ok : T -> Prop) i (l : list (list T)) : Forall (Forall ok) l -> Forall ok (nth i l []).
Proof. intros H. destruct (Nat.lt_ge_cases i (length l)) as [L|L]; [apply (proj1 (Forall_forall _ _) H), nth_In; exact L|rewrite nth_overflow by exact L; constructor]. Qed.
Lemma out_event_inj c t t' : test_sized c t -> test_sized c t' -> test_ok t -> test_ok t' -> (forall i, (i < 18)%nat -> w_all (out_event t i) = w_all (out_event t' i)) -> region_objects t = region_objects t'.
Proof.
  intros (_ & _ & _ & _ & _ & D1 & D2 & D3 & D4) (_ & _ & _ & _ & _ & D1' & D2' & D3' & D4') (_ & _ & _ & _ & K1 & K2 & K3 & K4) (_ & _ & _ & _ & K1' & K2' & K3' & K4') H.
  assert (G : forall i, (i < 18)%nat -> nth i (rt_calo t) [] = nth i (rt_calo t') [] /\ nth i (rt_em t) [] = nth i (rt_em t') [] /\ nth i (rt_tk t) [] = nth i (rt_tk t') [] /\ nth i (rt_mu t) [] = nth i (rt_mu t') []).
  { intros i Hi. specialize (H i Hi). unfold w_all, out_event, padded in H. cbn [fst snd] in H.
    assert (L1 : length (nth i (rt_calo t) []) = length (nth i (rt_calo t') [])) by (rewrite (nth_len _ _ _ i D1 Hi), (nth_len _ _ _ i D1' Hi); reflexivity).
    assert (L2 : length (nth i (rt_em t) []) = length (nth i (rt_em t') [])) by (rewrite (nth_len _ _ _ i D2 Hi), (nth_len _ _ _ i D2' Hi); reflexivity).
    assert (L3 : length (nth i (rt_tk t) []) = length (nth i (rt_tk t') [])) by (rewrite (nth_len _ _ _ i D3 Hi), (nth_len _ _ _ i D3' Hi); reflexivity).
    assert (L4 : length (nth i (rt_mu t) []) = length (nth i (rt_mu t') [])) by (rewrite (nth_len _ _ _ i D4 Hi), (nth_len _ _ _ i D4' Hi); reflexivity).
    rewrite <- !app_assoc in H.
    apply app_inj_len in H as [H1 H]; [|rewrite !(flat_two had_words) by reflexivity; congruence].
    apply app_inj_len in H as [H2 H]; [|rewrite !(flat_two em_words) by reflexivity; congruence].
    apply app_inj_len in H as [H3 H]; [|rewrite !(flat_two tk_words) by reflexivity; congruence].
    apply app_inj_len in H as [H4 _]; [|rewrite !(flat_two mu_words) by reflexivity; congruence].
    split; [|split; [|split]].
    - apply (words_inj had_words had_ok ex_had (fun _ => eq_refl) ex_had_words); auto using nth_rows_ok.
    - apply (words_inj em_words em_ok ex_em (fun _ => eq_refl) ex_em_words); auto using nth_rows_ok.
    - apply (words_inj tk_words tk_ok ex_tk (fun _ => eq_refl) ex_tk_words); auto using nth_rows_ok.
    - apply (words_inj mu_words mu_ok ex_mu (fun _ => eq_refl) ex_mu_words); auto using nth_rows_ok. }
  unfold region_objects. f_equal; [f_equal; [f_equal|]|]; eapply rows_eq; try eassumption; intros i Hi; apply G; exact Hi.
Qed.

Lemma column_ok {T} (ok : T -> Prop) d j (rows : list (list T)) : ok d -> Forall (Forall ok) rows -> Forall ok (column d j rows).
Proof.
  intros D H. apply Forall_forall. intros x Hx. apply in_map_iff in Hx as (row & <- & Hr). destruct (nth_in_or_default j row d) as [I|E]; [|rewrite E; exact D].
  apply (proj1 (Forall_forall _ _) H) in Hr. apply (proj1 (Forall_forall _ _) Hr). exact I.
Qed.
Lemma pairs_ok {T} (ok : T -> Prop) d a b (rows : list (list T)) : ok d -> Forall (Forall ok) rows -> Forall ok (flat_map (fun row => [nth a row d; nth b row d]) rows).
Proof.
  intros D H. apply Forall_forall. intros x Hx. apply in_flat_map in Hx as (row & Hr & Hx). apply (proj1 (Forall_forall _ _) H) in Hr.
  assert (G : forall k, ok (nth k row d)) by (intros k; destruct (nth_in_or_default k row d) as [I|E]; [apply (proj1 (Forall_forall _ _) Hr); exact I|rewrite E; exact D]).
  destruct Hx as [<-|[<-|[]]]; apply G.
Qed.
Lemma columns_eq {T} (d : T) n m (x y : list (list T)) : dims2 n m x -> dims2 n m y -> (forall j, (j < m)%nat -> column d j x = column d j y) -> x = y.
Proof.
  intros D D' H. apply (rows_eq n m); [exact D|exact D'|]. intros i Hi. apply nth_ext with (d := d) (d' := d); [rewrite (nth_len _ _ _ _ D Hi), (nth_len _ _ _ _ D' Hi); reflexivity|].
  intros j Hj. rewrite (nth_len _ _ _ _ D Hi) in Hj. destruct D as [L _], D' as [L' _]. rewrite <- !nth_column by lia. rewrite (H j Hj). reflexivity.
Qed.
Lemma pairs_columns {T} (d : T) a b (x y : list (list T)) : length x = length y -> flat_map (fun row => [nth a row d; nth b row d]) x = flat_map (fun row => [nth a row d; nth b row d]) y -> column d a x = column d a y /\ column d b x = column d b y.
Proof.
  revert y. induction x as [|r x IH]; intros [|r' y] L E; try discriminate; [split; reflexivity|]. cbn [flat_map app] in E. injection E as E1 E2 E3. injection L as L. destruct (IH y L E3) as [G1 G2]. cbn [column map]. unfold column in *. split; congruence.
Qed.
Lemma in_event_inj c t t' : (NMU c <= 18)%nat -> test_sized c t -> test_sized c t' -> test_ok t -> test_ok t' -> (forall i, (i < 18)%nat -> w_all (in_event c t i) = w_all (in_event c t' i)) -> input_objects t = input_objects t'.
Proof.
  intros HN (D1 & D2 & D3 & _ & D4 & _) (D1' & D2' & D3' & _ & D4' & _) (K1 & K2 & K3 & K4 & _) (K1' & K2' & K3' & K4' & _) H.
  assert (Z1 : had_ok had0) by (unfold had_ok, had0, inS; cbn; lia). assert (Z2 : em_ok em0) by (unfold em_ok, em0, inS; cbn; lia). assert (Z3 : tk_ok tk0) by (unfold tk_ok, tk0, inS; cbn; lia). assert (Z4 : mu_ok mu0) by (unfold mu_ok, mu0, inS; cbn; lia).
  assert (G : forall i, (i < 18)%nat -> ((i < 15)%nat -> column had0 i (ri_calo (rt_ins t)) = column had0 i (ri_calo (rt_ins t'))) /\ ((i < 12)%nat -> column em0 i (ri_em (rt_ins t)) = column em0 i (ri_em (rt_ins t'))) /\
    ((i < 10)%nat -> column tk0 (2 * i) (ri_tk (rt_ins t)) = column tk0 (2 * i) (ri_tk (rt_ins t')) /\ column tk0 (2 * i + 1) (ri_tk (rt_ins t)) = column tk0 (2 * i + 1) (ri_tk (rt_ins t'))) /\
    ((i < NMU c)%nat -> column mu0 i (ri_mu (rt_ins t)) = column mu0 i (ri_mu (rt_ins t')))).
  { intros i Hi. specialize (H i Hi). unfold w_all, in_event, padded in H. cbn [fst snd] in H. rewrite <- !app_assoc in H.
    assert (L1 : length (ri_calo (rt_ins t)) = length (ri_calo (rt_ins t'))) by (destruct D1, D1'; congruence). assert (L2 : length (ri_em (rt_ins t)) = length (ri_em (rt_ins t'))) by (destruct D2, D2'; congruence).
    assert (L3 : length (ri_tk (rt_ins t)) = length (ri_tk (rt_ins t'))) by (destruct D3, D3'; congruence). assert (L4 : length (ri_mu (rt_ins t)) = length (ri_mu (rt_ins t'))) by (destruct D4, D4'; congruence).
    apply app_inj_len in H as [H1 H]; [|rewrite !(block_len _ _ _ _ _ packs_had), !len_column; congruence].
    apply app_inj_len in H as [H2 H]; [|rewrite !(block_len _ _ _ _ _ packs_em), !len_column; congruence].
    apply app_inj_len in H as [H3 H]; [|rewrite !(block_len _ _ _ _ _ packs_tk), !len_pairs; congruence].
    apply app_inj_len in H as [H4 _]; [|rewrite !(block_len _ _ _ _ _ packs_mu), !len_column; congruence].
    split; [|split; [|split]]; intros Hn.
    - rewrite !block_below in H1 by exact Hn. apply (words_inj had_words had_ok ex_had (fun _ => eq_refl) ex_had_words); auto using column_ok. rewrite !len_column. exact L1.
    - rewrite !block_below in H2 by exact Hn. apply (words_inj em_words em_ok ex_em (fun _ => eq_refl) ex_em_words); auto using column_ok. rewrite !len_column. exact L2.
    - rewrite !block_below in H3 by exact Hn. apply pairs_columns; [exact L3|]. apply (words_inj tk_words tk_ok ex_tk (fun _ => eq_refl) ex_tk_words); auto using pairs_ok. rewrite !len_pairs. congruence.
    - rewrite !block_below in H4 by exact Hn. apply (words_inj mu_words mu_ok ex_mu (fun _ => eq_refl) ex_mu_words); auto using column_ok. rewrite !len_column. exact L4. }
  unfold input_objects. assert (X1 : ri_calo (rt_ins t) = ri_calo (rt_ins t')) by (eapply columns_eq; [exact D1|exact D1'|]; intros j Hj; apply (G j); lia).
  assert (X2 : ri_em (rt_ins t) = ri_em (rt_ins t')) by (eapply columns_eq; [exact D2|exact D2'|]; intros j Hj; apply (G j); lia).
  assert (X3 : ri_tk (rt_ins t) = ri_tk (rt_ins t')).
  { eapply columns_eq; [exact D3|exact D3'|]. intros j Hj. destruct (G (j / 2)%nat ltac:(lia)) as (_ & _ & X & _). specialize (X ltac:(lia)) as [A B].
    destruct (Nat.eq_dec (j mod 2) 0) as [E|E]; [replace (2 * (j / 2))%nat with j in A by lia; exact A|replace (2 * (j / 2) + 1)%nat with j in B by lia; exact B]. }
  assert (X4 : ri_mu (rt_ins t) = ri_mu (rt_ins t')) by (eapply columns_eq; [exact D4|exact D4'|]; intros j Hj; apply (G j); lia).
  rewrite X1, X2, X3, X4. reflexivity.
Qed.
Lemma stream_inj {A B C} (sel : B -> C) (f : A -> nat -> B) : forall l l', map sel (flat_map (fun t => map (f t) (seq 0 18)) l) = map sel (flat_map (fun t => map (f t) (seq 0 18)) l') ->
  Forall2 (fun t t' => forall i, (i < 18)%nat -> sel (f t i) = sel (f t' i)) l l'.
Proof.
  induction l as [|t l IH]; intros [|t' l'] E; try discriminate; [constructor|]. cbn [flat_map] in E. rewrite !map_app in E. apply app_inj_len in E as [E1 E2]; [|rewrite !map_length; reflexivity].
  constructor; [|apply IH; exact E2]. intros i Hi. rewrite !map_map in E1. apply (f_equal (fun l => nth i l (sel (f t 0%nat)))) in E1. rewrite !nth_map_seq in E1 by exact Hi. exact E1.
Qed.
Lemma all_events ws : Forall event4_ok ws -> Forall event_ok (map w_all ws).
Proof. intros H. apply Forall_forall. intros x Hx. apply in_map_iff in Hx as (w & <- & Hw). apply (proj1 (Forall_forall _ _) H) in Hw. apply Hw. Qed.
Lemma c60_out_determines c tests tests' : out_fits c -> Forall (test_sized c) tests -> Forall (test_sized c) tests' -> Forall test_ok tests -> Forall test_ok tests' ->
  nth 0 (mux_files (out_stream tests)) [] = nth 0 (mux_files (out_stream tests')) [] -> map region_objects tests = map region_objects tests'.
Proof.
  intros F S S' K K' E. cbn [mux_files nth] in E. apply (mux_file_inj (map w_all _) (map w_all _)) in E; [|apply all_events, (out_stream_ok c); assumption..].
  apply (stream_inj w_all out_event) in E. clear -S S' K K' E. induction E; [reflexivity|]. inversion_clear S. inversion_clear S'. inversion_clear K. inversion_clear K'. cbn [map]. f_equal; [eapply out_event_inj; eassumption|auto].
Qed.
Lemma c60_in_determines c tests tests' : (NMU c <= 18)%nat -> Forall (test_sized c) tests -> Forall (test_sized c) tests' -> Forall test_ok tests -> Forall test_ok tests' ->
  nth 0 (mux_files (in_stream c tests)) [] = nth 0 (mux_files (in_stream c tests')) [] -> map input_objects tests = map input_objects tests'.
Proof.
  intros F S S' K K' E. cbn [mux_files nth] in E. apply (mux_file_inj (map w_all _) (map w_all _)) in E; [|apply all_events, (in_stream_ok c); assumption..].
  apply (stream_inj w_all (in_event c)) in E. clear -F S S' K K' E. induction E; [reflexivity|]. inversion_clear S. inversion_clear S'. inversion_clear K. inversion_clear K'. cbn [map]. f_equal; [eapply in_event_inj; eassumption|auto].
Qed.
