(** The files of the test program of the histogramming vertex finder. *)
From Coq Require Import Ascii String.
From Verif Require Import Base BaseFacts TabFacts MapiFacts Data PFHw Encoding SpecEnc EncFacts Serializer SpecSer SerProofs SerRecover SerFinal SerText SerTextFacts Printf SpecHR HRFacts HRProofs
  Discrete Convert DiscreteIO SpecIO Regionizer SpecRegion SpecTest PFFileProofs RegFiles SpecRegTest SpecRegFiles RegFilesProofs RegPackProofs RegTestRun RegTestOk Bhv SpecBhv BhvProofs BhvTest SpecBhvTest BhvTestProofs.
Local Open Scope string_scope.
Local Open Scope list_scope.
Local Open Scope Z_scope.

(** ** Sizes *)
Definition bt_sized (t : btest) : Prop :=
  dims2 24 18 (bt_tracks t) /\ Forall (Forall tk_ok) (bt_tracks t) /\ hist_ok (bt_hist0 t) /\
  (exists hs, bt_hists t = map pairs hs /\ Forall hist_ok hs /\ length hs = 24%nat) /\
  0 <= fst (fst (bt_hw t)) < 72 /\ 0 <= snd (fst (bt_hw t)) <= 32704.
Lemma rows_dims e : twelve e = true -> dims2 24 18 (track_rows e).
Proof.
  intros H. split; [pose proof (vertex_len e H) as L; unfold vertex_tracks in L; rewrite map_length in L; exact L|]. intros row Hr. apply in_flat_map in Hr as (r & _ & Hr). destruct Hr as [<-|[<-|[]]]; rewrite map_length, seq_length; reflexivity.
Qed.
Lemma btest_sized e t : twelve e = true -> btest_of e t -> bt_sized t.
Proof.
  intros H12 (ET & E0 & E1 & E2 & _). pose proof (any_rows _ (track_rows_ok e)) as A. pose proof (vertex_len e H12) as LS. unfold bt_sized. rewrite ET in *. set (sectors := vertex_tracks (track_rows e)) in *.
  split; [apply rows_dims; exact H12|]. split; [apply track_rows_ok|]. split.
  { destruct (hw_fill_any (nth 0 sectors [])) as (h & Eh & Hh); [apply (proj1 (Forall_forall _ _) A), nth_In; lia|]. rewrite E0 in Eh. injection Eh as <-. exact Hh. }
  destruct (hists_any sectors A) as (hs & _ & F & LH & _ & E3 & W). rewrite E1 in E3. injection E3 as E3. split; [exists hs; split; [exact E3|]; split; [exact F|lia]|].
  unfold hw_vertex in E2. rewrite E1 in E2. cbn [bind] in E2. rewrite E3 in *. destruct (c29 (Z.to_nat 36) (map pairs hs) ltac:(lia) ltac:(lia) ltac:(rewrite map_length; lia) W) as (b & s & EP & FM). change (Z.to_nat BHV_NHALFBINS) with (Z.to_nat 36) in E2. rewrite EP in E2. cbn [bind] in E2.
  injection E2 as <-. cbn [fst snd]. pose proof (fm_lt _ _ _ _ FM) as LB. change (2 * Z.to_nat 36)%nat with 72%nat in LB. split; [lia|]. rewrite <- (fm_val _ _ _ _ FM). split; [apply packed_nonneg, (words_ok_F (Z.to_nat 36)); exact W|].
  assert (PT : forall l, Forall hist_ok l -> packed_total (map pairs l) b <= 511 * Z.of_nat (length l)).
  { clear -LB. unfold packed_total. induction 1 as [|h l Hh _ IH]; [cbn; lia|]. cbn [map length]. unfold sumZ in *. cbn [fold_right]. rewrite pairs_half by assumption. destruct (hist_val h b Hh LB). lia. }
  specialize (PT hs F). lia.
Qed.

(** ** The text files *)
Lemma frame_head' fl w n s vs : small n -> ints s vs -> let l := chars "Frame " ++ conv fl w n ++ chars " :" ++ s in nonl l /\ read_frame l = Some (n, vs).
Proof.
  intros Hn (B & N & ws & I & R). cbv zeta. split.
  { apply nonl_app; [lit|]. apply nonl_app; [apply conv_nonl; exact Hn|]. apply nonl_app; [lit|exact N]. }
  unfold read_frame. change (chars "Frame " ++ conv fl w n ++ chars " :" ++ s) with (chars "Frame" ++ " "%char :: (conv fl w n ++ " "%char :: (":"%char :: s))).
  cbn [chars list_ascii_of_string app split_words Ascii.eqb Bool.eqb]. rewrite words_conv by exact Hn. cbn [split_words Ascii.eqb Bool.eqb app].
  assert (E : split_words [":"%char] s = [":"%char] :: ws).
  { specialize (R [] (or_introl eq_refl)). rewrite !app_nil_r in R. destruct B as [->|[r ->]]; cbn [split_words Ascii.eqb Bool.eqb] in *; congruence. }
  rewrite E. cbn [string_of_list_ascii String.eqb Ascii.eqb Bool.eqb andb]. destruct (word_integer fl w n Hn) as (W & _). rewrite W, I. reflexivity.
Qed.
Definition row_step (fmt : string) : Z * list ascii -> list Z -> Z * list ascii := fun '(frame, text) r => (wrapU 32 (frame + 1), text ++ printf_nl fmt (frame :: r)).
Definition good_row (fmt : string) (r : list Z) : Prop := forall n, small n -> nonl (printf fmt (n :: r)) /\ read_frame (printf fmt (n :: r)) = Some (n, r).
Lemma rows_read fmt rows : Forall (good_row fmt) rows -> Z.of_nat (length rows) < 2 ^ 31 -> exists text, fold_left (row_step fmt) rows (0, []) = (Z.of_nat (length rows), text) /\ reads_f text (numbered rows).
Proof.
  intros H. change (2 ^ 31) with 2147483648. induction rows as [|r rows IH] using rev_ind; intros L; [exists []; split; [reflexivity|intros rest; reflexivity]|].
  rewrite app_length in L. cbn [length] in L. apply Forall_app in H as [H1 H2]. inversion_clear H2 as [|? ? G _]. destruct (IH H1 ltac:(lia)) as (text & E & R). destruct (G (Z.of_nat (length rows)) ltac:(unfold small; lia)) as [N F].
  eexists. rewrite fold_left_app, E. cbn [fold_left row_step]. split.
  - f_equal. rewrite app_length. cbn [length]. rewrite wrapU_id by (unfold inU; lia). lia.
  - unfold numbered. rewrite mapi_snoc. apply reads_f_app; [exact R|]. unfold printf_nl. apply reads_f_line; assumption.
Qed.
Lemma bhv_file_read fmt rows (rs : btest -> list (list Z)) tests : (forall t, In t tests -> rows t = Ok (rs t)) -> (forall t, In t tests -> Forall (good_row fmt) (rs t)) -> Z.of_nat (length (flat_map rs tests)) < 2 ^ 31 ->
  exists text, bhv_file fmt rows tests = Ok text /\ read_frames text = numbered (flat_map rs tests).
Proof.
  intros H G L. assert (E : forall st, foldM (fun '(frame, text) t => do rs <- rows t; Ok (fold_left (row_step fmt) rs (frame, text))) tests st = Ok (fold_left (row_step fmt) (flat_map rs tests) st)).
  { clear G L. induction tests as [|t tests IH]; intros [f x]; cbn [foldM flat_map]; [reflexivity|]. rewrite H by (now left). cbn [bind]. rewrite IH by (intros; apply H; now right). rewrite fold_left_app. reflexivity. }
  unfold bhv_file. change (fun '(frame, text) r => (wrapU 32 (frame + 1), text ++ printf_nl fmt (frame :: r))) with (row_step fmt). rewrite E.
  assert (GG : Forall (good_row fmt) (flat_map rs tests)) by (apply Forall_forall; intros r Hr; apply in_flat_map in Hr as (t & Ht & Hr); apply (proj1 (Forall_forall _ _) (G t Ht)); exact Hr).
  destruct (rows_read fmt _ GG L) as (text & -> & R). cbn [bind]. exists text. split; [reflexivity|]. specialize (R []). rewrite !app_nil_r in R. exact R.
Qed.
Lemma slice_bin o : tk_ok o -> zb_bin (fetch_bin_ref (t_z0 o)) = slice o /\ zb_valid (fetch_bin_ref (t_z0 o)) = inside o /\ 0 <= slice o < 72.
Proof.
  intros (_ & _ & _ & _ & H). unfold inS in H. change (2 ^ (10 - 1)) with 512 in H. rewrite fetch_bin_spec by lia. unfold slice, inside. destruct ((-288 <=? t_z0 o) && (t_z0 o <=? 287)) eqn:E; cbn [zb_bin zb_valid]; [|lia]. split; [|split; [reflexivity|]]; lia.
Qed.
Lemma half_pt_range o : tk_ok o -> Z.shiftr (t_pt o) 1 = half_pt o /\ -16384 <= half_pt o <= 16383.
Proof. intros (H & _). unfold inS in H. change (2 ^ (16 - 1)) with 32768 in H. rewrite shiftr1. unfold half_pt. lia. Qed.
Lemma in_row_good x y z : small x -> small y -> small z -> good_row "Frame %4d : %1d  %3d  %6d" [x; y; z].
Proof.
  intros Hx Hy Hz n Hn. change (printf "Frame %4d : %1d  %3d  %6d" [n; x; y; z]) with (chars "Frame " ++ conv NoFlag 4 n ++ chars " :" ++ " "%char :: conv NoFlag 1 x ++ " "%char :: " "%char :: conv NoFlag 3 y ++ " "%char :: " "%char :: conv NoFlag 6 z ++ []).
  apply frame_head'; [exact Hn|]. rewrite app_nil_r. apply ints_conv; [exact Hx|]. apply ints_blank, ints_conv; [exact Hy|]. apply ints_blank, ints_conv_end. exact Hz.
Qed.
Lemma out_row_good x y z : small x -> small y -> small z -> good_row "Frame %4d : %3d   %6d   %6d" [x; y; z].
Proof.
  intros Hx Hy Hz n Hn. change (printf "Frame %4d : %3d   %6d   %6d" [n; x; y; z]) with (chars "Frame " ++ conv NoFlag 4 n ++ chars " :" ++ " "%char :: conv NoFlag 3 x ++ " "%char :: " "%char :: " "%char :: conv NoFlag 6 y ++ " "%char :: " "%char :: " "%char :: conv NoFlag 6 z ++ []).
  apply frame_head'; [exact Hn|]. rewrite app_nil_r. apply ints_conv; [exact Hx|]. apply ints_blank, ints_blank, ints_conv; [exact Hy|]. apply ints_blank, ints_blank, ints_conv_end. exact Hz.
Qed.
Definition in_rows (t : btest) : list (list Z) := flat_map (fun o => [[1; slice o; half_pt o]; [0; slice o; half_pt o]]) (nth 0 (bt_tracks t) []).
Definition out_rows (t : btest) : list (list Z) := map (fun k => [Z.of_nat (2 * k); nth (2 * k) (bt_hist0 t) 0; nth (2 * k + 1) (bt_hist0 t) 0]) (seq 0 36).
Lemma row_tk_ok t i : bt_sized t -> Forall tk_ok (nth i (bt_tracks t) []).
Proof. intros (_ & H & _). apply nth_rows_ok. exact H. Qed.
Lemma in_rows_ok t : bt_sized t -> bhv_in_rows t = Ok (in_rows t).
Proof.
  intros S. pose proof (row_tk_ok t 0 S) as K. destruct S as (D & _). destruct (rd_nth 24 18 (bt_tracks t) 0 D ltac:(lia)) as [E L]. unfold bhv_in_rows, in_rows. set (row := nth 0 (bt_tracks t) []) in *.
  rewrite (mapM_ext _ (fun it => do o <- rd row it; Ok [[1; zb_bin (fetch_bin_ref (t_z0 o)); Z.shiftr (t_pt o) 1]; [0; zb_bin (fetch_bin_ref (t_z0 o)); Z.shiftr (t_pt o) 1]])).
  - rewrite (mapM_row (fun o => [[1; zb_bin (fetch_bin_ref (t_z0 o)); Z.shiftr (t_pt o) 1]; [0; zb_bin (fetch_bin_ref (t_z0 o)); Z.shiftr (t_pt o) 1]]) row 18 L). cbn [bind]. rewrite <- flat_map_concat_map. f_equal.
    clear E L D. induction K as [|o l Ho _ IH]; [reflexivity|]. cbn [flat_map]. rewrite IH. destruct (slice_bin o Ho) as (-> & _). destruct (half_pt_range o Ho) as [-> _]. reflexivity.
  - intros it _. cbn [mapM]. rewrite E. cbn [bind]. destruct (rd row it); reflexivity.
Qed.
Lemma out_rows_ok t : bt_sized t -> bhv_out_rows t = Ok (out_rows t).
Proof.
  intros (_ & _ & H & _). unfold bhv_out_rows, out_rows. change (Z.to_nat BHV_NHALFBINS) with 36%nat. apply mapM_Ok. intros k Hk. apply in_seq in Hk. cbv zeta.
  destruct (hist_val (bt_hist0 t) (2 * k) H ltac:(lia)) as [-> _]. destruct (hist_val (bt_hist0 t) (2 * k + 1) H ltac:(lia)) as [-> _]. reflexivity.
Qed.
Lemma len36 {A B} (f : A -> list B) l : (forall x, In x l -> length (f x) = 36%nat) -> length (flat_map f l) = (36 * length l)%nat.
Proof. intros H. induction l as [|x l IH]; [reflexivity|]. cbn [flat_map length]. rewrite app_length, H, IH by (try (now left); intros; apply H; now right). lia. Qed.
Lemma in_rows_len t : bt_sized t -> length (in_rows t) = 36%nat.
Proof.
  intros (D & _). destruct (rd_nth 24 18 (bt_tracks t) 0 D ltac:(lia)) as [_ L]. unfold in_rows. transitivity (2 * length (nth 0 (bt_tracks t) []))%nat; [|lia]. generalize (nth 0 (bt_tracks t) []). clear. induction l; cbn [flat_map app length]; lia.
Qed.
Lemma c62_in_text tests : Forall bt_sized tests -> Z.of_nat (length tests) <= 1000 -> exists text, bhv_in_file tests = Ok text /\ read_frames text = bhv_in_table tests.
Proof.
  intros H L. rewrite Forall_forall in H. apply (bhv_file_read _ _ in_rows).
  - intros t Ht. apply in_rows_ok. auto.
  - intros t Ht. apply Forall_forall. intros r Hr. apply in_flat_map in Hr as (o & Ho & Hr). assert (K : tk_ok o) by (apply (proj1 (Forall_forall _ _) (row_tk_ok t 0 (H t Ht))); exact Ho).
    destruct (slice_bin o K) as (_ & _ & R1). destruct (half_pt_range o K) as [_ R2]. destruct Hr as [<-|[<-|[]]]; apply in_row_good; unfold small; lia.
  - rewrite len36 by (intros; apply in_rows_len; auto). lia.
Qed.
Lemma c62_out_text tests : Forall bt_sized tests -> Z.of_nat (length tests) <= 1000 -> exists text, bhv_out_file tests = Ok text /\ read_frames text = bhv_out_table tests.
Proof.
  intros H L. rewrite Forall_forall in H. apply (bhv_file_read _ _ out_rows).
  - intros t Ht. apply out_rows_ok. auto.
  - intros t Ht. apply Forall_forall. intros r Hr. apply in_map_iff in Hr as (k & <- & Hk). apply in_seq in Hk. destruct (H t Ht) as (_ & _ & K & _).
    destruct (hist_val (bt_hist0 t) (2 * k) K ltac:(lia)) as [_ R1]. destruct (hist_val (bt_hist0 t) (2 * k + 1) K ltac:(lia)) as [_ R2]. apply out_row_good; unfold small; lia.
  - rewrite len36 by (intros; unfold out_rows; rewrite map_length, seq_length; reflexivity). lia.
Qed.

(** ** The words of the pattern files *)
Lemma wr_at {A} (p : list A) x s v n : n = length p -> wr (p ++ x :: s) n v = Ok (p ++ v :: s).
Proof. intros ->. unfold wr. rewrite app_length. cbn [length]. destruct (Nat.ltb_spec (length p) (length p + S (length s))); [|lia]. f_equal. induction p as [|y p IH]; [reflexivity|]. cbn [app length upd]. f_equal. apply IH. lia. Qed.
Lemma skipn_skipn' {A} (l : list A) : forall x y, skipn x (skipn y l) = skipn (x + y) l.
Proof. induction l as [|a l IH]; intros x y; [destruct x, y; reflexivity|]. destruct y; [rewrite Nat.add_0_r; reflexivity|]. rewrite Nat.add_succ_r. cbn [skipn]. apply IH. Qed.
Definition two {A} (f g : nat -> A) (n : nat) : list A := flat_map (fun i => [f i; g i]) (seq 0 n).
Lemma two_len {A} (f g : nat -> A) n : length (two f g n) = (2 * n)%nat.
Proof. unfold two. induction n as [|n IH]; [reflexivity|]. rewrite seq_S, flat_map_app, app_length, IH. cbn [flat_map length app]. lia. Qed.
Lemma write_two (step : list Z -> nat -> res (list Z)) (f g : nat -> Z) a n : forall z, (2 * n <= length z)%nat ->
  (forall data i, (i < n)%nat -> step data i = (do data <- wr data (length a + 2 * i) (f i); wr data (length a + 2 * i + 1) (g i))) ->
  foldM step (seq 0 n) (a ++ z) = Ok (a ++ two f g n ++ skipn (2 * n) z).
Proof.
  induction n as [|n IH]; intros z L H; [reflexivity|]. rewrite seq_S, foldM_app, IH by (lia || (intros; apply H; lia)). cbn [bind foldM Nat.add]. rewrite H by lia.
  assert (exists u v s, skipn (2 * n) z = u :: v :: s) as (u & v & s & E). { pose proof (skipn_length (2 * n) z) as K. destruct (skipn (2 * n) z) as [|u [|v s]]; cbn [length] in K; try lia. eauto. }
  assert (ES : skipn (2 * S n) z = s). { replace (2 * S n)%nat with (2 + 2 * n)%nat by lia. rewrite <- skipn_skipn', E. reflexivity. }
  rewrite E, ES, app_assoc. rewrite (wr_at (a ++ two f g n)) by (rewrite app_length, two_len; lia). cbn [bind].
  change (f n :: v :: s) with ([f n] ++ v :: s). rewrite app_assoc. rewrite (wr_at ((a ++ two f g n) ++ [f n])) by (rewrite !app_length, two_len; cbn [length]; lia).
  f_equal. unfold two. rewrite seq_S, flat_map_app. cbn [flat_map app Nat.add]. rewrite <- !app_assoc. reflexivity.
Qed.
Lemma two_rows_map {A B} (d : A) (f g : A -> B) l : two (fun i => f (nth i l d)) (fun i => g (nth i l d)) (length l) = flat_map (fun x => [f x; g x]) l.
Proof.
  unfold two. induction l as [|x l IH] using rev_ind; [reflexivity|]. rewrite app_length. cbn [length]. rewrite Nat.add_1_r, seq_S, !flat_map_app. cbn [flat_map app Nat.add]. rewrite nth_middle. f_equal. rewrite <- IH, !flat_map_concat_map. f_equal. apply map_ext_in.
  intros i Hi. apply in_seq in Hi. rewrite app_nth1 by lia. reflexivity.
Qed.

Definition in_clock (t : btest) (ic : nat) : list Z := padded 144 (flat_map tk_words (column tk0 ic (bt_tracks t))).
Lemma in_words_ok' t old : bt_sized t -> dims2 18 24 old -> exists tr, bhv_in_words t old = Ok (map (in_clock t) (seq 0 18), tr) /\ dims2 18 24 tr.
Proof.
  intros (D & _) O. unfold bhv_in_words. change BHV_NSECTORS with 24%nat. change BHV_NTRACKS with 18%nat. change (N_CLOCKS / 2)%nat with 18%nat.
  destruct (transpose_ok tk0 (fun _ io => io) (fun is _ => is) 24 18 18 24 (bt_tracks t) D ltac:(cbv beta; intros; lia) ltac:(cbv beta; intros; lia) old O) as (tr & -> & F). cbn [bind]. exists tr. split; [|apply F].
  rewrite (mapM_Ok _ (in_clock t)); [reflexivity|]. intros ic Hic. apply in_seq in Hic. rewrite (pack_alone _ tk_words 18 ic tr (column tk0 ic (bt_tracks t))); [rewrite block_below by lia; reflexivity|apply packs_tk|rewrite len_column; destruct D; lia|].
  intros _. apply (plain_row tk0 24 18 24); [exact D|exact F|reflexivity|lia].
Qed.
Definition debug_clock (t : btest) (ic : nat) : list Z := padded 144 (flat_map debug_words (column tk0 (ic / 2) (bt_tracks t))).
Lemma zeros_144 : mp7_zeros = repeat 0 144. Proof. unfold mp7_zeros. rewrite NCH_144. reflexivity. Qed.
Lemma in_debug_ok t ic : bt_sized t -> (ic < 36)%nat -> bhv_in_debug t ic = Ok (debug_clock t ic).
Proof.
  intros S Hic. pose proof S as (D & K & _). unfold bhv_in_debug. change BHV_NSECTORS with 24%nat. set (col := column tk0 (ic / 2) (bt_tracks t)). assert (LC : length col = 24%nat) by (unfold col; rewrite len_column; apply D).
  rewrite zeros_144. change (repeat 0 144) with (@nil Z ++ repeat 0 144).
  rewrite (write_two _ (fun i => nth 0 (debug_words (nth i col tk0)) 0) (fun i => nth 1 (debug_words (nth i col tk0)) 0) [] 24 (repeat 0 144) ltac:(rewrite repeat_length; lia)).
  - f_equal. cbn [app]. unfold debug_clock, padded. fold col. rewrite skipn_zeros. rewrite <- LC at 1. rewrite (two_rows_map tk0 (fun o => nth 0 (debug_words o) 0) (fun o => nth 1 (debug_words o) 0) col). change (fun x => [nth 0 (debug_words x) 0; nth 1 (debug_words x) 0]) with debug_words.
    f_equal. f_equal. rewrite (flat_two debug_words col (fun _ => eq_refl)). lia.
  - intros data i Hi. destruct (rd_nth 24 18 (bt_tracks t) i D Hi) as [-> LR]. cbn [bind]. unfold rd. rewrite (nth_error_nth' _ tk0) by lia. cbn [bind]. unfold col. rewrite nth_column by (destruct D; lia). cbn [length Nat.add debug_words nth]. rewrite Nat.add_0_r.
    assert (KO : tk_ok (nth (ic / 2) (nth i (bt_tracks t) []) tk0)) by (apply (proj1 (Forall_forall _ _) (row_tk_ok t i S)), nth_In; lia). destruct (slice_bin _ KO) as (-> & -> & R). destruct (half_pt_range _ KO) as [-> _].
    rewrite (wrapU_id 32 (slice _ + _)) by (unfold inU; destruct (inside _); cbn [b2z]; lia). destruct (inside _); reflexivity.
Qed.
Definition out_clock (t : btest) (ic : nat) : list Z := if (ic =? 0)%nat then [1; snd (fst (bt_hw t)); fst (fst (bt_hw t))] else [0; 0; 0].
Lemma out_words_ok' t : bt_sized t -> bhv_out_words t = Ok (map (fun ic => padded 144 (out_clock t ic)) (seq 0 36)).
Proof.
  intros (_ & _ & _ & _ & R1 & R2). unfold bhv_out_words, out_clock. destruct (bt_hw t) as [[b s] z]. cbn [fst snd] in *. change N_CLOCKS with 36%nat.
  match goal with |- (do (_, _) <- foldM ?f _ _; _) = Ok (map ?w _) =>
    assert (G : forall n, (n <= 36)%nat -> exists data, foldM f (seq 0 n) ([], mp7_zeros) = Ok (map w (seq 0 n), data) /\ exists x y u, data = x :: y :: u :: repeat 0 141) end.
  { induction n as [|n IH]; intros Hn; [exists mp7_zeros; split; [reflexivity|]; rewrite zeros_144; exists 0, 0, 0; reflexivity|]. destruct IH as (data & E & x & y & u & ->); [lia|].
    rewrite seq_S, foldM_app, E. cbn [bind foldM Nat.add]. change (wr (x :: y :: u :: repeat 0 141) 0) with (wr ([] ++ x :: y :: u :: repeat 0 141) 0). rewrite wr_at by reflexivity. cbn [app bind].
    match goal with |- context [wr (?p :: y :: u :: repeat 0 141) 1] => change (wr (p :: y :: u :: repeat 0 141) 1) with (wr ([p] ++ y :: u :: repeat 0 141) 1) end. rewrite wr_at by reflexivity. cbn [app bind].
    match goal with |- context [wr (?p :: ?q :: u :: repeat 0 141) 2] => change (wr (p :: q :: u :: repeat 0 141) 2) with (wr ([p; q] ++ u :: repeat 0 141) 2) end. rewrite wr_at by reflexivity. cbn [app bind].
    eexists. split; [|do 3 eexists; reflexivity]. rewrite map_app. cbn [map]. do 4 f_equal. unfold padded. destruct (n =? 0)%nat; [|reflexivity]. rewrite !wrapU_id by (unfold inU; lia). reflexivity. }
  destruct (G 36%nat (le_n _)) as (data & -> & _). reflexivity.
Qed.
Definition out_debug_clock (k : nat) (t : btest) (ic : nat) : list Z := padded 144 ([0; 0; 0] ++
    flat_map (fun h => [(if (ic =? 0)%nat then 65536 else 0) + 2 * Z.of_nat ic + (if Nat.even k then 2 ^ 24 else 0);
                        65536 * half_of (2 * ic + 1) h + half_of (2 * ic) h]) (bt_hists t)).
Lemma parity k : Z.of_nat (S k) mod 2 = if Nat.even k then 1 else 0.
Proof. destruct (Nat.even k) eqn:E; [apply Nat.even_spec in E as [q ->]; lia|]. assert (O : Nat.odd k = true) by (unfold Nat.odd; rewrite E; reflexivity). apply Nat.odd_spec in O as [q ->]. lia. Qed.
Lemma out_debug_ok t k : bt_sized t -> bhv_out_debug (S k) t = Ok (map (out_debug_clock k t) (seq 0 36)).
Proof.
  intros (_ & _ & _ & (hs & EH & FH & LH) & _). unfold bhv_out_debug. change N_CLOCKS with 36%nat. change BHV_NSECTORS with 24%nat.
  match goal with |- (do (_, _) <- foldM ?f _ _; _) = Ok (map ?w _) =>
    assert (G : forall n, (n <= 36)%nat -> exists data, foldM f (seq 0 n) ([], mp7_zeros) = Ok (map w (seq 0 n), data) /\ exists z, length z = 48%nat /\ data = [0; 0; 0] ++ z ++ repeat 0 93) end.
  { induction n as [|n IH]; intros Hn; [exists mp7_zeros; split; [reflexivity|]; rewrite zeros_144; exists (repeat 0 48); split; reflexivity|]. destruct IH as (data & E & z & LZ & ->); [lia|].
    rewrite (seq_S n), foldM_app, E. cbn [bind foldM Nat.add].
    set (hd := (if (n =? 0)%nat then 65536 else 0) + 2 * Z.of_nat n + (if Nat.even k then 2 ^ 24 else 0)).
    rewrite (write_two _ (fun _ => hd) (fun i => 65536 * half_of (2 * n + 1) (nth i (bt_hists t) []) + half_of (2 * n) (nth i (bt_hists t) [])) [0; 0; 0] 24 (z ++ repeat 0 93) ltac:(rewrite app_length, repeat_length; lia)).
    - cbn [bind]. rewrite skipn_app, skipn_all2 by lia. rewrite LZ. change (2 * 24 - 48)%nat with 0%nat. cbn [skipn app].
      assert (LB : length (bt_hists t) = 24%nat) by (rewrite EH, map_length; exact LH).
      assert (EW : two (fun _ => hd) (fun i => 65536 * half_of (2 * n + 1) (nth i (bt_hists t) []) + half_of (2 * n) (nth i (bt_hists t) [])) 24 = flat_map (fun h => [hd; 65536 * half_of (2 * n + 1) h + half_of (2 * n) h]) (bt_hists t)).
      { rewrite <- LB at 1. apply (two_rows_map [] (fun _ => hd) (fun h => 65536 * half_of (2 * n + 1) h + half_of (2 * n) h)). }
      eexists. split; [|exists (two (fun _ => hd) (fun i => 65536 * half_of (2 * n + 1) (nth i (bt_hists t) []) + half_of (2 * n) (nth i (bt_hists t) [])) 24); split; [apply two_len|reflexivity]].
      rewrite map_app. cbn [map]. do 4 f_equal. rewrite EW. unfold out_debug_clock, padded. fold hd. cbn [app]. f_equal. f_equal. f_equal. f_equal. f_equal. cbn [length].
      rewrite (flat_two (fun h => [hd; 65536 * half_of (2 * n + 1) h + half_of (2 * n) h]) (bt_hists t) (fun _ => eq_refl)). lia.
    - intros data i Hi. cbv zeta. cbn [length]. rewrite parity. replace (S (S (S (2 * i + 0))))%nat with (3 + 2 * i)%nat by lia. change (S (S (S (2 * i + 1))))%nat with (3 + 2 * i + 1)%nat.
      assert (EB : wrapU 32 (65536 * b2z (n =? 0)%nat + Z.of_nat n * 2 + (if Nat.even k then 1 else 0) * 16777216) = hd).
      { unfold hd. rewrite wrapU_id by (unfold inU; destruct (n =? 0)%nat, (Nat.even k); cbn [b2z]; lia). change (2 ^ 24) with 16777216. destruct (n =? 0)%nat, (Nat.even k); cbn [b2z]; lia. }
      rewrite EB. destruct (wr data (3 + 2 * i) hd); [|reflexivity]. cbn [bind]. rewrite EH. unfold rd at 1. rewrite nth_error_map.
      assert (HI : (i < length hs)%nat) by lia. rewrite (nth_error_nth' hs []) by exact HI. cbn [option_map bind]. set (h := nth i hs []). assert (Hh : hist_ok h) by (apply (proj1 (Forall_forall _ _) FH), nth_In; exact HI).
      unfold pairs at 1. unfold rd. rewrite (nth_error_nth' _ 0) by (rewrite map_length, seq_length; lia). rewrite nth_map_seq by lia. cbn [bind].
      rewrite (nth_indep _ [] (pairs [])) by (rewrite map_length; exact HI). rewrite map_nth. fold h. rewrite !pairs_half by (exact Hh || lia).
      destruct (hist_val h (2 * n) Hh ltac:(lia)) as [_ Q1]. destruct (hist_val h (2 * n + 1) Hh ltac:(lia)) as [_ Q2]. f_equal. unfold lo9, hi9. rewrite Z.shiftl_mul_pow2 by lia.
      rewrite lor_add by (change (2 ^ 16) with 65536; lia). change (2 ^ 16) with 65536. rewrite wrapU_id by (unfold inU; lia). lia. }
  destruct (G 36%nat (le_n _)) as (data & -> & _). reflexivity.
Qed.

(** ** The files *)
Lemma plain_session words : Forall event_ok words -> Z.of_nat (length words) <= 20000 -> exists b, mp7_session true 1 0 0 words = Ok (b, plain_file words).
Proof.
  intros H L. rewrite (c43_nomux 0 words ltac:(apply Nat.leb_le; reflexivity) H ltac:(apply few_small; lia)). eexists. apply f_equal. apply f_equal2; [reflexivity|]. unfold plain_file. rewrite map_seq_mapi. apply mapi_ext_in. intros i x Hx.
  change (links 1 0) with MP7_NCHANN. rewrite (nth_error_nth _ _ _ Hx). rewrite firstn_all2; [reflexivity|]. assert (E : event_ok x) by (eapply Forall_forall; [exact H|eapply nth_error_In; exact Hx]). destruct E as [E _]. lia.
Qed.
Lemma plain_session3 words : Forall (fun w => length w = 3%nat /\ Forall (inU 32) w) words -> Z.of_nat (length words) <= 20000 -> exists b, mp7_session true 1 0 3 (map (padded 144) words) = Ok (b, plain_file words).
Proof.
  intros H L. assert (HE : Forall event_ok (map (padded 144) words)) by (apply Forall_map; eapply Forall_impl; [|exact H]; intros w [W1 W2]; apply padded_ok; [lia|exact W2]).
  rewrite (c43_nomux 3 _ ltac:(apply Nat.leb_le; reflexivity) HE ltac:(apply few_small; [rewrite map_length|]; lia)). eexists. apply f_equal. apply f_equal2; [reflexivity|]. unfold plain_file. rewrite map_length, map_seq_mapi. apply mapi_ext_in. intros i x Hx.
  change (links 1 3) with 3%nat. rewrite (nth_error_nth _ _ _ (map_nth_error (padded 144) _ _ Hx)). destruct (proj1 (Forall_forall _ _) H x (nth_error_In _ _ Hx)) as [W _]. unfold padded. rewrite firstn_app, W, firstn_all2 by lia. cbn [Nat.sub firstn]. rewrite app_nil_r. reflexivity.
Qed.
Lemma debug_words_32 o : tk_ok o -> Forall (inU 32) (debug_words o).
Proof. intros H. destruct (slice_bin o H) as (_ & _ & R). unfold debug_words. repeat constructor; unfold inU; try (destruct (inside o)); lia. Qed.
Lemma flat_32' {T} (words : T -> list Z) (P : T -> Prop) l : (forall o, P o -> Forall (inU 32) (words o)) -> Forall P l -> Forall (inU 32) (flat_map words l).
Proof. intros H F. induction F; cbn [flat_map]; [constructor|]. apply Forall_app. split; auto. Qed.
Lemma in_clock_ok t ic : bt_sized t -> event_ok (in_clock t ic).
Proof. intros (D & _). apply padded_ok; [rewrite (flat_two tk_words _ (fun _ => eq_refl)), len_column; destruct D; lia|apply flat_32; exact tk_words_32]. Qed.
Lemma debug_clock_ok t ic : bt_sized t -> event_ok (debug_clock t ic).
Proof.
  intros (D & K & _). assert (Z : tk_ok tk0) by (unfold tk_ok, tk0, inS; cbn; lia). apply padded_ok; [rewrite (flat_two debug_words _ (fun _ => eq_refl)), len_column; destruct D; lia|]. apply (flat_32' debug_words tk_ok); [exact debug_words_32|]. apply column_ok; assumption.
Qed.
Lemma out_clock_ok t ic : bt_sized t -> length (out_clock t ic) = 3%nat /\ Forall (inU 32) (out_clock t ic).
Proof. intros (_ & _ & _ & _ & R1 & R2). unfold out_clock. destruct (ic =? 0)%nat; split; try reflexivity; repeat constructor; unfold inU; lia. Qed.
Lemma out_debug_clock_ok k t ic : bt_sized t -> (ic < 36)%nat -> event_ok (out_debug_clock k t ic).
Proof.
  intros (_ & _ & _ & (hs & EH & FH & LH) & _) Hic. unfold out_debug_clock. rewrite EH. apply padded_ok.
  - rewrite app_length. match goal with |- context [flat_map ?f (map pairs hs)] => rewrite (flat_two f (map pairs hs) (fun _ => eq_refl)) end. rewrite map_length. cbn [length]. lia.
  - apply Forall_app. split; [repeat constructor; unfold inU; lia|]. apply (flat_32' _ (fun h => exists h', h = pairs h' /\ hist_ok h')).
    + intros h (h' & -> & Hh). destruct (hist_val h' (2 * ic) Hh ltac:(lia)) as [_ Q1]. destruct (hist_val h' (2 * ic + 1) Hh ltac:(lia)) as [_ Q2]. rewrite !pairs_half by (exact Hh || lia). repeat constructor; unfold inU; try (destruct (ic =? 0)%nat, (Nat.even k)); change (2 ^ 24) with 16777216; lia.
    + apply Forall_map. eapply Forall_impl; [|exact FH]. intros h Hh. exists h. auto.
Qed.
Lemma clocks_len {A B} (f : A -> nat -> B) n l : length (flat_map (fun t => map (f t) (seq 0 n)) l) = (n * length l)%nat.
Proof. induction l; cbn [flat_map length]; [lia|]. rewrite app_length, map_length, seq_length. lia. Qed.
Lemma mapi_clocks_len {A B} (f : nat -> A -> nat -> B) n l : length (List.concat (mapi (fun k t => map (f k t) (seq 0 n)) l)) = (n * length l)%nat.
Proof. induction l as [|x l IH] using rev_ind; [cbn; lia|]. rewrite mapi_snoc, concat_app, !app_length, IH. cbn [List.concat length]. rewrite app_nil_r, map_length, seq_length. lia. Qed.
Lemma in_stream_ok tests : Forall bt_sized tests -> Forall event_ok (bhv_in_stream tests).
Proof. intros H. rewrite Forall_forall in H. apply Forall_forall. intros w Hw. apply in_flat_map in Hw as (t & Ht & Hw). apply in_map_iff in Hw as (ic & <- & _). apply in_clock_ok. auto. Qed.
Lemma in_debug_stream_ok tests : Forall bt_sized tests -> Forall event_ok (bhv_in_debug_stream tests).
Proof. intros H. rewrite Forall_forall in H. apply Forall_forall. intros w Hw. apply in_flat_map in Hw as (t & Ht & Hw). apply in_map_iff in Hw as (ic & <- & _). apply debug_clock_ok. auto. Qed.
Lemma out_stream_ok3 tests : Forall bt_sized tests -> Forall (fun w => length w = 3%nat /\ Forall (inU 32) w) (bhv_out_stream tests).
Proof. intros H. rewrite Forall_forall in H. apply Forall_forall. intros w Hw. apply in_flat_map in Hw as (t & Ht & Hw). apply in_map_iff in Hw as (ic & <- & _). apply out_clock_ok. auto. Qed.
Lemma out_debug_stream_ok tests : Forall bt_sized tests -> Forall event_ok (bhv_out_debug_stream tests).
Proof.
  intros H. rewrite Forall_forall in H. apply Forall_forall. intros w Hw. apply in_concat in Hw as (l & Hl & Hw). apply in_mapi in Hl as (k & t & Hk & ->). apply in_map_iff in Hw as (ic & <- & Hic). apply in_seq in Hic. apply out_debug_clock_ok; [apply H; eapply nth_error_In; exact Hk|lia].
Qed.
Lemma in_stream_len tests : length (bhv_in_stream tests) = (18 * length tests)%nat.
Proof. unfold bhv_in_stream. apply (clocks_len in_clock). Qed.
Lemma in_debug_stream_len tests : length (bhv_in_debug_stream tests) = (36 * length tests)%nat.
Proof. unfold bhv_in_debug_stream. apply (clocks_len debug_clock). Qed.
Lemma out_stream_len tests : length (bhv_out_stream tests) = (36 * length tests)%nat.
Proof. unfold bhv_out_stream. apply (clocks_len out_clock). Qed.
Lemma out_debug_stream_len tests : length (bhv_out_debug_stream tests) = (36 * length tests)%nat.
Proof. unfold bhv_out_debug_stream. apply (mapi_clocks_len out_debug_clock). Qed.
Lemma c62_words tests old : Forall bt_sized tests -> dims2 18 24 old -> bhv_words tests old = Ok (bhv_in_stream tests, bhv_in_debug_stream tests, map (padded 144) (bhv_out_stream tests), bhv_out_debug_stream tests).
Proof.
  intros H O. unfold bhv_words.
  assert (E1 : exists tr, foldM (fun '(l, tr) t => do (ws, tr) <- bhv_in_words t tr; Ok (l ++ ws, tr)) tests ([], old) = Ok (bhv_in_stream tests, tr)).
  { assert (G : forall l0 old, dims2 18 24 old -> exists tr, foldM (fun '(l, tr) t => do (ws, tr) <- bhv_in_words t tr; Ok (l ++ ws, tr)) tests (l0, old) = Ok (l0 ++ bhv_in_stream tests, tr)).
    { clear O old. induction H as [|t tests T H IH]; intros l0 old O; cbn [foldM bhv_in_stream flat_map]; [exists old; rewrite app_nil_r; reflexivity|]. destruct (in_words_ok' t old T O) as (tr & -> & O'). cbn [bind]. destruct (IH (l0 ++ map (in_clock t) (seq 0 18)) tr O') as (tr2 & ->). exists tr2. rewrite <- app_assoc. reflexivity. }
    exact (G [] old O). }
  destruct E1 as (tr & ->). cbn [bind]. change N_CLOCKS with 36%nat. rewrite Forall_forall in H.
  rewrite (mapM_Ok _ (fun t => map (debug_clock t) (seq 0 36)) tests) by (intros t Ht; apply mapM_Ok; intros ic Hic; apply in_seq in Hic; apply in_debug_ok; [auto|lia]). cbn [bind].
  rewrite (mapM_Ok _ (fun t => map (fun ic => padded 144 (out_clock t ic)) (seq 0 36)) tests) by (intros t Ht; apply out_words_ok'; auto). cbn [bind].
  rewrite (mapM_Ok _ (fun p => map (out_debug_clock (fst p) (snd p)) (seq 0 36)) (indexed tests)) by (intros [k t] Ht; cbn [fst snd]; apply out_debug_ok; apply H; apply in_combine_r in Ht; exact Ht). cbn [bind].
  change (map (fun p => map (out_debug_clock (fst p) (snd p)) (seq 0 36)) (indexed tests)) with (mapi (fun k t => map (out_debug_clock k t) (seq 0 36)) tests). rewrite <- !flat_map_concat_map.
  assert (E3 : flat_map (fun t => map (fun ic => padded 144 (out_clock t ic)) (seq 0 36)) tests = map (padded 144) (bhv_out_stream tests)).
  { unfold bhv_out_stream. clear. induction tests as [|t l IH]; [reflexivity|]. cbn [flat_map]. rewrite IH, map_app, map_map. reflexivity. }
  rewrite E3. reflexivity.
Qed.
Lemma c62_files tests old : Forall bt_sized tests -> Z.of_nat (length tests) <= 500 -> dims2 18 24 old -> bhv_mp7_files tests old = Ok (bhv_files tests).
Proof.
  intros H L O. unfold bhv_mp7_files. rewrite (c62_words tests old H O). cbn [bind].
  destruct (mux_session (bhv_in_stream tests)) as (b1 & ->); [apply in_stream_ok; exact H|rewrite in_stream_len; lia|]. cbn [bind].
  destruct (plain_session (bhv_in_debug_stream tests)) as (b2 & ->); [apply in_debug_stream_ok; exact H|rewrite in_debug_stream_len; lia|]. cbn [bind].
  destruct (plain_session3 (bhv_out_stream tests)) as (b3 & ->); [apply out_stream_ok3; exact H|rewrite out_stream_len; lia|]. cbn [bind].
  destruct (plain_session (bhv_out_debug_stream tests)) as (b4 & ->); [apply out_debug_stream_ok; exact H|rewrite out_debug_stream_len; lia|]. reflexivity.
Qed.

(** ** From the dump to the files *)
Lemma c62_sized g arr tmp evs code nerr tests : dims2 24 18 arr -> length tmp = 36%nat -> Forall event_wf evs -> bhv_main (Ok true) g arr tmp (Some (dump evs)) = Ok (code, nerr, tests) ->
  Forall bt_sized tests /\ Z.of_nat (length tests) <= 250.
Proof.
  intros D L HE R. destruct (c61_run g arr tmp evs D L HE) as (tests' & E & F). rewrite R in E. injection E as _ _ ->. split.
  - assert (G : Forall (fun e => twelve e = true) (leading (firstn 250 evs))) by (clear; induction (firstn 250 evs) as [|e l IH]; cbn [leading]; [constructor|]; destruct (twelve e) eqn:E; constructor; assumption).
    clear -F G. induction F; [constructor|]. inversion_clear G. constructor; [eapply btest_sized; eassumption|auto].
  - assert (LL : length tests' = length (leading (firstn 250 evs))) by (clear -F; induction F; cbn [length]; congruence).
    assert (K : forall l, (length (leading l) <= length l)%nat) by (induction l as [|e l IH]; cbn [leading length]; [lia|]; destruct (twelve e); cbn [length]; lia).
    specialize (K (firstn 250 evs)). pose proof (firstn_le_length 250 evs). lia.
Qed.
Lemma c62_texts g arr tmp evs code nerr tests : dims2 24 18 arr -> length tmp = 36%nat -> Forall event_wf evs -> bhv_main (Ok true) g arr tmp (Some (dump evs)) = Ok (code, nerr, tests) ->
  (exists text, bhv_in_file tests = Ok text /\ read_frames text = bhv_in_table tests) /\ (exists text, bhv_out_file tests = Ok text /\ read_frames text = bhv_out_table tests).
Proof. intros D L HE R. destruct (c62_sized _ _ _ _ _ _ _ D L HE R) as [S N]. split; [apply c62_in_text|apply c62_out_text]; (exact S || lia). Qed.
Lemma c62_patterns g arr tmp old evs code nerr tests : dims2 24 18 arr -> length tmp = 36%nat -> dims2 18 24 old -> Forall event_wf evs -> bhv_main (Ok true) g arr tmp (Some (dump evs)) = Ok (code, nerr, tests) ->
  bhv_mp7_files tests old = Ok (bhv_files tests).
Proof. intros D L O HE R. destruct (c62_sized _ _ _ _ _ _ _ D L HE R) as [S N]. apply c62_files; (assumption || lia). Qed.
(** ** The input file determines the tracks *)
Lemma in_clock_inj t t' : bt_sized t -> bt_sized t' -> (forall i, (i < 18)%nat -> in_clock t i = in_clock t' i) -> bt_tracks t = bt_tracks t'.
Proof.
  intros (D & K & _) (D' & K' & _) H. assert (Z0 : tk_ok tk0) by (unfold tk_ok, tk0, inS; cbn; lia).
  assert (L : length (bt_tracks t) = length (bt_tracks t')) by (destruct D, D'; congruence).
  apply (columns_eq tk0 24 18); [exact D|exact D'|]. intros j Hj. specialize (H j Hj). unfold in_clock, padded in H. apply app_inj_len in H as [H _]; [|rewrite !(flat_two tk_words) by reflexivity; rewrite !len_column; congruence].
  apply (words_inj tk_words tk_ok ex_tk (fun _ => eq_refl) ex_tk_words); auto using column_ok. rewrite !len_column. exact L.
Qed.
Lemma c62_inj tests tests' : Forall bt_sized tests -> Forall bt_sized tests' -> mux_file (bhv_in_stream tests) = mux_file (bhv_in_stream tests') -> map bt_tracks tests = map bt_tracks tests'.
Proof.
  intros S S' E. assert (W : forall l, Forall bt_sized l -> Forall event_ok (bhv_in_stream l)).
  { intros l H. apply Forall_forall. intros w Hw. apply in_flat_map in Hw as (t & Ht & Hw). apply in_map_iff in Hw as (ic & <- & _). apply in_clock_ok. apply (proj1 (Forall_forall _ _) H t Ht). }
  apply mux_file_inj in E; [|apply W; assumption..]. assert (E' : map (fun x : list Z => x) (bhv_in_stream tests) = map (fun x : list Z => x) (bhv_in_stream tests')) by (rewrite !map_id; exact E).
  apply (stream_inj (fun x : list Z => x) in_clock) in E'. clear -S S' E'. induction E'; [reflexivity|]. inversion_clear S. inversion_clear S'. cbn [map]. f_equal; [apply in_clock_inj; assumption|auto].
Qed.
Lemma same_tracks_same_test e e' t t' : btest_of e t -> btest_of e' t' -> bt_tracks t = bt_tracks t' -> t = t'.
Proof. intros (_ & A1 & A2 & A3 & A4) (_ & B1 & B2 & B3 & B4) E. rewrite <- E in *. destruct t as [q1 q2 q3 q4 q5], t' as [r1 r2 r3 r4 r5]. cbn [bt_tracks bt_hist0 bt_hists bt_hw bt_ref] in *. congruence. Qed.
Lemma c62_two g g' arr arr' tmp tmp' old old' evs evs' code code' nerr nerr' tests tests' :
  dims2 24 18 arr -> length tmp = 36%nat -> dims2 18 24 old -> Forall event_wf evs -> bhv_main (Ok true) g arr tmp (Some (dump evs)) = Ok (code, nerr, tests) ->
  dims2 24 18 arr' -> length tmp' = 36%nat -> dims2 18 24 old' -> Forall event_wf evs' -> bhv_main (Ok true) g' arr' tmp' (Some (dump evs')) = Ok (code', nerr', tests') ->
  bhv_mp7_files tests old = bhv_mp7_files tests' old' -> tests = tests'.
Proof.
  intros D L O HE R D' L' O' HE' R' E. rewrite (c62_patterns _ _ _ _ _ _ _ _ D L O HE R), (c62_patterns _ _ _ _ _ _ _ _ D' L' O' HE' R') in E. unfold bhv_files in E. injection E as E _ _ _.
  apply c62_inj in E; [|apply (c62_sized _ _ _ _ _ _ _ D L HE R)|apply (c62_sized _ _ _ _ _ _ _ D' L' HE' R')]. destruct (c61_run g arr tmp evs D L HE) as (t & R1 & F). destruct (c61_run g' arr' tmp' evs' D' L' HE') as (t' & R1' & F'). rewrite R in R1. rewrite R' in R1'. injection R1 as _ _ ->. injection R1' as _ _ ->.
  clear -E F F'. revert t' E F'. generalize (leading (firstn 250 evs')). induction F as [|e x es xs B F IH]; intros es' t' E F'; destruct F' as [|e' x' es' xs' B' F']; try discriminate; [reflexivity|]. cbn [map] in E. injection E as E1 E2.
  f_equal; [eapply same_tracks_same_test; eassumption|eapply IH; eassumption].
Qed.
