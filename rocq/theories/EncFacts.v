(** Proofs about the MP7 encoding. *)
From Verif Require Import Base BaseFacts Data PFHw Encoding SpecEnc.

Lemma skipn_skipn' {A} n m (l : list A) : skipn n (skipn m l) = skipn (n + m) l.
Proof.
  revert l. induction m as [|m IH]; intros l; [rewrite Nat.add_0_r; reflexivity|].
  rewrite Nat.add_succ_r. destruct l as [|x l]; [rewrite !skipn_nil; reflexivity|]. apply IH.
Qed.

Section Pack.
  Context {T : Type} (body : nat -> list Z -> nat * T -> res (list Z)) (w0 w1 : T -> Z).
  Hypothesis Hb : forall offs data i o, (2*i+1+offs < length data)%nat ->
    body offs data (i, o) = Ok (upd (upd data (2*i+0+offs) (w0 o)) (2*i+1+offs) (w1 o)).

  Lemma pack_layout l a b : (2 * length l <= length b)%nat ->
    foldM (body (length a)) (indexed l) (a ++ b) = Ok (a ++ flat_map (fun o => [w0 o; w1 o]) l ++ skipn (2 * length l) b).
  Proof.
    induction l as [|x l IH] using rev_ind; intros L; [reflexivity|].
    rewrite app_length in L. cbn [length] in L.
    rewrite indexed_snoc, foldM_app, IH by lia. cbn [bind foldM].
    assert (FL : length (flat_map (fun o => [w0 o; w1 o]) l) = (2 * length l)%nat).
    { clear. induction l as [|y l IH]; [reflexivity|]. cbn [flat_map app length]. lia. }
    rewrite Hb by (rewrite !app_length, skipn_length, FL; lia). cbn [bind]. f_equal.
    rewrite flat_map_app. cbn [flat_map app].
    destruct (skipn (2 * length l) b) as [|y0 [|y1 c]] eqn:E.
    - apply (f_equal (@length Z)) in E. rewrite skipn_length in E. cbn [length] in E. lia.
    - apply (f_equal (@length Z)) in E. rewrite skipn_length in E. cbn [length] in E. lia.
    - assert (E2 : skipn (2 * length (l ++ [x])) b = c).
      { replace (2 * length (l ++ [x]))%nat with (2 + 2 * length l)%nat by (rewrite app_length; cbn [length]; lia).
        rewrite <- skipn_skipn', E. reflexivity. }
      rewrite E2.
      replace (2 * length l + 0 + length a)%nat with (length a + (length (flat_map (fun o => [w0 o; w1 o]) l) + 0))%nat by lia.
      rewrite upd_app_r, upd_app_r.
      replace (2 * length l + 1 + length a)%nat with (length a + (length (flat_map (fun o => [w0 o; w1 o]) l) + 1))%nat by lia.
      rewrite upd_app_r, upd_app_r. cbn [upd]. rewrite <- app_assoc. reflexivity.
  Qed.
End Pack.

Lemma flat_map_pair_length {T} (w0 w1 : T -> Z) l : length (flat_map (fun o => [w0 o; w1 o]) l) = (2 * length l)%nat.
Proof. induction l as [|y l IH]; [reflexivity|]. cbn [flat_map app length]. lia. Qed.

Lemma flat_map_pair_nth {T} (w0 w1 : T -> Z) l i o : nth_error l i = Some o ->
  nth_error (flat_map (fun o => [w0 o; w1 o]) l) (2*i+0) = Some (w0 o) /\
  nth_error (flat_map (fun o => [w0 o; w1 o]) l) (2*i+1) = Some (w1 o).
Proof.
  revert i. induction l as [|y l IH]; intros [|i] H; try discriminate.
  - injection H as ->. split; reflexivity.
  - cbn [flat_map app]. replace (2 * S i + 0)%nat with (S (S (2 * i + 0))) by lia.
    replace (2 * S i + 1)%nat with (S (S (2 * i + 1))) by lia. apply IH. exact H.
Qed.

Lemma rd_layout {T} (w0 w1 : T -> Z) a l c i o : nth_error l i = Some o ->
  rd (a ++ flat_map (fun o => [w0 o; w1 o]) l ++ c) (2*i+0+length a) = Ok (w0 o) /\
  rd (a ++ flat_map (fun o => [w0 o; w1 o]) l ++ c) (2*i+1+length a) = Ok (w1 o).
Proof.
  intros H. pose proof (flat_map_pair_nth w0 w1 l i o H) as [H0 H1].
  assert (Li : (i < length l)%nat) by (apply nth_error_Some; congruence).
  unfold rd. split.
  - rewrite nth_error_app2 by lia. rewrite nth_error_app1 by (rewrite flat_map_pair_length; lia).
    replace (2 * i + 0 + length a - length a)%nat with (2*i+0)%nat by lia. rewrite H0. reflexivity.
  - rewrite nth_error_app2 by lia. rewrite nth_error_app1 by (rewrite flat_map_pair_length; lia).
    replace (2 * i + 1 + length a - length a)%nat with (2*i+1)%nat by lia. rewrite H1. reflexivity.
Qed.

Lemma mapM_nth {A B} (f : A -> res B) l r : length l = length r ->
  (forall i x y, nth_error l i = Some x -> nth_error r i = Some y -> f x = Ok y) -> mapM f l = Ok r.
Proof.
  revert r. induction l as [|x l IH]; intros [|y r] L H; try discriminate; [reflexivity|].
  cbn [mapM]. rewrite (H 0%nat x y) by reflexivity. cbn [bind]. rewrite (IH r); [reflexivity|injection L; auto|].
  intros i. apply (H (S i)).
Qed.

Lemma unpack_layout {T U} (w0 w1 : T -> Z) (f : Z -> Z -> U) (g : T -> U) a l c :
  (forall o, In o l -> f (w0 o) (w1 o) = g o) ->
  mapM (fun i => do x <- rd (a ++ flat_map (fun o => [w0 o; w1 o]) l ++ c) (2*i+0+length a);
                 do y <- rd (a ++ flat_map (fun o => [w0 o; w1 o]) l ++ c) (2*i+1+length a); Ok (f x y)) (seq 0 (length l))
  = Ok (map g l).
Proof.
  intros H. apply mapM_nth; [rewrite seq_length, map_length; reflexivity|].
  intros i x y Hx Hy. rewrite nth_error_seq in Hx. destruct (Nat.ltb_spec i (length l)) as [Hi|]; [|discriminate].
  injection Hx as <-. cbn [Nat.add]. destruct (nth_error_lt l i Hi) as [o Ho].
  destruct (rd_layout w0 w1 a l c i o Ho) as [R0 R1]. rewrite R0. cbn [bind]. rewrite R1. cbn [bind].
  rewrite nth_error_map, Ho in Hy. injection Hy as <-. f_equal. apply H. eapply nth_error_In; eassumption.
Qed.

(** ** Bit arithmetic *)
Ltac pows := change (2 ^ 0) with 1 in *; change (2 ^ 3) with 8 in *; change (2 ^ 10) with 1024 in *; change (2 ^ 9) with 512 in *;
  change (2 ^ 15) with 32768 in *; change (2 ^ 16) with 65536 in *; change (2 ^ 20) with 1048576 in *; change (2 ^ 30) with 1073741824 in *;
  change (2 ^ 32) with 4294967296 in *.

Lemma word_16_16 a b : word (concat 16 (bits 16 a) b) = b mod 65536 + 65536 * (a mod 65536).
Proof. unfold word, concat, bits, wrapU. pows. lia. Qed.
Lemma word_10_10 a b : word (concat 10 (bits 10 a) b) = b mod 1024 + 1024 * (a mod 1024).
Proof. unfold word, concat, bits, wrapU. pows. lia. Qed.
Lemma word_1_10_10 z a b : word (concat 10 (concat 10 (b2z z) a) b) = b mod 1024 + 1024 * (a mod 1024) + 1048576 * (if z then 1 else 0).
Proof. unfold word, concat, bits, wrapU, b2z. pows. destruct z; lia. Qed.
Lemma word_10_10_10 z a b : word (concat 10 (concat 10 (bits 10 z) a) b) = b mod 1024 + 1024 * (a mod 1024) + 1048576 * (z mod 1024).
Proof. unfold word, concat, bits, wrapU. pows. lia. Qed.
Lemma word_3_16 a b : word (concat 16 (bits 3 a) b) = b mod 65536 + 65536 * (a mod 8).
Proof. unfold word, concat, bits, wrapU. pows. lia. Qed.
Lemma setbit_30 w b : 0 <= w < 1073741824 -> setbit w 30 b = w + 1073741824 * (if b then 1 else 0).
Proof.
  intros H. unfold setbit, getbit. pows. rewrite (Z.div_small w) by lia. cbn [Z.odd b2z]. destruct b; cbn [b2z]; lia.
Qed.

Lemma slice_lo16 a b : pt_t (slice (b mod 65536 + 65536 * a) 15 0) = pt_t b.
Proof.
  unfold slice. change (15 - 0 + 1) with 16. pows. rewrite Z.div_1_r.
  replace ((b mod 65536 + 65536 * a) mod 65536) with (b mod 65536) by lia.
  unfold pt_t, wrapS. change (16 - 1) with 15. pows. lia.
Qed.
Lemma slice_hi16 a b : pt_t (slice (b mod 65536 + 65536 * (a mod 65536)) 31 16) = pt_t a.
Proof.
  unfold slice. change (31 - 16 + 1) with 16. pows.
  replace ((b mod 65536 + 65536 * (a mod 65536)) / 65536 mod 65536) with (a mod 65536) by lia.
  unfold pt_t, wrapS. change (16 - 1) with 15. pows. lia.
Qed.
Lemma slice_id a b : wrapU 3 (slice (b mod 65536 + 65536 * (a mod 8)) 18 16) = wrapU 3 a.
Proof. unfold slice, wrapU. change (18 - 16 + 1) with 3. pows. lia. Qed.
Lemma slice_eta a b : wrapS 10 (slice (b mod 1024 + 1024 * a) 9 0) = wrapS 10 b.
Proof.
  unfold slice. change (9 - 0 + 1) with 10. pows. rewrite Z.div_1_r.
  replace ((b mod 1024 + 1024 * a) mod 1024) with (b mod 1024) by lia.
  unfold wrapS. change (10 - 1) with 9. pows. lia.
Qed.
Lemma slice_phi z a b : wrapS 10 (slice (b mod 1024 + 1024 * (a mod 1024) + 1048576 * z) 19 10) = wrapS 10 a.
Proof.
  unfold slice. change (19 - 10 + 1) with 10. pows.
  replace ((b mod 1024 + 1024 * (a mod 1024) + 1048576 * z) / 1024 mod 1024) with (a mod 1024) by lia.
  unfold wrapS. change (10 - 1) with 9. pows. lia.
Qed.
Lemma slice_z0 y z a b : wrapS 10 (slice (b mod 1024 + 1024 * (a mod 1024) + 1048576 * (z mod 1024) + 1073741824 * y) 29 20) = wrapS 10 z.
Proof.
  unfold slice. change (29 - 20 + 1) with 10. pows.
  replace ((b mod 1024 + 1024 * (a mod 1024) + 1048576 * (z mod 1024) + 1073741824 * y) / 1048576 mod 1024) with (z mod 1024) by lia.
  unfold wrapS. change (10 - 1) with 9. pows. lia.
Qed.
Lemma getbit_20 (z : bool) a b : getbit (b mod 1024 + 1024 * (a mod 1024) + 1048576 * (if z then 1 else 0)) 20 = z.
Proof.
  unfold getbit. pows. replace ((b mod 1024 + 1024 * (a mod 1024) + 1048576 * (if z then 1 else 0)) / 1048576) with (if z then 1 else 0) by (destruct z; lia).
  destruct z; reflexivity.
Qed.
Lemma getbit_30 (y : bool) z a b : getbit (b mod 1024 + 1024 * (a mod 1024) + 1048576 * (z mod 1024) + 1073741824 * (if y then 1 else 0)) 30 = y.
Proof.
  unfold getbit. pows.
  replace ((b mod 1024 + 1024 * (a mod 1024) + 1048576 * (z mod 1024) + 1073741824 * (if y then 1 else 0)) / 1073741824) with (if y then 1 else 0) by (destruct y; lia).
  destruct y; reflexivity.
Qed.

(** ** The bodies *)
Lemma wr2 (data : list Z) i j v w : (i < length data)%nat -> (j < length data)%nat ->
  (do d <- wr data i v; wr d j w) = Ok (upd (upd data i v) j w).
Proof. intros Hi Hj. rewrite wr_Ok by exact Hi. cbn [bind]. apply wr_Ok. rewrite length_upd. exact Hj. Qed.

Notation hd0 f := (fun o => nth 0 (f o) 0).
Notation hd1 f := (fun o => nth 1 (f o) 0).

Lemma em_body offs data i o : (2*i+1+offs < length data)%nat ->
  pack_em_body offs data (i, o) = Ok (upd (upd data (2*i+0+offs) (nth 0 (em_words o) 0)) (2*i+1+offs) (nth 1 (em_words o) 0)).
Proof. intros H. unfold pack_em_body. rewrite word_16_16, word_10_10. rewrite wr2 by lia. reflexivity. Qed.
Lemma mu_body offs data i o : (2*i+1+offs < length data)%nat ->
  pack_mu_body offs data (i, o) = Ok (upd (upd data (2*i+0+offs) (nth 0 (mu_words o) 0)) (2*i+1+offs) (nth 1 (mu_words o) 0)).
Proof. intros H. unfold pack_mu_body. rewrite word_16_16, word_10_10. rewrite wr2 by lia. reflexivity. Qed.
Lemma had_body offs data i o : (2*i+1+offs < length data)%nat ->
  pack_had_body offs data (i, o) = Ok (upd (upd data (2*i+0+offs) (nth 0 (had_words o) 0)) (2*i+1+offs) (nth 1 (had_words o) 0)).
Proof. intros H. unfold pack_had_body. rewrite word_16_16, word_1_10_10. rewrite wr2 by lia. reflexivity. Qed.
Lemma ch_body offs data i o : (2*i+1+offs < length data)%nat ->
  pack_ch_body offs data (i, o) = Ok (upd (upd data (2*i+0+offs) (nth 0 (ch_words o) 0)) (2*i+1+offs) (nth 1 (ch_words o) 0)).
Proof. intros H. unfold pack_ch_body. rewrite word_3_16, word_10_10_10. rewrite wr2 by lia. reflexivity. Qed.
Lemma ne_body offs data i o : (2*i+1+offs < length data)%nat ->
  pack_ne_body offs data (i, o) = Ok (upd (upd data (2*i+0+offs) (nth 0 (ne_words o) 0)) (2*i+1+offs) (nth 1 (ne_words o) 0)).
Proof. intros H. unfold pack_ne_body. rewrite word_3_16, word_10_10. rewrite wr2 by lia. reflexivity. Qed.
Lemma upd_upd {A} (l : list A) i v w : upd (upd l i v) i w = upd l i w.
Proof. revert i. induction l as [|x l IH]; intros [|i]; cbn [upd]; congruence. Qed.
Lemma tk_body offs data i o : (2*i+1+offs < length data)%nat ->
  pack_tk_body offs data (i, o) = Ok (upd (upd data (2*i+0+offs) (nth 0 (tk_words o) 0)) (2*i+1+offs) (nth 1 (tk_words o) 0)).
Proof.
  intros H. unfold pack_tk_body. rewrite word_16_16, word_10_10_10.
  rewrite wr_Ok by lia. cbn [bind]. rewrite wr_Ok by (rewrite length_upd; lia). cbn [bind].
  rewrite (rd_Ok _ _ 0) by (rewrite !length_upd; lia). cbn [bind]. rewrite nth_upd_eq by (rewrite length_upd; lia).
  rewrite wr_Ok by (rewrite !length_upd; lia). rewrite upd_upd, setbit_30 by lia. reflexivity.
Qed.

Lemma words_flat {T} (f : T -> list Z) l : (forall o, exists x y, f o = [x; y]) ->
  flat_map (fun o => [nth 0 (f o) 0; nth 1 (f o) 0]) l = flat_map f l.
Proof.
  intros H. induction l as [|o l IH]; [reflexivity|]. cbn [flat_map]. rewrite IH. destruct (H o) as (x & y & E). rewrite E. reflexivity.
Qed.

Lemma assert_Ok nch a b c d : (2 * (a + b + c + d) <= nch)%nat -> assert_fits nch a b c d = Ok tt.
Proof. intros H. unfold assert_fits. destruct (Nat.leb_spec (2*a+2*b+2*c+2*d) nch); [reflexivity|lia]. Qed.

Lemma two_words (a b : Z) : exists x y, [a; b] = [x; y].
Proof. eauto. Qed.

Ltac packstep H := first [rewrite (pack_layout _ _ _ H) by (rewrite ?app_length, ?skipn_length; lia)].

Lemma flat_len {T} (f : T -> list Z) l : (forall o, length (f o) = 2%nat) -> length (flat_map f l) = (2 * length l)%nat.
Proof. intros H. induction l as [|o l IH]; [reflexivity|]. cbn [flat_map length]. rewrite app_length, H. lia. Qed.

Section Gen.
  Context {T : Type} (body : nat -> list Z -> nat * T -> res (list Z)) (f : T -> list Z).
  Hypothesis F : forall o, exists x y, f o = [x; y].
  Hypothesis Hb : forall offs data i o, (2*i+1+offs < length data)%nat ->
    body offs data (i, o) = Ok (upd (upd data (2*i+0+offs) (nth 0 (f o) 0)) (2*i+1+offs) (nth 1 (f o) 0)).
  Lemma pack_gen offs l a b : offs = length a -> (2 * length l <= length b)%nat ->
    foldM (body offs) (indexed l) (a ++ b) = Ok ((a ++ flat_map f l) ++ skipn (2 * length l) b).
  Proof. intros -> L. rewrite (pack_layout _ _ _ Hb) by exact L. rewrite words_flat by exact F. rewrite <- app_assoc. reflexivity. Qed.
End Gen.

Lemma pack_in_layout nch em had tk mu data : (2 * (length em + length had + length tk + length mu) <= length data)%nat ->
  (2 * (length em + length had + length tk + length mu) <= nch)%nat ->
  mp7wrapped_pack_in nch em had tk mu data =
  Ok (flat_map em_words em ++ flat_map had_words had ++ flat_map tk_words tk ++ flat_map mu_words mu
      ++ skipn (2 * (length em + length had + length tk + length mu)) data).
Proof.
  intros L H. unfold mp7wrapped_pack_in. rewrite assert_Ok by lia. cbn [bind].
  unfold mp7_pack_em, mp7_pack_had, mp7_pack_tk, mp7_pack_mu.
  pose proof (pack_gen _ em_words (fun o => two_words _ _) em_body 0%nat em [] data eq_refl ltac:(lia)) as E. cbn [app] in E.
  rewrite E. cbn [bind]. clear E.
  rewrite (pack_gen _ had_words (fun o => two_words _ _) had_body _ had) by (rewrite ?skipn_length, ?flat_len by reflexivity; lia). cbn [bind].
  rewrite (pack_gen _ tk_words (fun o => two_words _ _) tk_body _ tk) by (rewrite ?skipn_length, ?app_length, ?flat_len, ?flat_len by reflexivity; lia). cbn [bind].
  rewrite (pack_gen _ mu_words (fun o => two_words _ _) mu_body _ mu) by (rewrite ?skipn_length, ?app_length, ?flat_len, ?flat_len, ?flat_len by reflexivity; lia).
  rewrite !skipn_skipn'. rewrite <- !app_assoc. do 6 f_equal. lia.
Qed.

Lemma pack_out_layout nch ch pho ne mu data : (2 * (length ch + length pho + length ne + length mu) <= length data)%nat ->
  (2 * (length ch + length pho + length ne + length mu) <= nch)%nat ->
  mp7wrapped_pack_out nch ch pho ne mu data =
  Ok (flat_map ch_words ch ++ flat_map ne_words pho ++ flat_map ne_words ne ++ flat_map ch_words mu
      ++ skipn (2 * (length ch + length pho + length ne + length mu)) data).
Proof.
  intros L H. unfold mp7wrapped_pack_out. rewrite assert_Ok by lia. cbn [bind].
  pose proof (pack_gen _ ch_words (fun o => two_words _ _) ch_body 0%nat ch [] data eq_refl ltac:(lia)) as E. cbn [app] in E.
  rewrite E. cbn [bind]. clear E.
  rewrite (pack_gen _ ne_words (fun o => two_words _ _) ne_body _ pho) by (rewrite ?skipn_length, ?flat_len by reflexivity; lia). cbn [bind].
  rewrite (pack_gen _ ne_words (fun o => two_words _ _) ne_body _ ne) by (rewrite ?skipn_length, ?app_length, ?flat_len, ?flat_len by reflexivity; lia). cbn [bind].
  rewrite (pack_gen _ ch_words (fun o => two_words _ _) ch_body _ mu) by (rewrite ?skipn_length, ?app_length, ?flat_len, ?flat_len, ?flat_len by reflexivity; lia).
  rewrite !skipn_skipn'. rewrite <- !app_assoc. do 6 f_equal. lia.
Qed.

(** ** Unpacking *)
Section UGen.
  Context {T : Type} (f : T -> list Z) (g : Z -> Z -> T).
  Hypothesis F : forall o, exists x y, f o = [x; y].
  Lemma unpack_gen n offs a l c : n = length l -> offs = length a ->
    (forall o, In o l -> g (nth 0 (f o) 0) (nth 1 (f o) 0) = o) ->
    mapM (fun i => do x <- rd (a ++ flat_map f l ++ c) (2*i+0+offs);
                   do y <- rd (a ++ flat_map f l ++ c) (2*i+1+offs); Ok (g x y)) (seq 0 n) = Ok l.
  Proof.
    intros -> -> H. rewrite <- (words_flat f) by exact F.
    rewrite (unpack_layout (fun o => nth 0 (f o) 0) (fun o => nth 1 (f o) 0) g (fun o => o)) by exact H.
    f_equal. apply map_id.
  Qed.
End UGen.

Lemma inS16 x : inS 16 x -> pt_t x = x.
Proof. intros H. apply wrapS_id; [lia|exact H]. Qed.
Lemma inS10 x : inS 10 x -> wrapS 10 x = x.
Proof. intros H. apply wrapS_id; [lia|exact H]. Qed.
Lemma slice_phi0 a b : wrapS 10 (slice (b mod 1024 + 1024 * (a mod 1024)) 19 10) = wrapS 10 a.
Proof. rewrite <- (slice_phi 0 a b). do 2 f_equal. lia. Qed.
Lemma slice_z00 z a b : wrapS 10 (slice (b mod 1024 + 1024 * (a mod 1024) + 1048576 * (z mod 1024)) 29 20) = wrapS 10 z.
Proof. rewrite <- (slice_z0 0 z a b). do 2 f_equal. lia. Qed.
Lemma slice_eta1 z a b : wrapS 10 (slice (b mod 1024 + 1024 * a + 1048576 * z) 9 0) = wrapS 10 b.
Proof. rewrite <- (slice_eta (a + 1024 * z) b). do 2 f_equal. lia. Qed.
Lemma slice_eta2 y z a b : wrapS 10 (slice (b mod 1024 + 1024 * a + 1048576 * z + 1073741824 * y) 9 0) = wrapS 10 b.
Proof. rewrite <- (slice_eta (a + 1024 * z + 1048576 * y) b). do 2 f_equal. lia. Qed.
Lemma slice_phi1 y z a b : wrapS 10 (slice (b mod 1024 + 1024 * (a mod 1024) + 1048576 * z + 1073741824 * y) 19 10) = wrapS 10 a.
Proof. rewrite <- (slice_phi (z + 1024 * y) a b). do 2 f_equal. lia. Qed.

Definition ex_em (w0 w1 : Z) := mkEm (pt_t (slice w0 15 0)) (pt_t (slice w0 31 16)) (etaphi_t (slice w1 9 0)) (etaphi_t (slice w1 19 10)).
Definition ex_mu (w0 w1 : Z) := mkMu (pt_t (slice w0 15 0)) (pt_t (slice w0 31 16)) (etaphi_t (slice w1 9 0)) (etaphi_t (slice w1 19 10)).
Definition ex_had (w0 w1 : Z) := mkHad (pt_t (slice w0 15 0)) (etaphi_t (slice w1 9 0)) (etaphi_t (slice w1 19 10)) (pt_t (slice w0 31 16)) (getbit w1 20).
Definition ex_tk (w0 w1 : Z) := mkTk (pt_t (slice w0 15 0)) (pt_t (slice w0 31 16)) (etaphi_t (slice w1 9 0)) (etaphi_t (slice w1 19 10)) (z0_t (slice w1 29 20)) (getbit w1 30).
Definition ex_ch (w0 w1 : Z) := mkCh (pt_t (slice w0 15 0)) (etaphi_t (slice w1 9 0)) (etaphi_t (slice w1 19 10)) (wrapU 3 (slice w0 18 16)) (z0_t (slice w1 29 20)).
Definition ex_ne (w0 w1 p : Z) := mkNe (pt_t (slice w0 15 0)) (etaphi_t (slice w1 9 0)) (etaphi_t (slice w1 19 10)) (wrapU 3 (slice w0 18 16)) p.

Lemma ex_em_words o : em_ok o -> ex_em (nth 0 (em_words o) 0) (nth 1 (em_words o) 0) = o.
Proof.
  destruct o as [a b c d]. intros (H1 & H2 & H3 & H4). cbn [e_pt e_pterr e_eta e_phi] in *. unfold ex_em, em_words, etaphi_t. cbn [nth e_pt e_pterr e_eta e_phi].
  rewrite slice_lo16, slice_hi16, slice_eta, slice_phi0, !inS16, !inS10 by assumption. reflexivity.
Qed.
Lemma ex_mu_words o : mu_ok o -> ex_mu (nth 0 (mu_words o) 0) (nth 1 (mu_words o) 0) = o.
Proof.
  destruct o as [a b c d]. intros (H1 & H2 & H3 & H4). cbn [m_pt m_pterr m_eta m_phi] in *. unfold ex_mu, mu_words, etaphi_t. cbn [nth m_pt m_pterr m_eta m_phi].
  rewrite slice_lo16, slice_hi16, slice_eta, slice_phi0, !inS16, !inS10 by assumption. reflexivity.
Qed.
Lemma ex_had_words o : had_ok o -> ex_had (nth 0 (had_words o) 0) (nth 1 (had_words o) 0) = o.
Proof.
  destruct o as [a b c d e]. intros (H1 & H2 & H3 & H4). cbn [h_pt h_eta h_phi h_empt h_isem] in *. unfold ex_had, had_words, etaphi_t. cbn [nth h_pt h_eta h_phi h_empt h_isem].
  rewrite slice_lo16, slice_hi16, slice_eta1, slice_phi, getbit_20, !inS16, !inS10 by assumption. reflexivity.
Qed.
Lemma ex_tk_words o : tk_ok o -> ex_tk (nth 0 (tk_words o) 0) (nth 1 (tk_words o) 0) = o.
Proof.
  destruct o as [a b c d e f]. intros (H1 & H2 & H3 & H4 & H5). cbn [t_pt t_pterr t_eta t_phi t_z0 t_tight] in *. unfold ex_tk, tk_words, etaphi_t, z0_t. cbn [nth t_pt t_pterr t_eta t_phi t_z0 t_tight].
  rewrite slice_lo16, slice_hi16, slice_eta2, slice_phi1, slice_z0, getbit_30, !inS16, !inS10 by assumption. reflexivity.
Qed.
Lemma ex_ch_words o : ch_ok o -> ex_ch (nth 0 (ch_words o) 0) (nth 1 (ch_words o) 0) = o.
Proof.
  destruct o as [a b c d e]. intros (H1 & H2 & H3 & H4 & H5). cbn [c_pt c_eta c_phi c_id c_z0] in *. unfold ex_ch, ch_words, etaphi_t, z0_t. cbn [nth c_pt c_eta c_phi c_id c_z0].
  rewrite slice_lo16, slice_id, slice_eta1, slice_phi, slice_z00, !inS16, !inS10, wrapU_id by assumption. reflexivity.
Qed.
Lemma ex_ne_words o p : ne_ok o -> ex_ne (nth 0 (ne_words o) 0) (nth 1 (ne_words o) 0) p = mkNe (n_pt o) (n_eta o) (n_phi o) (n_id o) p.
Proof.
  destruct o as [a b c d e]. intros (H1 & H2 & H3 & H4). cbn [n_pt n_eta n_phi n_id] in *. unfold ex_ne, ne_words, etaphi_t. cbn [nth n_pt n_eta n_phi n_id].
  rewrite slice_lo16, slice_id, slice_eta, slice_phi0, !inS16, !inS10, wrapU_id by assumption. reflexivity.
Qed.

Lemma unpack_ne_layout offs a l c old : offs = length a -> length old = length l -> Forall ne_ok l ->
  unpack_ne offs (a ++ flat_map ne_words l ++ c) old = Ok (zip_puppi old l).
Proof.
  intros -> L HF. unfold unpack_ne. rewrite <- (words_flat ne_words) by (intros; apply two_words).
  apply mapM_nth.
  - rewrite length_indexed. clear HF. revert l L. induction old as [|o old IH]; intros [|x l] L; try discriminate; [reflexivity|].
    cbn [zip_puppi length]. f_equal. apply IH. injection L; auto.
  - intros i [j o] y Hx Hy. rewrite nth_error_indexed in Hx. destruct (nth_error old i) as [o'|] eqn:Eo; [|discriminate]. injection Hx as <- <-.
    assert (Hi : (i < length l)%nat) by (rewrite <- L; apply nth_error_Some; congruence).
    destruct (nth_error_lt l i Hi) as [x Hx].
    assert (Ey : y = with_puppi_of o' x).
    { clear HF. revert old l L i Eo Hx Hi Hy. induction old as [|p old IH]; intros [|x' l] L [|i] Eo Hx Hi Hy; try discriminate.
      - cbn in *. congruence.
      - cbn [zip_puppi nth_error] in *. eapply (IH l); eauto. cbn [length] in Hi. lia. }
    destruct (rd_layout (fun o => nth 0 (ne_words o) 0) (fun o => nth 1 (ne_words o) 0) a l c i x Hx) as [R0 R1].
    rewrite R0. cbn [bind]. rewrite R1. cbn [bind]. rewrite Ey. f_equal. apply ex_ne_words.
    eapply Forall_forall; [exact HF|eapply nth_error_In; exact Hx].
Qed.

Lemma unpack_in_layout nch em had tk mu c :
  (2 * (length em + length had + length tk + length mu) <= nch)%nat ->
  Forall em_ok em -> Forall had_ok had -> Forall tk_ok tk -> Forall mu_ok mu ->
  mp7wrapped_unpack_in nch (length em) (length had) (length tk) (length mu)
    (flat_map em_words em ++ flat_map had_words had ++ flat_map tk_words tk ++ flat_map mu_words mu ++ c) = Ok (em, had, tk, mu).
Proof.
  intros H HE HH HT HM. unfold mp7wrapped_unpack_in. rewrite assert_Ok by lia. cbn [bind].
  set (fe := flat_map em_words em). set (fh := flat_map had_words had). set (ft := flat_map tk_words tk). set (fm := flat_map mu_words mu).
  assert (Le : length fe = (2 * length em)%nat) by (apply flat_len; reflexivity).
  assert (Lh : length fh = (2 * length had)%nat) by (apply flat_len; reflexivity).
  assert (Lt : length ft = (2 * length tk)%nat) by (apply flat_len; reflexivity).
  assert (E1 : mp7_unpack_em (length em) 0 (fe ++ fh ++ ft ++ fm ++ c) = Ok em).
  { apply (unpack_gen em_words ex_em (fun o => two_words _ _) (length em) 0%nat [] em); try reflexivity.
    intros o Ho. apply ex_em_words. eapply Forall_forall; eassumption. }
  rewrite E1. cbn [bind].
  assert (E2 : mp7_unpack_had (length had) (2 * length em) (fe ++ fh ++ ft ++ fm ++ c) = Ok had).
  { apply (unpack_gen had_words ex_had (fun o => two_words _ _) (length had) _ fe had); [reflexivity|lia|].
    intros o Ho. apply ex_had_words. eapply Forall_forall; eassumption. }
  rewrite E2. cbn [bind].
  assert (E3 : mp7_unpack_tk (length tk) (2 * length had + 2 * length em) (fe ++ fh ++ ft ++ fm ++ c) = Ok tk).
  { rewrite (app_assoc fe fh). apply (unpack_gen tk_words ex_tk (fun o => two_words _ _) (length tk) _ (fe ++ fh) tk); [reflexivity|rewrite app_length; lia|].
    intros o Ho. apply ex_tk_words. eapply Forall_forall; eassumption. }
  rewrite E3. cbn [bind].
  assert (E4 : mp7_unpack_mu (length mu) (2 * length tk + (2 * length had + 2 * length em)) (fe ++ fh ++ ft ++ fm ++ c) = Ok mu).
  { rewrite (app_assoc fe fh), (app_assoc (fe ++ fh)). apply (unpack_gen mu_words ex_mu (fun o => two_words _ _) (length mu) _ ((fe ++ fh) ++ ft) mu); [reflexivity|rewrite !app_length; lia|].
    intros o Ho. apply ex_mu_words. eapply Forall_forall; eassumption. }
  rewrite E4. reflexivity.
Qed.

Lemma unpack_out_layout nch ch pho ne mu c oldpho oldne :
  (2 * (length ch + length pho + length ne + length mu) <= nch)%nat ->
  Forall ch_ok ch -> Forall ne_ok pho -> Forall ne_ok ne -> Forall ch_ok mu ->
  length oldpho = length pho -> length oldne = length ne ->
  mp7wrapped_unpack_out nch (length ch) (length mu)
    (flat_map ch_words ch ++ flat_map ne_words pho ++ flat_map ne_words ne ++ flat_map ch_words mu ++ c) oldpho oldne
  = Ok (ch, zip_puppi oldpho pho, zip_puppi oldne ne, mu).
Proof.
  intros H HE HH HT HM Lp Ln. unfold mp7wrapped_unpack_out. rewrite assert_Ok by lia. cbn [bind]. rewrite Lp, Ln.
  set (fe := flat_map ch_words ch). set (fh := flat_map ne_words pho). set (ft := flat_map ne_words ne). set (fm := flat_map ch_words mu).
  assert (Le : length fe = (2 * length ch)%nat) by (apply flat_len; reflexivity).
  assert (Lh : length fh = (2 * length pho)%nat) by (apply flat_len; reflexivity).
  assert (Lt : length ft = (2 * length ne)%nat) by (apply flat_len; reflexivity).
  assert (E1 : unpack_ch (length ch) 0 (fe ++ fh ++ ft ++ fm ++ c) = Ok ch).
  { apply (unpack_gen ch_words ex_ch (fun o => two_words _ _) (length ch) 0%nat [] ch); try reflexivity.
    intros o Ho. apply ex_ch_words. exact (proj1 (Forall_forall _ _) HE o Ho). }
  rewrite E1. cbn [bind].
  assert (E2 : unpack_ne (2 * length ch) (fe ++ fh ++ ft ++ fm ++ c) oldpho = Ok (zip_puppi oldpho pho)).
  { apply unpack_ne_layout; [lia|assumption|assumption]. }
  rewrite E2. cbn [bind].
  assert (E3 : unpack_ne (2 * length pho + 2 * length ch) (fe ++ fh ++ ft ++ fm ++ c) oldne = Ok (zip_puppi oldne ne)).
  { rewrite (app_assoc fe fh). apply unpack_ne_layout; [rewrite app_length; lia|assumption|assumption]. }
  rewrite E3. cbn [bind].
  assert (E4 : unpack_ch (length mu) (2 * length ne + (2 * length pho + 2 * length ch)) (fe ++ fh ++ ft ++ fm ++ c) = Ok mu).
  { rewrite (app_assoc fe fh), (app_assoc (fe ++ fh)). apply (unpack_gen ch_words ex_ch (fun o => two_words _ _) (length mu) _ ((fe ++ fh) ++ ft) mu); [reflexivity|rewrite !app_length; lia|].
    intros o Ho. apply ex_ch_words. exact (proj1 (Forall_forall _ _) HM o Ho). }
  rewrite E4. reflexivity.
Qed.
