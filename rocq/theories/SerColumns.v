(** Columns of the pattern files. *)
From Coq Require Import Ascii String.
From Verif Require Import Base BaseFacts Data Serializer SerText SerTextFacts SpecSerColumns.
Local Open Scope list_scope.
Local Open Scope Z_scope.

Lemma dec_len k : forall fuel n, (1 <= k)%nat -> (1 <= fuel)%nat -> 0 <= n < 10 ^ Z.of_nat k -> (length (dec fuel n) <= k)%nat.
Proof.
  induction k as [|k IH]; intros fuel n Hk Hf Hn; [lia|]. destruct fuel as [|f]; [lia|]. cbn [dec]. rewrite app_length. cbn [List.length].
  destruct (Z.ltb_spec n 10) as [L|L]; [cbn [List.length]; lia|]. rewrite Nat2Z.inj_succ, Z.pow_succ_r in Hn by lia.
  destruct k as [|k]; [cbn in Hn; lia|]. destruct f as [|f]; [cbn [dec List.length]; lia|].
  assert (X : (length (dec (S f) (n / 10)) <= S k)%nat) by (apply IH; lia). lia.
Qed.
Lemma dec_pad_len w n : (1 <= w)%nat -> 0 <= n < 10 ^ Z.of_nat w -> length (dec_pad w n) = w.
Proof. intros Hw Hn. unfold dec_pad. cbv zeta. rewrite app_length, repeat_length. pose proof (dec_len w 10 n Hw ltac:(lia) Hn). lia. Qed.
Lemma skip_flat {A} (f : A -> list ascii) w l i x : (forall y, In y l -> length (f y) = w) -> nth_error l i = Some x -> exists r, skipn (w * i) (flat_map f l) = f x ++ r.
Proof.
  revert i. induction l as [|y l IH]; intros [|i] H E; try discriminate.
  - cbn in E. injection E as ->. rewrite Nat.mul_0_r. cbn [skipn flat_map]. eauto.
  - cbn [nth_error] in E. cbn [flat_map]. destruct (IH i (fun z Hz => H z (or_intror Hz)) E) as (r & Er). exists r.
    rewrite Nat.mul_succ_r, skipn_app, (H y (or_introl eq_refl)), skipn_all2 by (rewrite (H y (or_introl eq_refl)); lia). cbn [app]. rewrite <- Er. f_equal. lia.
Qed.
Lemma seq_at n : forall a i, (i < n)%nat -> nth_error (seq a n) i = Some (a + i)%nat.
Proof. induction n as [|n IH]; intros a i H; [lia|]. destruct i as [|i]; cbn [seq nth_error]; [f_equal; lia|]. rewrite IH by lia. f_equal. lia. Qed.
Lemma skip_add {A} a b (l : list A) : skipn (a + b) l = skipn b (skipn a l).
Proof. revert l. induction a as [|a IH]; intros l; [reflexivity|]. destruct l; [rewrite !skipn_nil; reflexivity|]. cbn [Nat.add skipn]. apply IH. Qed.
Lemma cell_in a k n p s x r : length p = a -> skipn k s = p ++ x ++ r -> length x = n -> cell (k + a) n s = x.
Proof. intros L E N. unfold cell. rewrite skip_add, E. rewrite skipn_app, <- L, skipn_all, Nat.sub_diag. cbn [skipn app]. rewrite <- N. apply firstn_app_exact || (rewrite firstn_app, Nat.sub_diag, firstn_all; cbn; apply app_nil_r). Qed.
Lemma skip_prefix {A} (p s : list A) k n : length p = k -> skipn (k + n) (p ++ s) = skipn n s.
Proof. intros <-. rewrite skip_add, skipn_app, skipn_all, Nat.sub_diag. reflexivity. Qed.

Definition quad_cell (i : nat) : list ascii := chars "q" ++ dec_pad 2 (Z.of_nat (i / 4)) ++ chars "c" ++ dec_pad 1 (Z.of_nat (i mod 4)) ++ chars "      ".
Definition link_cell (i : nat) : list ascii := dec_pad 2 (Z.of_nat i) ++ chars "         ".
Definition quad_line (n : nat) : list ascii := chars " Quad/Chan :    " ++ flat_map quad_cell (seq 0 n).
Definition link_line (n : nat) : list ascii := chars "      Link :     " ++ flat_map link_cell (seq 0 n).
Lemma small_num w n : 0 <= n < 10 ^ Z.of_nat w -> (w <= 4)%nat -> 0 <= n < 2 ^ 32.
Proof. intros H Hw. assert (10 ^ Z.of_nat w <= 10 ^ 4) by (apply Z.pow_le_mono_r; lia). lia. Qed.
Lemma pad_facts w n : (1 <= w <= 4)%nat -> 0 <= n < 10 ^ Z.of_nat w -> length (dec_pad w n) = w /\ number 10 0 (dec_pad w n) = Some n.
Proof. intros Hw Hn. split; [apply dec_pad_len; [lia|exact Hn]|]. apply dec_pad_number. apply (small_num w); [exact Hn|lia]. Qed.
Lemma quad_nums i : (i < 100)%nat -> 0 <= Z.of_nat (i / 4) < 10 ^ Z.of_nat 2 /\ 0 <= Z.of_nat (i mod 4) < 10 ^ Z.of_nat 1 /\ 0 <= Z.of_nat i < 10 ^ Z.of_nat 2.
Proof. intros H. rewrite Nat2Z.inj_div, Nat2Z.inj_mod. change (10 ^ Z.of_nat 2) with 100. change (10 ^ Z.of_nat 1) with 10. change (Z.of_nat 4) with 4. lia. Qed.
Lemma headings n : (n <= 100)%nat -> mp7_headings n (quad_line n) (link_line n).
Proof.
  intros Hn i Hi. assert (NS : nth_error (seq 0 n) i = Some i) by (apply (seq_at n 0 i); exact Hi).
  assert (Q : forall j, In j (seq 0 n) -> length (quad_cell j) = 11%nat).
  { intros j Hj. apply in_seq in Hj. destruct (quad_nums j ltac:(lia)) as (A & B & C). unfold quad_cell. rewrite !app_length. rewrite (proj1 (pad_facts 2 _ ltac:(lia) A)), (proj1 (pad_facts 1 _ ltac:(lia) B)). reflexivity. }
  assert (L : forall j, In j (seq 0 n) -> length (link_cell j) = 11%nat).
  { intros j Hj. apply in_seq in Hj. destruct (quad_nums j ltac:(lia)) as (A & B & C). unfold link_cell. rewrite !app_length. rewrite (proj1 (pad_facts 2 _ ltac:(lia) C)). reflexivity. }
  destruct (skip_flat quad_cell 11 _ _ _ Q NS) as (r & ER). destruct (skip_flat link_cell 11 _ _ _ L NS) as (r' & ER').
  assert (SQ : skipn (16 + 11 * i) (quad_line n) = quad_cell i ++ r) by (unfold quad_line; rewrite skip_prefix by reflexivity; exact ER).
  assert (SL : skipn (17 + 11 * i) (link_line n) = link_cell i ++ r') by (unfold link_line; rewrite skip_prefix by reflexivity; exact ER').
  destruct (quad_nums i ltac:(lia)) as (A & B & C). destruct (pad_facts 2 _ ltac:(lia) A) as (A1 & A2). destruct (pad_facts 1 _ ltac:(lia) B) as (B1 & B2). destruct (pad_facts 2 _ ltac:(lia) C) as (C1 & C2).
  unfold quad_cell in SQ. unfold link_cell in SL. repeat rewrite <- app_assoc in SQ. repeat rewrite <- app_assoc in SL. unfold shows.
  split; [|split; [|split; [|split]]].
  - replace (16 + 11 * i)%nat with ((16 + 11 * i) + 0)%nat by lia. eapply (cell_in 0 _ _ []); [reflexivity|exact SQ|reflexivity].
  - replace (17 + 11 * i)%nat with ((16 + 11 * i) + 1)%nat by lia. erewrite (cell_in 1 _ _ (chars "q")); [exact A2|reflexivity|exact SQ|exact A1].
  - replace (19 + 11 * i)%nat with ((16 + 11 * i) + 3)%nat by lia. eapply (cell_in 3 _ _ (chars "q" ++ dec_pad 2 (Z.of_nat (i / 4)))); [rewrite app_length, A1; reflexivity|rewrite SQ, <- app_assoc; reflexivity|reflexivity].
  - replace (20 + 11 * i)%nat with ((16 + 11 * i) + 4)%nat by lia. erewrite (cell_in 4 _ _ (chars "q" ++ dec_pad 2 (Z.of_nat (i / 4)) ++ chars "c")); [exact B2|rewrite !app_length, A1; reflexivity|rewrite SQ; repeat rewrite <- app_assoc; reflexivity|exact B1].
  - replace (17 + 11 * i)%nat with ((17 + 11 * i) + 0)%nat by lia. erewrite (cell_in 0 _ _ []); [exact C2|reflexivity|exact SL|exact C1].
Qed.
Lemma data_columns l : 0 <= fst l < 10000 -> Forall (inU 32) (snd l) -> mp7_columns l (mp7_body l).
Proof.
  intros Hf Hw. destruct (pad_facts 4 (fst l) ltac:(lia) Hf) as (F1 & F2). unfold mp7_columns, shows, mp7_body. split.
  - change 6%nat with (0 + 6)%nat. erewrite (cell_in 6 0 4 (chars "Frame ")); [exact F2|reflexivity|reflexivity|exact F1].
  - intros i w E. set (f := fun w0 : Z => chars " 1v" ++ hex 8 w0).
    assert (W : forall y, In y (snd l) -> length (f y) = 11%nat) by (intros y Hy; rewrite Forall_forall in Hw; destruct (hex8 y (Hw y Hy)) as (_ & _ & H8); unfold f; rewrite app_length, H8; reflexivity).
    destruct (skip_flat f 11 _ _ _ W E) as (r & ER). set (s := chars "Frame " ++ _).
    assert (S : skipn (12 + 11 * i) s = chars " " ++ chars "1v" ++ hex 8 w ++ r).
    { unfold s. rewrite (app_assoc (chars "Frame ")), (app_assoc (_ ++ _)), skip_prefix by (rewrite !app_length, F1; reflexivity). rewrite ER. unfold f. rewrite <- app_assoc. reflexivity. }
    clearbody s. rewrite Forall_forall in Hw. destruct (hex8 w (Hw w (nth_error_In _ _ E))) as (H1 & _ & H3). split.
    + replace (13 + 11 * i)%nat with ((12 + 11 * i) + 1)%nat by lia. eapply (cell_in 1 _ _ (chars " ")); [reflexivity|exact S|reflexivity].
    + replace (15 + 11 * i)%nat with ((12 + 11 * i) + 3)%nat by lia. erewrite (cell_in 3 _ _ (chars " " ++ chars "1v")); [exact H1|reflexivity|rewrite S, <- app_assoc; reflexivity|exact H3].
Qed.
Lemma body_lines (f : line -> list ascii) ls : (forall l, In l ls -> nonl (f l)) -> split_lines [] (flat_map (fun l => f l ++ [newline]) ls) = map f ls.
Proof.
  induction ls as [|l ls IH]; intros H; [reflexivity|]. cbn [flat_map map]. rewrite <- app_assoc. cbn [app]. rewrite split_line by (apply H; left; reflexivity). cbn [app]. f_equal. apply IH. intros x Hx. apply H. right. exact Hx.
Qed.
Lemma mp7_lines board nlinks ls : nonl (chars board) -> (nlinks <= 100)%nat -> Forall line_ok ls ->
  split_lines [] (mp7_text board nlinks ls) = (chars "Board " ++ chars board) :: quad_line nlinks :: link_line nlinks :: map mp7_body ls.
Proof.
  intros Hb Hn H. unfold mp7_text, mp7_header.
  assert (P : forall w n, (n <= nlinks)%nat -> nonl (dec_pad w (Z.of_nat n))). { intros w n Hle. apply plain_nonl. apply dec_pad_number. lia. }
  repeat rewrite <- app_assoc. cbn [app].
  rewrite (app_assoc (chars "Board ")), split_line by (apply nonl_app; [lit|assumption]).
  rewrite (app_assoc (chars " Quad/Chan :    ")), split_line.
  2:{ apply nonl_app; [lit|]. apply nonl_flat. intros i Hi. apply in_seq in Hi.
      apply nonl_app; [lit|]. apply nonl_app; [apply P; pose proof (Nat.div_le_mono i nlinks 4 ltac:(lia) ltac:(lia)); lia|].
      apply nonl_app; [lit|]. apply nonl_app; [apply P; pose proof (Nat.mod_le i 4 ltac:(lia)); lia|lit]. }
  rewrite (app_assoc (chars "      Link :     ")), split_line.
  2:{ apply nonl_app; [lit|]. apply nonl_flat. intros i Hi. apply in_seq in Hi. apply nonl_app; [apply P; lia|lit]. }
  cbn [app]. f_equal. f_equal. f_equal. rewrite (flat_map_ext _ _ mp7_line_body). apply body_lines. intros l Hl. rewrite Forall_forall in H. apply mp7_body_ok. apply H. exact Hl.
Qed.
Lemma c45_columns board nlinks ls : nonl (chars board) -> (nlinks <= 100)%nat -> Forall line_ok ls -> Forall (fun l => fst l < 10000) ls ->
  exists quad link rows, split_lines [] (mp7_text board nlinks ls) = (chars "Board " ++ chars board) :: quad :: link :: rows /\ mp7_headings nlinks quad link /\ Forall2 mp7_columns ls rows.
Proof.
  intros Hb Hn H HF. exists (quad_line nlinks), (link_line nlinks), (map mp7_body ls). split; [apply mp7_lines; assumption|]. split; [apply headings; exact Hn|].
  induction H as [|l ls [H1 H2] H IH]; [constructor|]. inversion HF; subst. cbn [map]. constructor; [apply data_columns; [lia|exact H2]|apply IH; assumption].
Qed.

Definition ctp7_cell (i : nat) : list ascii := chars "LINK_" ++ dec_pad 2 (Z.of_nat i) ++ chars " ".
Lemma c46_columns isInput nmax ls : (nmax <= 100)%nat -> (forall l : line, In l ls -> 0 <= fst l < 2 ^ 20 /\ Forall (inU 32) (snd l)) ->
  exists head rows, split_lines [] (ctp7_text isInput nmax ls) = repeat "="%char 120 :: head :: repeat "="%char 120 :: rows /\ ctp7_headings isInput nmax head /\ length rows = length ls.
Proof.
  intros Hn H. exists (chars (if isInput then "Input " else "Output ") ++ flat_map ctp7_cell (seq 0 nmax)), (map ctp7_body ls). split; [|split; [|apply map_length]].
  - unfold ctp7_text, ctp7_header. assert (R : nonl (repeat "="%char 120)) by (apply Forall_forall; intros c Hc; apply repeat_spec in Hc; subst; discriminate).
    unfold ruler. repeat rewrite <- app_assoc. cbn [app]. rewrite split_line by exact R.
    rewrite (app_assoc (chars (if isInput then "Input " else "Output "))), split_line.
    2:{ apply nonl_app; [destruct isInput; lit|]. apply nonl_flat. intros i Hi. apply in_seq in Hi. apply nonl_app; [lit|]. apply nonl_app; [|lit]. apply plain_nonl. apply dec_pad_number. lia. }
    rewrite split_line by exact R. cbn [app]. f_equal. f_equal. f_equal. rewrite (flat_map_ext _ _ ctp7_line_body). apply body_lines. intros l Hl. destruct (H l Hl). apply ctp7_body_ok; assumption.
  - unfold ctp7_headings. set (k := if isInput then 6%nat else 7%nat). set (p := chars (if isInput then "Input " else "Output ")). assert (LP : length p = k) by (unfold p, k; destruct isInput; reflexivity). clearbody k p.
    split; [rewrite <- LP, firstn_app, Nat.sub_diag, firstn_all; cbn [firstn]; apply app_nil_r|]. intros i Hi.
    assert (NS : nth_error (seq 0 nmax) i = Some i) by (apply (seq_at nmax 0 i); exact Hi).
    assert (Q : forall j, In j (seq 0 nmax) -> length (ctp7_cell j) = 8%nat).
    { intros j Hj. apply in_seq in Hj. destruct (quad_nums j ltac:(lia)) as (A & B & C). unfold ctp7_cell. rewrite !app_length. rewrite (proj1 (pad_facts 2 _ ltac:(lia) C)). reflexivity. }
    destruct (skip_flat ctp7_cell 8 _ _ _ Q NS) as (r & ER). destruct (quad_nums i ltac:(lia)) as (_ & _ & C). destruct (pad_facts 2 _ ltac:(lia) C) as (C1 & C2).
    assert (S : skipn (k + 8 * i) (p ++ flat_map ctp7_cell (seq 0 nmax)) = chars "LINK_" ++ dec_pad 2 (Z.of_nat i) ++ chars " " ++ r) by (rewrite skip_prefix by exact LP; rewrite ER; unfold ctp7_cell; repeat rewrite <- app_assoc; reflexivity).
    unfold shows. split.
    + replace (k + 8 * i)%nat with (k + 8 * i + 0)%nat by lia. eapply (cell_in 0 _ _ []); [reflexivity|exact S|reflexivity].
    + erewrite (cell_in 5 _ _ (chars "LINK_")); [exact C2|reflexivity|exact S|exact C1].
Qed.
