(** Reading back the characters of a pattern file. *)
From Coq Require Import Ascii String.
From Verif Require Import Base BaseFacts Data Serializer SerText.
Local Open Scope list_scope.

Lemma digit_facts d : 0 <= d < 16 -> digit_val (digit d) = Some d /\ digit d <> newline /\ digit d <> " "%char.
Proof.
  intros H.
  assert (A : forallb (fun k => let d := Z.of_nat k in match digit_val (digit d) with Some v => v =? d | None => false end && negb (digit d =? newline)%char && negb (digit d =? " ")%char) (seq 0 16) = true) by (vm_compute; reflexivity).
  rewrite forallb_forall in A. specialize (A (Z.to_nat d)). rewrite Z2Nat.id in A by lia.
  assert (I : In (Z.to_nat d) (seq 0 16)) by (apply in_seq; lia). specialize (A I).
  apply andb_true_iff in A. destruct A as [A C]. apply andb_true_iff in A. destruct A as [A B].
  destruct (digit_val (digit d)) as [v|]; [|discriminate]. apply Z.eqb_eq in A. subst. split; [reflexivity|].
  split; intros E; rewrite E in *; discriminate.
Qed.

Definition plain (s : list ascii) : Prop := Forall (fun c => c <> newline /\ c <> " "%char) s.
Definition nonl (s : list ascii) : Prop := Forall (fun c => c <> newline) s.
Lemma plain_nonl s : plain s -> nonl s.
Proof. apply Forall_impl. intros c [H _]. exact H. Qed.
Lemma nonl_app s t : nonl s -> nonl t -> nonl (s ++ t).
Proof. intros A B. apply Forall_app. split; assumption. Qed.

Lemma number_app base acc s c : number base acc (s ++ [c]) = match number base acc s with Some v => match digit_val c with Some d => Some (v * base + d) | None => None end | None => None end.
Proof.
  revert acc; induction s as [|x s IH]; intros acc; cbn.
  - destruct (digit_val c); reflexivity.
  - destruct (digit_val x); [apply IH|reflexivity].
Qed.

Lemma number_zeros base k s : number base 0 (repeat "0"%char k ++ s) = number base 0 s.
Proof. induction k as [|k IH]; cbn [repeat app number]; [reflexivity|]. change (digit_val "0"%char) with (Some 0). rewrite Z.mul_0_l. exact IH. Qed.

Lemma dec_number fuel n : (1 <= fuel)%nat -> 0 <= n < 10 ^ Z.of_nat fuel -> number 10 0 (dec fuel n) = Some n /\ plain (dec fuel n).
Proof.
  revert n; induction fuel as [|f IH]; intros n Hf Hn; [lia|]. cbn [dec].
  pose proof (digit_facts (n mod 10) ltac:(lia)) as [D1 [D2 D3]].
  destruct (Z.ltb_spec n 10).
  - cbn [app number]. rewrite D1. split; [f_equal; lia|]. constructor; [split; assumption|constructor].
  - destruct f as [|f]. { change (10 ^ Z.of_nat 1) with 10 in Hn. lia. }
    destruct (IH (n / 10) ltac:(lia)) as [E P].
    { rewrite Nat2Z.inj_succ, Z.pow_succ_r in Hn by lia. split; [lia|]. apply Z.div_lt_upper_bound; lia. }
    rewrite number_app, E, D1. split; [f_equal; lia|]. apply Forall_app. split; [exact P|]. constructor; [split; assumption|constructor].
Qed.

Lemma dec_pad_number w n : 0 <= n < 2 ^ 32 -> number 10 0 (dec_pad w n) = Some n /\ plain (dec_pad w n).
Proof.
  intros Hn. destruct (dec_number 10 n ltac:(lia)) as [E P]. { change (10 ^ Z.of_nat 10) with 10000000000. lia. }
  unfold dec_pad. rewrite number_zeros. split; [exact E|]. apply Forall_app. split; [|exact P].
  apply Forall_forall. intros c Hc. apply repeat_spec in Hc. subst. split; discriminate.
Qed.

Lemma hex_number w n : 0 <= n < 16 ^ Z.of_nat w -> number 16 0 (hex w n) = Some n /\ plain (hex w n) /\ length (hex w n) = w.
Proof.
  revert n; induction w as [|w IH]; intros n Hn; cbn [hex].
  - change (16 ^ Z.of_nat 0) with 1 in Hn. split; [cbn; f_equal; lia|]. split; [constructor|reflexivity].
  - pose proof (digit_facts (n mod 16) ltac:(lia)) as [D1 [D2 D3]].
    destruct (IH (n / 16)) as [E [P L]].
    { rewrite Nat2Z.inj_succ, Z.pow_succ_r in Hn by lia. split; [lia|]. apply Z.div_lt_upper_bound; lia. }
    rewrite number_app, E, D1. split; [f_equal; lia|]. split; [apply Forall_app; split; [exact P|constructor; [split; assumption|constructor]]|].
    rewrite app_length, L. cbn. lia.
Qed.
Lemma hex8 n : inU 32 n -> number 16 0 (hex 8 n) = Some n /\ plain (hex 8 n) /\ length (hex 8 n) = 8%nat.
Proof. intros H. apply hex_number. unfold inU in H. change (16 ^ Z.of_nat 8) with (2 ^ 32). exact H. Qed.

Lemma strip_app p s : strip p (p ++ s) = Some s.
Proof. induction p as [|c p IH]; cbn; [destruct s; reflexivity|]. rewrite Ascii.eqb_refl. exact IH. Qed.

Lemma until_app c s r : Forall (fun x => x <> c) s -> until c (s ++ c :: r) = (s, r).
Proof.
  induction s as [|x s IH]; intros H; cbn.
  - rewrite Ascii.eqb_refl. reflexivity.
  - inversion H; subst. destruct (Ascii.eqb_spec x c); [contradiction|]. rewrite IH by assumption. reflexivity.
Qed.

Lemma words_read mark ws fuel : mark <> [] -> Forall (inU 32) ws -> (length (flat_map (fun w => mark ++ hex 8 w) ws) <= fuel)%nat ->
  words fuel mark (flat_map (fun w => mark ++ hex 8 w) ws) = Some ws.
Proof.
  intros Hm. revert fuel; induction ws as [|w ws IH]; intros fuel H L.
  - destruct fuel; reflexivity.
  - inversion H as [|? ? Hw Hws]; subst. cbn [flat_map] in *. destruct (hex8 w Hw) as [E [P LW]].
    rewrite !app_length, LW in L. destruct fuel as [|f]; [lia|].
    destruct mark as [|c m]; [contradiction|]. set (mark := c :: m) in *.
    assert (U : forall s, words (S f) mark (mark ++ s) = match number 16 0 (firstn 8 s), words f mark (skipn 8 s) with Some v, Some vs => if (length (firstn 8 s) =? 8)%nat then Some (v :: vs) else None | _, _ => None end).
    { intros s. unfold mark at 2. cbn [app words]. change (c :: m ++ s) with (mark ++ s). rewrite strip_app. reflexivity. }
    rewrite <- app_assoc, U.
    rewrite firstn_app, skipn_app, LW, Nat.sub_diag, firstn_O, app_nil_r.
    rewrite (firstn_all2 (hex 8 w)), (skipn_all2 (hex 8 w)) by lia. cbn [skipn app].
    rewrite E, LW, IH by (try assumption; lia). reflexivity.
Qed.

Lemma split_line cur s r : nonl s -> split_lines cur (s ++ newline :: r) = (cur ++ s) :: split_lines [] r.
Proof.
  revert cur; induction s as [|c s IH]; intros cur H; cbn [app split_lines].
  - rewrite Ascii.eqb_refl, app_nil_r. reflexivity.
  - inversion H; subst. destruct (Ascii.eqb_spec c newline); [contradiction|]. rewrite IH by assumption. rewrite <- app_assoc. reflexivity.
Qed.

Definition chars_nonl s : forallb (fun c => negb (c =? newline)%char) (chars s) = true -> nonl (chars s).
Proof. intros H. apply Forall_forall. intros c Hc. rewrite forallb_forall in H. specialize (H c Hc). destruct (Ascii.eqb_spec c newline); [discriminate|assumption]. Qed.
Ltac lit := apply chars_nonl; reflexivity.

Definition line_ok (l : line) : Prop := 0 <= fst l < 2 ^ 32 /\ Forall (inU 32) (snd l).

Lemma nonl_flat {A} (f : A -> list ascii) l : (forall x, In x l -> nonl (f x)) -> nonl (flat_map f l).
Proof. induction l as [|x l IH]; intros H; cbn; [constructor|]. apply nonl_app; [apply H; left; reflexivity|]. apply IH. intros y Hy. apply H. right. exact Hy. Qed.

(** the part of a line before its newline *)
Definition mp7_body (l : line) : list ascii := chars "Frame " ++ dec_pad 4 (fst l) ++ chars " :" ++ flat_map (fun w => chars " 1v" ++ hex 8 w) (snd l).
Lemma mp7_line_body l : mp7_line_text l = mp7_body l ++ [newline].
Proof. unfold mp7_line_text, mp7_body. rewrite <- !app_assoc. reflexivity. Qed.
Lemma mp7_body_ok l : line_ok l -> nonl (mp7_body l) /\ mp7_parse_line (mp7_body l) = Some l.
Proof.
  intros [Hf Hw]. destruct (dec_pad_number 4 (fst l) Hf) as [E P]. split.
  - unfold mp7_body. apply nonl_app; [lit|]. apply nonl_app; [apply plain_nonl; exact P|]. apply nonl_app; [lit|].
    apply nonl_flat. intros w Hin. apply nonl_app; [lit|]. rewrite Forall_forall in Hw. destruct (hex8 w (Hw w Hin)) as [_ [Q _]]. apply plain_nonl. exact Q.
  - unfold mp7_parse_line, mp7_body. rewrite strip_app. change (chars " :") with (" "%char :: chars ":"). cbn [app].
    rewrite until_app by (eapply Forall_impl; [|exact P]; intros c [_ H]; exact H). rewrite E, strip_app.
    rewrite words_read; [destruct l; reflexivity|discriminate|assumption|lia].
Qed.

Definition ctp7_body (l : line) : list ascii := chars "0x" ++ hex 5 (fst l) ++ flat_map (fun w => chars " 0x" ++ hex 8 w) (snd l).
Lemma ctp7_line_body l : ctp7_line_text l = ctp7_body l ++ [newline].
Proof. unfold ctp7_line_text, ctp7_body. rewrite <- !app_assoc. reflexivity. Qed.
Lemma ctp7_body_ok l : 0 <= fst l < 2 ^ 20 -> Forall (inU 32) (snd l) -> nonl (ctp7_body l) /\ ctp7_parse_line (ctp7_body l) = Some l.
Proof.
  intros Hf Hw. destruct (hex_number 5 (fst l)) as [E [P L]]. { change (16 ^ Z.of_nat 5) with (2 ^ 20). exact Hf. } split.
  - unfold ctp7_body. apply nonl_app; [lit|]. apply nonl_app; [apply plain_nonl; exact P|].
    apply nonl_flat. intros w Hin. apply nonl_app; [lit|]. rewrite Forall_forall in Hw. destruct (hex8 w (Hw w Hin)) as [_ [Q _]]. apply plain_nonl. exact Q.
  - unfold ctp7_parse_line, ctp7_body. rewrite strip_app.
    rewrite firstn_app, skipn_app, L, Nat.sub_diag, firstn_O, app_nil_r, (firstn_all2 (hex 5 (fst l))), (skipn_all2 (hex 5 (fst l))) by lia. cbn [skipn app].
    rewrite E, words_read; [destruct l; reflexivity|discriminate|assumption|rewrite app_length; lia].
Qed.

Lemma read_lines (f : line -> list ascii) (parse : list ascii -> option line) ls :
  (forall l, In l ls -> nonl (f l) /\ parse (f l) = Some l) ->
  all_some (map parse (split_lines [] (flat_map (fun l => f l ++ [newline]) ls))) = Some ls.
Proof.
  induction ls as [|l ls IH]; intros H; [reflexivity|]. cbn [flat_map]. rewrite <- app_assoc. cbn [app].
  destruct (H l (or_introl eq_refl)) as [N E]. rewrite split_line by exact N. cbn [app map all_some]. rewrite E, IH; [reflexivity|].
  intros l' Hl'. apply H. right. exact Hl'.
Qed.

Lemma mp7_read_text board nlinks ls : nonl (chars board) -> Z.of_nat nlinks < 2 ^ 32 -> Forall line_ok ls ->
  mp7_read (mp7_text board nlinks ls) = Some ls.
Proof.
  intros Hb Hn H. unfold mp7_read, mp7_text, mp7_header.
  assert (P : forall w n, (n <= nlinks)%nat -> nonl (dec_pad w (Z.of_nat n))).
  { intros w n Hle. apply plain_nonl. apply dec_pad_number. lia. }
  repeat rewrite <- app_assoc. cbn [app].
  rewrite (app_assoc (chars "Board ")), split_line by (apply nonl_app; [lit|assumption]).
  rewrite (app_assoc (chars " Quad/Chan :    ")), split_line.
  2:{ apply nonl_app; [lit|]. apply nonl_flat. intros i Hi. apply in_seq in Hi.
      apply nonl_app; [lit|]. apply nonl_app; [apply P; pose proof (Nat.div_le_mono i nlinks 4 ltac:(lia) ltac:(lia)); lia|].
      apply nonl_app; [lit|]. apply nonl_app; [apply P; pose proof (Nat.mod_le i 4 ltac:(lia)); lia|lit]. }
  rewrite (app_assoc (chars "      Link :     ")), split_line.
  2:{ apply nonl_app; [lit|]. apply nonl_flat. intros i Hi. apply in_seq in Hi. apply nonl_app; [apply P; lia|lit]. }
  cbn [skipn]. rewrite <- (read_lines mp7_body mp7_parse_line ls).
  - f_equal. f_equal. f_equal. apply flat_map_ext. apply mp7_line_body.
  - intros l Hl. rewrite Forall_forall in H. apply mp7_body_ok. apply H. exact Hl.
Qed.

Lemma ctp7_read_text isInput nmax (ls : list line) : Z.of_nat nmax < 2 ^ 32 -> (forall l : line, In l ls -> 0 <= fst l < 2 ^ 20 /\ Forall (inU 32) (snd l)) ->
  ctp7_read (ctp7_text isInput nmax ls) = Some ls.
Proof.
  intros Hn H. unfold ctp7_read, ctp7_text, ctp7_header.
  assert (R : nonl (repeat "="%char 120)) by (apply Forall_forall; intros c Hc; apply repeat_spec in Hc; subst; discriminate).
  unfold ruler. repeat rewrite <- app_assoc. cbn [app].
  rewrite split_line by exact R.
  rewrite (app_assoc (chars (if isInput then "Input " else "Output "))), split_line.
  2:{ apply nonl_app; [destruct isInput; lit|]. apply nonl_flat. intros i Hi. apply in_seq in Hi. apply nonl_app; [lit|]. apply nonl_app; [|lit].
      apply plain_nonl. apply dec_pad_number. lia. }
  rewrite split_line by exact R. cbn [skipn].
  rewrite <- (read_lines ctp7_body ctp7_parse_line ls).
  - rewrite (flat_map_ext _ _ ctp7_line_body). reflexivity.
  - intros l Hl. destruct (H l Hl). apply ctp7_body_ok; assumption.
Qed.
