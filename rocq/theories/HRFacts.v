(** Proofs about the human-readable pattern file. *)
From Coq Require Import Ascii String.
From Verif Require Import Base BaseFacts Data PFHw SerText SerTextFacts Printf HumanRead SpecHR.
Local Open Scope string_scope.
Local Open Scope list_scope.
Local Open Scope Z_scope.

(** ** Words and integers *)
Definition isdig (c : ascii) : Prop := exists v, decimal_digit c = Some v.
Lemma dig_facts d : 0 <= d < 10 -> decimal_digit (digit d) = Some d.
Proof.
  intros H. assert (D : d = 0 \/ d = 1 \/ d = 2 \/ d = 3 \/ d = 4 \/ d = 5 \/ d = 6 \/ d = 7 \/ d = 8 \/ d = 9) by lia.
  repeat (destruct D as [->|D]; [reflexivity|]). subst. reflexivity.
Qed.
Lemma natural_snoc s : forall acc c, Forall isdig s ->
  natural acc (s ++ [c]) = match natural acc s with Some v => natural v [c] | None => None end.
Proof.
  induction s as [|x s IH]; intros acc c H; [reflexivity|]. inversion H as [|? ? (v & Hv) Hs]; subst.
  assert (NP : (x =? ",")%char || (x =? ":")%char = false).
  { destruct (Ascii.eqb_spec x ","%char); [subst; discriminate|]. destruct (Ascii.eqb_spec x ":"%char); [subst; discriminate|]. reflexivity. }
  destruct s as [|y s].
  - cbn [app natural]. rewrite NP, Hv. reflexivity.
  - change (match decimal_digit x with Some v => natural (acc * 10 + v) ((y :: s) ++ [c]) | None => None end
            = match match decimal_digit x with Some v => natural (acc * 10 + v) (y :: s) | None => None end with Some v => natural v [c] | None => None end).
    rewrite Hv. apply IH. exact Hs.
Qed.
Lemma dec_nonempty f n : (1 <= f)%nat -> dec f n <> [].
Proof. destruct f; [lia|]. cbn [dec]. intros _ E. apply app_eq_nil in E as [_ E]. discriminate. Qed.
Lemma dec_natural fuel : forall n, (1 <= fuel)%nat -> 0 <= n < 10 ^ Z.of_nat fuel -> natural 0 (dec fuel n) = Some n /\ Forall isdig (dec fuel n).
Proof.
  induction fuel as [|f IH]; intros n Hf Hn; [lia|]. cbn [dec].
  assert (DM : 0 <= n mod 10 < 10) by (apply Z.mod_pos_bound; lia).
  assert (ID : isdig (digit (n mod 10))) by (exists (n mod 10); apply dig_facts; exact DM).
  assert (NP : (digit (n mod 10) =? ",")%char || (digit (n mod 10) =? ":")%char = false).
  { destruct ID as (v & Hv). destruct (Ascii.eqb_spec (digit (n mod 10)) ","%char) as [e|]; [rewrite e in Hv; discriminate|].
    destruct (Ascii.eqb_spec (digit (n mod 10)) ":"%char) as [e|]; [rewrite e in Hv; discriminate|]. reflexivity. }
  destruct (Z.ltb_spec n 10) as [L|L].
  - cbn [app]. split; [|constructor; [exact ID|constructor]]. cbn [natural]. rewrite NP, dig_facts by exact DM. f_equal. rewrite Z.mod_small by lia. lia.
  - destruct f as [|f']; [cbn in Hn; lia|].
    destruct (IH (n / 10)) as [E F]; [lia| |].
    { rewrite Nat2Z.inj_succ, Z.pow_succ_r in Hn by lia. split; [apply Z.div_pos; lia|apply Z.div_lt_upper_bound; lia]. }
    split; [|apply Forall_app; split; [exact F|constructor; [exact ID|constructor]]].
    rewrite natural_snoc by exact F. rewrite E. cbn [natural]. rewrite NP, dig_facts by exact DM. f_equal. pose proof (Z.div_mod n 10). lia.
Qed.

(** the characters of a printed integer without its blanks *)
Definition word_of (fl : flag) (w : nat) (x : Z) : list ascii :=
  let sg := if x <? 0 then ["-"%char] else match fl with PlusFlag => ["+"%char] | _ => [] end in
  let ds := dec 10 (Z.abs x) in
  sg ++ (match fl with ZeroFlag => repeat "0"%char (w - length (sg ++ ds)) | _ => [] end) ++ ds.
Definition small (x : Z) : Prop := Z.abs x < 2 ^ 32.

Lemma dig_not_sep c : isdig c -> c <> " "%char /\ c <> newline /\ c <> "-"%char /\ c <> "+"%char.
Proof. intros (v & Hv). repeat split; intros ->; discriminate. Qed.
Lemma natural_zeros k s : s <> [] -> natural 0 (repeat "0"%char k ++ s) = natural 0 s.
Proof.
  intros N. induction k as [|k IH]; [reflexivity|]. cbn [repeat app]. rewrite <- IH.
  destruct (repeat "0"%char k ++ s) as [|c r] eqn:E; [apply app_eq_nil in E; tauto|]. reflexivity.
Qed.
Lemma natural_tail s c : s <> [] -> Forall isdig s -> c = ","%char \/ c = ":"%char -> natural 0 (s ++ [c]) = natural 0 s.
Proof. intros _ F H. rewrite natural_snoc by exact F. destruct (natural 0 s); [|reflexivity]. destruct H as [->| ->]; reflexivity. Qed.
Lemma number_digits s : s <> [] -> Forall isdig s -> forall t, number (s ++ t) = natural 0 (s ++ t).
Proof. intros N F t. destruct s as [|c s]; [congruence|]. inversion F as [|? ? (v & Hv) _]; subst. cbn [app number]. rewrite Hv. reflexivity. Qed.
Lemma integer_digits s : s <> [] -> Forall isdig s -> forall t, integer (s ++ t) = natural 0 (s ++ t).
Proof.
  intros N F t. destruct s as [|c s]; [congruence|]. inversion F; subst. destruct (dig_not_sep c) as (_ & _ & A & B); [assumption|]. cbn [app integer].
  apply Ascii.eqb_neq in A, B. rewrite A, B. exact (number_digits (c :: s) N F t).
Qed.

Lemma digs_of fl w x : small x -> let ds := (match fl with ZeroFlag => repeat "0"%char w | _ => [] end) ++ dec 10 (Z.abs x) in
  ds <> [] /\ Forall isdig ds /\ natural 0 ds = Some (Z.abs x).
Proof.
  intros H. destruct (dec_natural 10 (Z.abs x)) as [E F]; [lia|unfold small in H; change (10 ^ Z.of_nat 10) with 10000000000; lia|].
  assert (N : dec 10 (Z.abs x) <> []) by (apply dec_nonempty; lia).
  cbv zeta. split; [intros C; apply app_eq_nil in C; tauto|]. split.
  - apply Forall_app. split; [|exact F]. destruct fl; try constructor. apply Forall_forall. intros c Hc. apply repeat_spec in Hc. subst. exists 0. reflexivity.
  - destruct fl; cbn [app]; try exact E. rewrite natural_zeros by exact N. exact E.
Qed.

Lemma word_integer fl w x : small x -> integer (word_of fl w x) = Some x /\ integer (word_of fl w x ++ [","%char]) = Some x /\ integer (word_of fl w x ++ [":"%char]) = Some x.
Proof.
  intros H. unfold word_of. cbv zeta. set (sg := if x <? 0 then _ else _).
  destruct (digs_of fl (w - length (sg ++ dec 10 (Z.abs x))) x H) as (N & F & E).
  set (ds := (match fl with ZeroFlag => repeat "0"%char (w - length (sg ++ dec 10 (Z.abs x))) | _ => [] end) ++ dec 10 (Z.abs x)) in *.
  assert (G : forall t, natural 0 (ds ++ t) = Some (Z.abs x) -> integer ((sg ++ ds) ++ t) = Some x).
  { intros t Ht. unfold sg. destruct (Z.ltb_spec x 0) as [L|L].
    - cbn [app integer]. change (("-" =? "-")%char) with true. cbn iota. rewrite number_digits, Ht by assumption. f_equal. lia.
    - assert (AX : Z.abs x = x) by lia. destruct fl; cbn [app]; try (rewrite integer_digits by assumption; rewrite Ht, AX; reflexivity).
      cbn [integer]. change (("+" =? "-")%char) with false. change (("+" =? "+")%char) with true. cbn iota. rewrite number_digits, Ht, AX by assumption. reflexivity. }
  split; [|split].
  - rewrite <- (app_nil_r (sg ++ ds)). apply G. rewrite app_nil_r. exact E.
  - apply G. rewrite natural_tail by (assumption || auto). exact E.
  - apply G. rewrite natural_tail by (assumption || auto). exact E.
Qed.

Lemma word_plain fl w x : small x -> word_of fl w x <> [] /\ Forall (fun c => c <> " "%char /\ c <> newline) (word_of fl w x).
Proof.
  intros H. unfold word_of. cbv zeta. set (sg := if x <? 0 then _ else _).
  destruct (digs_of fl (w - length (sg ++ dec 10 (Z.abs x))) x H) as (N & F & E).
  split; [intros C; apply app_eq_nil in C; tauto|]. apply Forall_app. split.
  - unfold sg. destruct (x <? 0); [repeat constructor; discriminate|]. destruct fl; repeat constructor; discriminate.
  - eapply Forall_impl; [|exact F]. intros c Hc. destruct (dig_not_sep c Hc) as (A & B & _). auto.
Qed.

Lemma conv_word fl w x : small x -> exists k, conv fl w x = repeat " "%char k ++ word_of fl w x.
Proof.
  intros H. unfold conv, word_of, sign_of. cbv zeta. destruct fl.
  - destruct (x <? 0); eexists; reflexivity.
  - destruct (x <? 0).
    + eexists. cbn [app]. reflexivity.
    + set (k := (w - _)%nat). exists (S k). cbn [app]. change (repeat " "%char (S k)) with (repeat " "%char (1 + k)).
      replace (1 + k)%nat with (k + 1)%nat by lia. rewrite repeat_app. cbn [repeat]. rewrite <- app_assoc. reflexivity.
  - eexists. reflexivity.
  - exists 0%nat. reflexivity.
Qed.

Lemma words_blank k s : split_words [] (repeat " "%char k ++ s) = split_words [] s.
Proof. induction k as [|k IH]; [reflexivity|exact IH]. Qed.
Lemma words_word t : forall cur s, Forall (fun c => c <> " "%char /\ c <> newline) t -> split_words cur (t ++ s) = split_words (cur ++ t) s.
Proof.
  induction t as [|c t IH]; intros cur s H; [rewrite app_nil_r; reflexivity|]. inversion H as [|? ? [A _] Ht]; subst. cbn [app split_words].
  apply Ascii.eqb_neq in A. rewrite A, IH by exact Ht. rewrite <- app_assoc. reflexivity.
Qed.
(** a conversion followed by a blank, the end, or a punctuation mark *)
Lemma words_conv fl w x s : small x -> split_words [] (conv fl w x ++ " "%char :: s) = word_of fl w x :: split_words [] s.
Proof.
  intros H. destruct (conv_word fl w x H) as (k & ->). destruct (word_plain fl w x H) as (N & P). rewrite <- app_assoc, words_blank, words_word by exact P.
  cbn [app split_words]. change ((" " =? " ")%char) with true. cbn iota. destruct (word_of fl w x); [congruence|reflexivity].
Qed.
Lemma words_conv_end fl w x : small x -> split_words [] (conv fl w x) = [word_of fl w x].
Proof.
  intros H. destruct (conv_word fl w x H) as (k & ->). destruct (word_plain fl w x H) as (N & P).
  rewrite words_blank. rewrite <- (app_nil_r (word_of fl w x)) at 1. rewrite words_word by exact P. cbn [app split_words]. destruct (word_of fl w x); [congruence|reflexivity].
Qed.
Lemma words_conv_comma fl w x s : small x -> split_words [] (conv fl w x ++ ","%char :: " "%char :: s) = (word_of fl w x ++ [","%char]) :: split_words [] s.
Proof.
  intros H. destruct (conv_word fl w x H) as (k & ->). destruct (word_plain fl w x H) as (N & P). rewrite <- app_assoc, words_blank, words_word by exact P.
  cbn [app split_words]. change (("," =? " ")%char) with false. change ((" " =? " ")%char) with true. cbn iota. destruct (word_of fl w x); [congruence|reflexivity].
Qed.
Lemma words_conv_colon fl w x : small x -> split_words [] (conv fl w x ++ [":"%char]) = [word_of fl w x ++ [":"%char]].
Proof.
  intros H. destruct (conv_word fl w x H) as (k & ->). destruct (word_plain fl w x H) as (N & P). rewrite <- app_assoc, words_blank, words_word by exact P.
  cbn [app split_words]. change ((":" =? " ")%char) with false. cbn iota. destruct (word_of fl w x); [congruence|reflexivity].
Qed.
Lemma conv_nonl fl w x : small x -> nonl (conv fl w x).
Proof.
  intros H. destruct (conv_word fl w x H) as (k & ->). apply nonl_app.
  - apply Forall_forall. intros c Hc. apply repeat_spec in Hc. subst. discriminate.
  - eapply Forall_impl; [|apply (word_plain fl w x H)]. intros c [_ A]. exact A.
Qed.

(** reading a row piece by piece *)
Definition row_words (ws : list (list ascii)) : row := (labels ws, integers ws).
Lemma row_int fl w x ws l v : small x -> row_words ws = (l, v) -> row_words (word_of fl w x :: ws) = (l, x :: v).
Proof. intros H E. injection E as <- <-. unfold row_words. cbn [labels integers]. destruct (word_integer fl w x H) as (-> & _). reflexivity. Qed.
Lemma row_int_comma fl w x ws l v : small x -> row_words ws = (l, v) -> row_words ((word_of fl w x ++ [","%char]) :: ws) = (l, x :: v).
Proof. intros H E. injection E as <- <-. unfold row_words. cbn [labels integers]. destruct (word_integer fl w x H) as (_ & -> & _). reflexivity. Qed.
Lemma row_int_colon fl w x ws l v : small x -> row_words ws = (l, v) -> row_words ((word_of fl w x ++ [":"%char]) :: ws) = (l, x :: v).
Proof. intros H E. injection E as <- <-. unfold row_words. cbn [labels integers]. destruct (word_integer fl w x H) as (_ & _ & ->). reflexivity. Qed.
Lemma row_label s ws l v : integer s = None -> row_words ws = (l, v) -> row_words (s :: ws) = (string_of_list_ascii s :: l, v).
Proof. intros H E. injection E as <- <-. unfold row_words. cbn [labels integers]. rewrite H. reflexivity. Qed.
