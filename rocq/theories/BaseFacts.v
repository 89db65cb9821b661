(** Lemmas about Base.v. *)
From Verif Require Import Base.
Ltac Zify.zify_post_hook ::= Z.div_mod_to_equations.

Lemma wrapS_id n x : 0 < n -> inS n x -> wrapS n x = x.
Proof.
  unfold wrapS, inS; intros Hn H.
  assert (E : 2 ^ n = 2 * 2 ^ (n - 1)).
  { replace n with (1 + (n - 1)) at 1 by lia. rewrite Z.pow_add_r by lia. reflexivity. }
  rewrite Z.mod_small; lia.
Qed.

Lemma wrapS_range n x : 0 < n -> inS n (wrapS n x).
Proof.
  unfold wrapS, inS; intros Hn.
  assert (E : 2 ^ n = 2 * 2 ^ (n - 1)).
  { replace n with (1 + (n - 1)) at 1 by lia. rewrite Z.pow_add_r by lia. reflexivity. }
  assert (0 < 2 ^ n) by (apply Z.pow_pos_nonneg; lia).
  pose proof (Z.mod_pos_bound (x + 2 ^ (n - 1)) (2 ^ n)). lia.
Qed.

Lemma wrapU_id n x : inU n x -> wrapU n x = x.
Proof. unfold wrapU, inU; intros H; apply Z.mod_small; lia. Qed.

Lemma wrapU_range n x : 0 <= n -> inU n (wrapU n x).
Proof. unfold wrapU, inU; intros H; apply Z.mod_pos_bound, Z.pow_pos_nonneg; lia. Qed.

(** equality modulo 2^n decides equality of wraps *)
Lemma wrapS_eqm n x y : 0 < n -> (x - y) mod 2 ^ n = 0 -> wrapS n x = wrapS n y.
Proof.
  intros Hn H. unfold wrapS. f_equal.
  assert (P : 0 < 2 ^ n) by (apply Z.pow_pos_nonneg; lia).
  replace (x + 2 ^ (n - 1)) with (y + 2 ^ (n - 1) + (x - y)) by lia.
  rewrite Zplus_mod, H, Z.add_0_r, Z.mod_mod by lia. reflexivity.
Qed.

Lemma wrapS_mod n x : 0 < n -> (wrapS n x) mod 2 ^ n = x mod 2 ^ n.
Proof.
  intros Hn. unfold wrapS.
  rewrite Zminus_mod_idemp_l. f_equal; lia.
Qed.

Lemma wrapS_wrapS_add n x y : 0 < n -> wrapS n (wrapS n x + y) = wrapS n (x + y).
Proof.
  intros Hn. apply wrapS_eqm; [assumption|].
  replace (wrapS n x + y - (x + y)) with (wrapS n x - x) by lia.
  rewrite Zminus_mod, wrapS_mod by assumption.
  rewrite Z.sub_diag. reflexivity.
Qed.

(** concrete widths used by the code *)
Lemma wrapS16_id x : -32768 <= x <= 32767 -> wrapS 16 x = x.
Proof. intros; apply wrapS_id; [lia|unfold inS; simpl; lia]. Qed.
Lemma wrapS10_id x : -512 <= x <= 511 -> wrapS 10 x = x.
Proof. intros; apply wrapS_id; [lia|unfold inS; simpl; lia]. Qed.
Lemma wrapS16_rg x : -32768 <= wrapS 16 x <= 32767.
Proof. pose proof (wrapS_range 16 x ltac:(lia)) as H; unfold inS in H; simpl in H; lia. Qed.
Lemma wrapS10_rg x : -512 <= wrapS 10 x <= 511.
Proof. pose proof (wrapS_range 10 x ltac:(lia)) as H; unfold inS in H; simpl in H; lia. Qed.
Lemma wrapS16_spec x : exists k, wrapS 16 x = x + 65536 * k.
Proof.
  unfold wrapS. change (2 ^ (16 - 1)) with 32768. change (2 ^ 16) with 65536.
  exists (- ((x + 32768) / 65536)). pose proof (Z.div_mod (x + 32768) 65536). lia.
Qed.
Lemma wrapS10_spec x : exists k, wrapS 10 x = x + 1024 * k.
Proof.
  unfold wrapS. change (2 ^ (10 - 1)) with 512. change (2 ^ 10) with 1024.
  exists (- ((x + 512) / 1024)). pose proof (Z.div_mod (x + 512) 1024). lia.
Qed.

(** ** monad *)
Lemma bind_Ok {A B} (x : res A) (f : A -> res B) b :
  bind x f = Ok b <-> exists a, x = Ok a /\ f a = Ok b.
Proof.
  destruct x as [a|k]; simpl; split.
  - intros H; exists a; auto.
  - intros (a' & E & H); inversion E; subst; exact H.
  - discriminate.
  - intros (a' & E & H); discriminate.
Qed.

Lemma mapM_Ok {A B} (f : A -> res B) g l :
  (forall x, In x l -> f x = Ok (g x)) -> mapM f l = Ok (map g l).
Proof.
  induction l as [|x l IH]; simpl; intros H; [reflexivity|].
  rewrite (H x (or_introl eq_refl)); simpl. rewrite IH; [reflexivity|].
  intros y Hy; apply H; right; exact Hy.
Qed.

Lemma mapM_Ok_inv {A B} (f : A -> res B) l r :
  mapM f l = Ok r -> Forall2 (fun x y => f x = Ok y) l r.
Proof.
  revert r; induction l as [|x l IH]; simpl; intros r H.
  - inversion H; constructor.
  - destruct (f x) as [y|k] eqn:E; simpl in H; [|discriminate].
    destruct (mapM f l) as [ys|k] eqn:E2; simpl in H; [|discriminate].
    inversion H; subst. constructor; auto.
Qed.

Lemma mapM_ext {A B} (f g : A -> res B) l :
  (forall x, In x l -> f x = g x) -> mapM f l = mapM g l.
Proof.
  induction l as [|x l IH]; simpl; intros H; [reflexivity|].
  rewrite (H x (or_introl eq_refl)), IH; [reflexivity|]. intros; apply H; right; assumption.
Qed.

Lemma foldM_Ok {A S} (f : S -> A -> res S) (g : S -> A -> S) (P : S -> Prop) l s :
  P s -> (forall s x, P s -> In x l -> f s x = Ok (g s x) /\ P (g s x)) ->
  foldM f l s = Ok (fold_left g l s) /\ P (fold_left g l s).
Proof.
  revert s; induction l as [|x l IH]; simpl; intros s Hs H; [auto|].
  destruct (H s x Hs (or_introl eq_refl)) as [E1 E2]. rewrite E1; simpl.
  apply IH; [assumption|]. intros; apply H; auto.
Qed.

Lemma foldM_app {A S} (f : S -> A -> res S) l1 l2 s :
  foldM f (l1 ++ l2) s = do s' <- foldM f l1 s; foldM f l2 s'.
Proof.
  revert s; induction l1 as [|x l IH]; simpl; intros s; [reflexivity|].
  destruct (f s x); simpl; auto.
Qed.

Lemma i32_Ok x : -2147483648 <= x <= 2147483647 -> i32 x = Ok x.
Proof.
  intros H; unfold i32.
  destruct (Z.leb_spec (-2147483648) x); [|lia]. destruct (Z.leb_spec x 2147483647); [|lia]. reflexivity.
Qed.
Lemma i32_inv x y : i32 x = Ok y -> y = x /\ -2147483648 <= x <= 2147483647.
Proof.
  unfold i32; destruct (Z.leb_spec (-2147483648) x), (Z.leb_spec x 2147483647); simpl; intros E; inversion E; lia.
Qed.

(** ** lists *)
Lemma length_upd {A} (l : list A) i v : length (upd l i v) = length l.
Proof. revert i; induction l as [|x l IH]; intros [|i]; simpl; auto. Qed.

Lemma nth_error_upd_eq {A} (l : list A) i v :
  (i < length l)%nat -> nth_error (upd l i v) i = Some v.
Proof. revert i; induction l as [|x l IH]; intros [|i]; simpl; intros; try lia; auto. apply IH; lia. Qed.

Lemma nth_error_upd_ne {A} (l : list A) i j v :
  i <> j -> nth_error (upd l i v) j = nth_error l j.
Proof. revert i j; induction l as [|x l IH]; intros [|i] [|j]; simpl; intros; try congruence; auto. Qed.

Lemma nth_upd_eq {A} (l : list A) i v d : (i < length l)%nat -> nth i (upd l i v) d = v.
Proof. revert i; induction l as [|x l IH]; intros [|i]; simpl; intros; try lia; auto. apply IH; lia. Qed.
Lemma nth_upd_ne {A} (l : list A) i j v d : i <> j -> nth j (upd l i v) d = nth j l d.
Proof. revert i j; induction l as [|x l IH]; intros [|i] [|j]; simpl; intros; try congruence; auto. Qed.

Lemma upd_app_r {A} (l1 l2 : list A) i v : upd (l1 ++ l2) (length l1 + i) v = l1 ++ upd l2 i v.
Proof. induction l1; simpl; congruence. Qed.
Lemma upd_app_l {A} (l1 l2 : list A) i v : (i < length l1)%nat -> upd (l1 ++ l2) i v = upd l1 i v ++ l2.
Proof. revert i; induction l1; intros [|i]; simpl; intros; try lia; f_equal. apply IHl1; lia. Qed.

Lemma nth_error_ext {A} (l1 l2 : list A) :
  (forall i, nth_error l1 i = nth_error l2 i) -> l1 = l2.
Proof.
  revert l2; induction l1 as [|x l1 IH]; intros [|y l2] H; auto.
  - specialize (H O); discriminate.
  - specialize (H O); discriminate.
  - pose proof (H O) as H0; simpl in H0; inversion H0; subst. f_equal. apply IH. intros i; exact (H (S i)).
Qed.

Lemma nth_error_combine {A B} (l1 : list A) (l2 : list B) i :
  nth_error (combine l1 l2) i =
  match nth_error l1 i, nth_error l2 i with Some a, Some b => Some (a, b) | _, _ => None end.
Proof.
  revert l2 i; induction l1 as [|x l1 IH]; intros [|y l2] [|i]; simpl; auto.
  destruct (nth_error l1 i); reflexivity.
Qed.

Lemma nth_error_seq a n i : nth_error (seq a n) i = if (i <? n)%nat then Some (a + i)%nat else None.
Proof.
  revert a i; induction n as [|n IH]; intros a i.
  - destruct i; reflexivity.
  - destruct i as [|i]; cbn [seq nth_error].
    + change (0 <? S n)%nat with true. cbv iota. f_equal; lia.
    + rewrite IH. change (S i <? S n)%nat with (i <? n)%nat. destruct (i <? n)%nat; [f_equal; lia|reflexivity].
Qed.

Lemma nth_error_lt {A} (l : list A) i : (i < length l)%nat -> exists x, nth_error l i = Some x.
Proof. intros H; destruct (nth_error l i) eqn:E; eauto. apply nth_error_None in E; lia. Qed.

Lemma length_indexed {A} (l : list A) : length (indexed l) = length l.
Proof. unfold indexed; rewrite combine_length, seq_length; lia. Qed.

Lemma nth_error_indexed {A} (l : list A) i :
  nth_error (indexed l) i = option_map (fun x => (i, x)) (nth_error l i).
Proof.
  unfold indexed. rewrite nth_error_combine, nth_error_seq.
  destruct (Nat.ltb_spec i (length l)).
  - destruct (nth_error l i); reflexivity.
  - assert (E : nth_error l i = None) by (apply nth_error_None; lia). rewrite E; reflexivity.
Qed.

Lemma in_indexed {A} (l : list A) i x : In (i, x) (indexed l) <-> nth_error l i = Some x.
Proof.
  split.
  - intros H. apply In_nth_error in H. destruct H as [n H].
    rewrite nth_error_indexed in H. destruct (nth_error l n) eqn:E; simpl in H; inversion H; subst; auto.
  - intros H. eapply nth_error_In with (n := i). rewrite nth_error_indexed, H; reflexivity.
Qed.

Lemma length_mapi {A B} (f : nat -> A -> B) l : length (mapi f l) = length l.
Proof. unfold mapi; rewrite map_length, length_indexed; reflexivity. Qed.

Lemma nth_error_map' {A B} (f : A -> B) l i : nth_error (map f l) i = option_map f (nth_error l i).
Proof. revert i; induction l; intros [|i]; simpl; auto. Qed.

Lemma nth_error_mapi {A B} (f : nat -> A -> B) l i :
  nth_error (mapi f l) i = option_map (f i) (nth_error l i).
Proof.
  unfold mapi. rewrite nth_error_map', nth_error_indexed. destruct (nth_error l i); reflexivity.
Qed.

Lemma indexed_snoc {A} (l : list A) x : indexed (l ++ [x]) = indexed l ++ [(length l, x)].
Proof.
  apply nth_error_ext; intros i. rewrite nth_error_indexed.
  destruct (Nat.lt_ge_cases i (length l)).
  - rewrite !nth_error_app1 by (rewrite ?length_indexed; lia). rewrite nth_error_indexed; reflexivity.
  - rewrite !nth_error_app2 by (rewrite ?length_indexed; lia). rewrite length_indexed.
    destruct (i - length l)%nat eqn:E; simpl; [replace i with (length l) by lia; reflexivity|].
    destruct n; reflexivity.
Qed.

Lemma map_snd_indexed {A} (l : list A) : map snd (indexed l) = l.
Proof.
  apply nth_error_ext; intros i. rewrite nth_error_map', nth_error_indexed. destruct (nth_error l i); reflexivity.
Qed.

Lemma nth_error_nth' {A} (l : list A) i d x : nth_error l i = Some x -> nth i l d = x.
Proof. revert i; induction l; intros [|i]; simpl; intros; try discriminate; [congruence|auto]. Qed.

Lemma rd_Ok {A} (l : list A) i d : (i < length l)%nat -> rd l i = Ok (nth i l d).
Proof.
  intros H; unfold rd. destruct (nth_error_lt l i H) as [x E]. rewrite E. f_equal.
  symmetry; apply nth_error_nth'; assumption.
Qed.
Lemma wr_Ok {A} (l : list A) i v : (i < length l)%nat -> wr l i v = Ok (upd l i v).
Proof. intros H; unfold wr. destruct (Nat.ltb_spec i (length l)); [reflexivity|lia]. Qed.

Lemma Forall_nth_error {A} (P : A -> Prop) l :
  Forall P l <-> (forall i x, nth_error l i = Some x -> P x).
Proof.
  rewrite Forall_forall; split.
  - intros H i x E. apply H. eapply nth_error_In; eauto.
  - intros H x Hx. apply In_nth_error in Hx as [i E]; eauto.
Qed.

Lemma Forall2_nth_error {A B} (R : A -> B -> Prop) l1 l2 :
  Forall2 R l1 l2 <->
  length l1 = length l2 /\ (forall i x y, nth_error l1 i = Some x -> nth_error l2 i = Some y -> R x y).
Proof.
  split.
  - intros H; split; [induction H; simpl; congruence|].
    induction H; intros [|i] a b; simpl; intros; try discriminate; [congruence|eauto].
  - revert l2; induction l1 as [|x l1 IH]; intros [|y l2] [HL H]; simpl in HL; try lia; constructor.
    + apply (H O); reflexivity.
    + apply IH; split; [lia|]. intros i a b; exact (H (S i) a b).
Qed.

Lemma sumZ_app l1 l2 : sumZ (l1 ++ l2) = sumZ l1 + sumZ l2.
Proof. unfold sumZ; induction l1; simpl; lia. Qed.

Lemma sumZ_nonneg l : (forall x, In x l -> 0 <= x) -> 0 <= sumZ l.
Proof.
  unfold sumZ; induction l as [|a l IH]; simpl; intros H; [lia|].
  pose proof (H a (or_introl eq_refl)). assert (0 <= fold_right Z.add 0 l) by (apply IH; intros; apply H; auto). lia.
Qed.
