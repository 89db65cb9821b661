(** Arrays given by a function on indices, and counted loops over them. *)
From Verif Require Import Base BaseFacts.

Definition tab {A} (n : nat) (f : nat -> A) : list A := map f (seq 0 n).

Lemma tab_length {A} n (f : nat -> A) : length (tab n f) = n.
Proof. unfold tab. rewrite map_length, seq_length. reflexivity. Qed.

Lemma nth_error_tab {A} n (f : nat -> A) i : nth_error (tab n f) i = if (i <? n)%nat then Some (f i) else None.
Proof. unfold tab. rewrite nth_error_map', nth_error_seq. destruct (i <? n)%nat; reflexivity. Qed.

Lemma tab_ext {A} n (f g : nat -> A) : (forall i, (i < n)%nat -> f i = g i) -> tab n f = tab n g.
Proof.
  intros H. apply nth_error_ext; intros i. rewrite !nth_error_tab.
  destruct (Nat.ltb_spec i n); [rewrite H by assumption|]; reflexivity.
Qed.

Lemma rd_tab {A} n (f : nat -> A) i : (i < n)%nat -> rd (tab n f) i = Ok (f i).
Proof. intros H. unfold rd. rewrite nth_error_tab. destruct (Nat.ltb_spec i n); [reflexivity|lia]. Qed.

Lemma wr_tab {A} n (f : nat -> A) i v : (i < n)%nat -> wr (tab n f) i v = Ok (tab n (fun j => if (j =? i)%nat then v else f j)).
Proof.
  intros H. rewrite wr_Ok by (rewrite tab_length; assumption). f_equal. apply nth_error_ext; intros j.
  rewrite nth_error_tab. revert i j H. unfold tab. intros i j H.
  assert (E : forall l k, nth_error (upd l k v) j = if (j =? k)%nat then option_map (fun _ => v) (nth_error l j) else nth_error l j).
  { clear. intros l; revert j; induction l as [|x l IH]; intros [|j] [|k]; cbn; try reflexivity.
    - destruct (j =? k)%nat; reflexivity.
    - apply IH. }
  rewrite E, nth_error_map', nth_error_seq. destruct (Nat.ltb_spec j n), (Nat.eqb_spec j i); cbn; reflexivity.
Qed.

(** every list is a table *)
Lemma list_tab {A} (l : list A) d : l = tab (length l) (fun i => nth i l d).
Proof.
  apply nth_error_ext; intros i. rewrite nth_error_tab. destruct (Nat.ltb_spec i (length l)).
  - destruct (nth_error_lt l i H) as [x E]. rewrite E. f_equal. symmetry. apply nth_error_nth. assumption.
  - apply nth_error_None. assumption.
Qed.

Lemma nth_tab {A} n (f : nat -> A) i d : (i < n)%nat -> nth i (tab n f) d = f i.
Proof. intros H. apply nth_error_nth. rewrite nth_error_tab. destruct (Nat.ltb_spec i n); [reflexivity|lia]. Qed.

Lemma map_tab {A B} n (f : nat -> A) (g : A -> B) : map g (tab n f) = tab n (fun i => g (f i)).
Proof. unfold tab. rewrite map_map. reflexivity. Qed.

Lemma tab_repeat {A} n (x : A) : tab n (fun _ => x) = repeat x n.
Proof. unfold tab. generalize 0%nat. induction n as [|n IH]; intros k; cbn; [reflexivity|]. f_equal. apply IH. Qed.

Lemma tab_S {A} n (f : nat -> A) : tab (S n) f = tab n f ++ [f n].
Proof. unfold tab. rewrite seq_S, map_app. reflexivity. Qed.

(** a counted loop follows a family of states *)
Lemma foldM_states {T} (f : T -> nat -> res T) (st : nat -> T) a n :
  (forall k, (a <= k < a + n)%nat -> f (st k) k = Ok (st (k + 1)%nat)) ->
  foldM f (seq a n) (st a) = Ok (st (a + n)%nat).
Proof.
  revert a; induction n as [|n IH]; intros a H; cbn [seq foldM].
  - replace (a + 0)%nat with a by lia. reflexivity.
  - rewrite H by lia. cbn [bind]. replace (a + 1)%nat with (S a) by lia.
    rewrite IH by (intros k Hk; apply H; lia). f_equal. f_equal. lia.
Qed.

Lemma foldM_states0 {T} (f : T -> nat -> res T) (st : nat -> T) n s0 s1 :
  s0 = st 0%nat -> s1 = st n ->
  (forall k, (k < n)%nat -> f (st k) k = Ok (st (k + 1)%nat)) ->
  foldM f (seq 0 n) s0 = Ok s1.
Proof. intros -> -> H. apply (foldM_states f st 0 n). intros k Hk. apply H. lia. Qed.

Ltac natcases := repeat match goal with
  | |- context [(?a <? ?b)%nat] => destruct (Nat.ltb_spec a b)
  | |- context [(?a =? ?b)%nat] => destruct (Nat.eqb_spec a b)
  end; subst; try lia; try reflexivity.
