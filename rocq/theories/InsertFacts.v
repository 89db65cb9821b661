(** Lists with one extra element: [l1 ++ x :: l2] versus [l1 ++ l2]. *)
From Verif Require Import Base BaseFacts SpecLink SpecPF LinkFacts MapiFacts.

Definition skip (n i : nat) : nat := if (i <? n)%nat then i else S i.

Lemma skip_ne n i : skip n i <> n.
Proof. unfold skip. destruct (Nat.ltb_spec i n); lia. Qed.
Lemma skip_inj n i j : skip n i = skip n j <-> i = j.
Proof. unfold skip. destruct (Nat.ltb_spec i n), (Nat.ltb_spec j n); split; lia. Qed.
Lemma skip_mono n i j : (skip n i <= skip n j <-> i <= j)%nat.
Proof. unfold skip. destruct (Nat.ltb_spec i n), (Nat.ltb_spec j n); split; lia. Qed.
Lemma skip_cases n j : j = n \/ exists i, j = skip n i.
Proof.
  destruct (Nat.lt_trichotomy j n) as [H|[H|H]]; [right; exists j|left; assumption|right; exists (j - 1)%nat]; unfold skip.
  - destruct (Nat.ltb_spec j n); lia.
  - destruct (Nat.ltb_spec (j - 1) n); lia.
Qed.
Lemma opt_is_skip n o i : opt_is (option_map (skip n) o) (skip n i) = opt_is o i.
Proof.
  destruct o as [k|]; [|reflexivity]. cbn. pose proof (skip_inj n k i).
  destruct (Nat.eqb_spec (skip n k) (skip n i)), (Nat.eqb_spec k i); tauto.
Qed.
Lemma opt_is_skip_n n o : opt_is (option_map (skip n) o) n = false.
Proof. destruct o as [k|]; [|reflexivity]. cbn. apply Nat.eqb_neq. apply skip_ne. Qed.

Lemma nth_error_skip {A} (l1 l2 : list A) x i : nth_error (l1 ++ x :: l2) (skip (length l1) i) = nth_error (l1 ++ l2) i.
Proof.
  unfold skip. destruct (Nat.ltb_spec i (length l1)).
  - rewrite !nth_error_app1 by assumption. reflexivity.
  - rewrite !nth_error_app2 by lia. replace (S i - length l1)%nat with (S (i - length l1)) by lia. reflexivity.
Qed.
Lemma nth_error_mid {A} (l1 l2 : list A) x : nth_error (l1 ++ x :: l2) (length l1) = Some x.
Proof. rewrite nth_error_app2 by lia. rewrite Nat.sub_diag. reflexivity. Qed.

Lemma best_skip a b : best (a ++ None :: b) = option_map (skip (length a)) (best (a ++ b)).
Proof.
  destruct (best (a ++ b)) as [i|] eqn:E; cbn [option_map].
  - apply best_spec. apply best_spec in E as (v & Hv & HM). exists v. rewrite nth_error_skip. split; [assumption|].
    intros j w Hj. destruct (skip_cases (length a) j) as [->|[j' ->]]; [rewrite nth_error_mid in Hj; discriminate|].
    rewrite nth_error_skip in Hj. rewrite skip_mono. eauto.
  - apply best_None. apply best_None in E. intros (j & w & Hj). apply E.
    destruct (skip_cases (length a) j) as [->|[j' ->]]; [rewrite nth_error_mid in Hj; discriminate|].
    rewrite nth_error_skip in Hj. exists j', w; assumption.
Qed.
Lemma best_insert a c b : best (a ++ c :: b) = option_map (skip (length a)) (best (a ++ b)) \/ best (a ++ c :: b) = Some (length a).
Proof.
  destruct (best (a ++ c :: b)) as [k|] eqn:E.
  - destruct (skip_cases (length a) k) as [->|[j ->]]; [right; reflexivity|left]. apply best_spec in E as (v & Hv & HM). rewrite nth_error_skip in Hv.
    assert (B : best (a ++ b) = Some j); [|rewrite B; reflexivity]. apply best_spec. exists v. split; [assumption|].
    intros i w Hi. rewrite <- (skip_mono (length a)). apply (HM (skip (length a) i)). rewrite nth_error_skip. exact Hi.
  - left. apply best_None in E. destruct (best (a ++ b)) as [j|] eqn:B; [|reflexivity]. exfalso. apply E.
    apply best_spec in B as (v & Hv & _). exists (skip (length a) j), v. rewrite nth_error_skip. exact Hv.
Qed.

Lemma mapi_app {A B} (f : nat -> A -> B) l1 l2 : mapi f (l1 ++ l2) = mapi f l1 ++ mapi (fun i => f (length l1 + i)%nat) l2.
Proof.
  apply nth_error_ext; intros i. destruct (Nat.lt_ge_cases i (length l1)).
  - rewrite nth_error_app1 by (rewrite length_mapi; assumption). rewrite !nth_error_mapi, nth_error_app1 by assumption. reflexivity.
  - rewrite nth_error_app2 by (rewrite length_mapi; assumption). rewrite length_mapi, !nth_error_mapi, nth_error_app2 by assumption.
    replace (length l1 + (i - length l1))%nat with i by lia. reflexivity.
Qed.
Lemma mapi_cons {A B} (f : nat -> A -> B) x l : mapi f (x :: l) = f 0%nat x :: mapi (fun i => f (S i)) l.
Proof. apply nth_error_ext; intros [|i]; rewrite nth_error_mapi; [reflexivity|]. cbn [nth_error]. rewrite nth_error_mapi. reflexivity. Qed.

(** the two halves of a list mapped with skipped indices *)
Lemma mapi_insert {A B} (f : nat -> A -> B) l1 x l2 : exists a b, length a = length l1 /\ length b = length l2 /\
  mapi f (l1 ++ x :: l2) = a ++ f (length l1) x :: b /\
  mapi (fun i => f (skip (length l1) i)) (l1 ++ l2) = a ++ b.
Proof.
  exists (mapi f l1), (mapi (fun i => f (S (length l1 + i))) l2). rewrite !length_mapi. split; [reflexivity|]. split; [reflexivity|]. split.
  - rewrite mapi_app, mapi_cons. f_equal. f_equal; [rewrite Nat.add_0_r; reflexivity|].
    apply mapi_ext_in. intros i y _. rewrite Nat.add_succ_r. reflexivity.
  - rewrite mapi_app. f_equal; apply mapi_ext_in; intros i y Hi; unfold skip.
    + assert (i < length l1)%nat by (apply nth_error_Some; congruence). destruct (Nat.ltb_spec i (length l1)); [reflexivity|lia].
    + destruct (Nat.ltb_spec (length l1 + i) (length l1)); [lia|reflexivity].
Qed.

Lemma sum_where_insert {A} sel (f : A -> Z) l1 x l2 :
  sum_where sel f (l1 ++ x :: l2) = sum_where (fun i => sel (skip (length l1) i)) f (l1 ++ l2) + (if sel (length l1) x then f x else 0).
Proof.
  unfold sum_where. destruct (mapi_insert (fun i y => if sel i y then f y else 0) l1 x l2) as (a & b & _ & _ & -> & E).
  rewrite E, !sumZ_app. change (sumZ ((if sel (length l1) x then f x else 0) :: b)) with ((if sel (length l1) x then f x else 0) + sumZ b). lia.
Qed.

Lemma Forall_insert {A} (P : A -> Prop) l1 x l2 : Forall P (l1 ++ x :: l2) <-> P x /\ Forall P (l1 ++ l2).
Proof. rewrite !Forall_app. split; [intros [H1 H2]; inversion H2; subst; auto|intros [H1 [H2 H3]]; auto]. Qed.
