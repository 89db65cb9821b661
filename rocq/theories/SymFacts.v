(** Reordered lists: best candidates, sums and sorted outputs. *)
From Coq Require Import Permutation Sorting.Sorted.
From Verif Require Import Base BaseFacts Data SpecLink LinkFacts SpecSort RankFacts MapiFacts SpecPF SpecSym.

Section reorder.
Variables (p : nat -> nat) (n : nat).
Hypothesis HP : Permutation (map p (seq 0 n)) (seq 0 n).
Lemma p_lt j : (j < n)%nat -> (p j < n)%nat.
Proof. intros H. assert (I : In (p j) (seq 0 n)) by (eapply Permutation_in; [exact HP|apply in_map, in_seq; lia]). apply in_seq in I. lia. Qed.
Lemma p_inj i j : (i < n)%nat -> (j < n)%nat -> p i = p j -> i = j.
Proof.
  intros Hi Hj E. assert (ND : NoDup (map p (seq 0 n))) by (eapply Permutation_NoDup; [symmetry; exact HP|apply seq_NoDup]).
  rewrite (NoDup_nth _ (p 0)) in ND. rewrite map_length, seq_length in ND. apply ND; [assumption|assumption|]. rewrite !map_nth, !seq_nth by assumption. exact E.
Qed.
Lemma p_onto i : (i < n)%nat -> exists j, (j < n)%nat /\ p j = i.
Proof.
  intros H. assert (I : In i (map p (seq 0 n))) by (eapply Permutation_in; [symmetry; exact HP|apply in_seq; lia]). apply in_map_iff in I as (j & E & J). apply in_seq in J. exists j. split; [lia|exact E].
Qed.
(** [b'] is the choice that corresponds to [b] *)
Definition chosen (b b' : option nat) : Prop :=
  match b, b' with None, None => True | Some i, Some j => p j = i /\ (j < n)%nat | _, _ => False end.
Lemma chosen_is b b' k : chosen b b' -> (k < n)%nat -> opt_is b' k = opt_is b (p k).
Proof.
  intros C H. destruct b as [i|], b' as [j|]; cbn in *; try tauto. destruct C as (<- & J). destruct (Nat.eqb_spec j k) as [->|N]; [symmetry; apply Nat.eqb_refl|]. symmetry. apply Nat.eqb_neq. intros E. apply N. apply p_inj; assumption.
Qed.
Lemma chosen_None b b' : chosen b b' -> match b' with Some _ => true | None => false end = match b with Some _ => true | None => false end.
Proof. destruct b, b'; cbn; tauto. Qed.
Lemma best_chosen c c' : length c = n -> length c' = n -> (forall j, (j < n)%nat -> nth_error c' j = nth_error c (p j)) -> winner_first p c -> chosen (best c) (best c').
Proof.
  intros L L' E U. destruct (best c) as [i|] eqn:B.
  - pose proof (best_lt _ _ B) as Hi. rewrite L in Hi. apply best_spec in B. destruct (p_onto i Hi) as (j & Hj & Ej).
    assert (IB : is_best c' j).
    { pose proof B as (v & V & W). exists v. split; [rewrite E, Ej by assumption; exact V|]. intros k w K. assert (Hk : (k < n)%nat) by (rewrite <- L'; apply nth_error_Some; congruence). rewrite E in K by assumption.
      destruct (W _ _ K) as [|(-> & _)]; [left; assumption|]. right. split; [reflexivity|]. destruct (Nat.le_gt_cases j k) as [|KJ]; [assumption|]. exfalso. subst i. apply (U k j KJ); [lia|exact B|congruence]. }
    apply best_spec in IB. rewrite IB. split; assumption.
  - apply best_None in B. destruct (best c') as [j|] eqn:B'; [|exact I]. exfalso. apply B. apply best_spec in B'. destruct B' as (v & V & _). assert (Hj : (j < n)%nat) by (rewrite <- L'; apply nth_error_Some; congruence). rewrite E in V by assumption. exists (p j), v. exact V.
Qed.
Lemma perm_pick {A} (l : list A) : length l = n -> Permutation (map (fun j => nth_error l (p j)) (seq 0 n)) (map Some l).
Proof.
  intros L. assert (E : map Some l = map (nth_error l) (seq 0 n)).
  { apply nth_error_ext. intros j. rewrite !nth_error_map', nth_error_seq. subst n. destruct (Nat.ltb_spec j (length l)) as [H|H]; [destruct (nth_error_lt l j H) as (x & X); rewrite X; cbn; rewrite X; reflexivity|]. apply nth_error_None in H. rewrite H. reflexivity. }
  rewrite E. rewrite <- (map_map p (nth_error l)). apply Permutation_map. exact HP.
Qed.
(** lists whose elements correspond *)
Lemma perm_corr {A B} (g : nat -> A -> B) (h : nat -> A -> B) (l l' : list A) : length l = n -> length l' = n ->
  (forall j y, nth_error l' j = Some y -> exists x, nth_error l (p j) = Some x /\ h j y = g (p j) x) -> Permutation (mapi h l') (mapi g l).
Proof.
  intros L L' C. assert (E : map Some (mapi h l') = map (fun j => nth_error (mapi g l) (p j)) (seq 0 n)).
  { apply nth_error_ext. intros j. rewrite !nth_error_map', nth_error_mapi, nth_error_seq. destruct (nth_error l' j) as [y|] eqn:Y.
    - assert (Hj : (j < n)%nat) by (rewrite <- L'; apply nth_error_Some; congruence). apply Nat.ltb_lt in Hj. rewrite Hj. destruct (C _ _ Y) as (x & X & H). cbn. rewrite nth_error_mapi, X. cbn. rewrite H. reflexivity.
    - apply nth_error_None in Y. rewrite L' in Y. apply Nat.ltb_ge in Y. rewrite Y. reflexivity. }
  assert (P : Permutation (map Some (mapi h l')) (map Some (mapi g l))) by (rewrite E; apply perm_pick; rewrite length_mapi; exact L).
  apply (Permutation_map (fun o => match o with Some x => [x] | None => [] end)) in P. rewrite !map_map in P.
  assert (F : forall X (m : list X), List.concat (map (fun x => [x]) m) = m) by (intros X m; induction m as [|x m IH]; [reflexivity|cbn; rewrite IH; reflexivity]).
  rewrite <- (F _ (mapi h l')), <- (F _ (mapi g l)). clear - P. induction P; cbn; [reflexivity|apply Permutation_app_head; assumption|rewrite !app_assoc; apply Permutation_app_tail, Permutation_app_comm|etransitivity; eassumption].
Qed.
Lemma sum_corr {A} (sel sel' : nat -> A -> bool) (f : A -> Z) (l l' : list A) : length l = n -> length l' = n ->
  (forall j y, nth_error l' j = Some y -> exists x, nth_error l (p j) = Some x /\ sel' j y = sel (p j) x /\ f y = f x) -> sum_where sel' f l' = sum_where sel f l.
Proof.
  intros L L' C. unfold sum_where. assert (S : forall a b, Permutation a b -> sumZ a = sumZ b) by (induction 1; cbn in *; unfold sumZ in *; cbn in *; lia).
  apply S. apply perm_corr; [exact L|exact L'|]. intros j y Y. destruct (C j y Y) as (x & X & -> & ->). exists x. split; [exact X|reflexivity].
Qed.
End reorder.

Lemma in_order_first p n c : in_order p n -> length c = n -> winner_first p c.
Proof. intros O L j k JK K (v & V & W) E. rewrite !O in * by lia. rewrite V in E. destruct (W _ _ E) as [|(_ & C)]; lia. Qed.
(** a reordering that keeps the order of equal elements *)
Definition stable {A} (l : list A) (p : nat -> nat) : Prop := forall j k, (j < k)%nat -> (k < length l)%nat -> nth_error l (p j) = nth_error l (p k) -> (p j < p k)%nat.
Lemma stable_first {A} (l : list A) p c : stable l p -> length c = length l -> untied l c -> winner_first p c.
Proof.
  intros S L U j k JK K B E. pose proof (U _ _ B E) as Q. specialize (S j k JK ltac:(lia) Q). destruct B as (v & V & W). rewrite V in E. destruct (W _ _ E) as [|(_ & C)]; lia.
Qed.
Section stable_perm.
Context {A : Type} (eqd : forall x y : A, {x = y} + {x <> y}).
Lemma split_first (y : A) l : In y l -> exists a b, l = a ++ y :: b /\ ~ In y a.
Proof.
  induction l as [|x l IH]; [intros []|]. intros I. destruct (eqd x y) as [->|N]; [exists [], l; split; [reflexivity|intros []]|]. destruct I as [|I]; [congruence|]. destruct (IH I) as (a & b & -> & F). exists (x :: a), b. split; [reflexivity|]. intros [|]; tauto.
Qed.
Lemma stable_perm (l' l : list A) : Permutation l l' ->
  exists p, (forall j, (j < length l)%nat -> (p j < length l)%nat /\ nth_error l' j = nth_error l (p j)) /\ (forall i j, (i < length l)%nat -> (j < length l)%nat -> p i = p j -> i = j) /\ stable l p.
Proof.
  revert l. induction l' as [|y l' IH]; intros l P.
  - symmetry in P. apply Permutation_nil in P. subst l. exists (fun j => j). cbn. split; [intros; lia|]. split; [intros; lia|]. intros j k _ K. cbn in K. lia.
  - destruct (split_first y l) as (a & b & -> & F); [eapply Permutation_in; [symmetry; exact P|left; reflexivity]|].
    assert (P' : Permutation (a ++ b) l') by (symmetry; eapply Permutation_cons_app_inv; symmetry; exact P).
    destruct (IH _ P') as (q & Q1 & Q2 & Q3). set (s := fun i => if (i <? length a)%nat then i else S i).
    assert (SN : forall i, nth_error (a ++ y :: b) (s i) = nth_error (a ++ b) i).
    { intros i. unfold s. destruct (Nat.ltb_spec i (length a)) as [H|H]; [rewrite !nth_error_app1 by exact H; reflexivity|]. rewrite !nth_error_app2 by lia. replace (S i - length a)%nat with (S (i - length a)) by lia. reflexivity. }
    assert (SL : forall i, s i <> length a /\ (s i <= S i)%nat) by (intros i; unfold s; destruct (Nat.ltb_spec i (length a)); lia).
    assert (SM : forall i j, (i < j)%nat -> (s i < s j)%nat) by (intros i j H; unfold s; destruct (Nat.ltb_spec i (length a)), (Nat.ltb_spec j (length a)); lia).
    assert (LL : length (a ++ y :: b) = S (length (a ++ b))) by (rewrite !app_length; cbn; lia).
    exists (fun j => match j with O => length a | S j => s (q j) end). rewrite LL. split; [|split].
    + intros [|j] J.
      * split; [rewrite app_length; lia|]. rewrite nth_error_app2 by lia. rewrite Nat.sub_diag. reflexivity.
      * destruct (Q1 j ltac:(lia)) as (B & E). split; [pose proof (SL (q j)); lia|]. rewrite SN. exact E.
    + intros [|i] [|j] I J E; [reflexivity|exfalso; apply (proj1 (SL (q j))); lia|exfalso; apply (proj1 (SL (q i))); lia|]. f_equal. apply Q2; [lia|lia|].
      destruct (Nat.lt_trichotomy (q i) (q j)) as [H|[H|H]]; [apply SM in H; lia|exact H|apply SM in H; lia].
    + intros [|j] [|k] JK K E; [lia| |lia|].
      * rewrite nth_error_app2, Nat.sub_diag in E by lia. cbn in E. rewrite SN in E. unfold s. destruct (Nat.ltb_spec (q k) (length a)) as [H|H]; [|lia]. exfalso. apply F. rewrite nth_error_app1 in E by exact H. symmetry in E. eapply nth_error_In; exact E.
      * rewrite !SN in E. apply SM, Q3; [lia|lia|exact E].
Qed.
End stable_perm.
