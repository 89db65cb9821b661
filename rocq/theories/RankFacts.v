(** Insertion sort satisfies the specification of SpecSort. *)
From Coq Require Import Permutation Sorted.
From Verif Require Import Base BaseFacts SortFacts SpecSort.

Definition cmp (later : bool) (a b : Z) : bool := if later then a <=? b else a <? b.
Definition rins {T} (later : bool) (pt : T -> Z) (acc : list T) (x : T) : list T :=
  ins (fun o => cmp later (pt o) (pt x)) x acc.
Definition rsort {T} (later : bool) (pt : T -> Z) (input : list T) : list T := fold_left (rins later pt) input [].

Lemma rsort_map {A B} later (f : A -> B) pa pb input : (forall y, pb (f y) = pa y) ->
  rsort later pb (map f input) = map f (rsort later pa input).
Proof.
  intros H. unfold rsort.
  assert (G : forall l, fold_left (rins later pb) (map f input) (map f l) = map f (fold_left (rins later pa) input l)).
  { induction input as [|x input IH]; intros l; cbn [map fold_left]; [reflexivity|].
    unfold rins at 2 4. rewrite (ins_map f (fun o => cmp later (pa o) (pa x))); [apply IH|]. intros y. rewrite !H. reflexivity. }
  apply (G []).
Qed.

Lemma rsort_perm {T} later (pt : T -> Z) input : Permutation (rsort later pt input) input.
Proof.
  assert (H : forall l, Permutation (fold_left (rins later pt) input l) (input ++ l)).
  { induction input as [|x input IH]; intros l; cbn [fold_left app]; [reflexivity|].
    rewrite IH. unfold rins. rewrite ins_perm. symmetry; apply Permutation_middle. }
  unfold rsort. rewrite H, app_nil_r. reflexivity.
Qed.

Definition rk {T} (later : bool) (pt : T -> Z) (a b : nat * T) : Prop :=
  pt (snd b) < pt (snd a) \/ (pt (snd a) = pt (snd b) /\ if later then (fst b < fst a)%nat else (fst a < fst b)%nat).

Lemma rins_sorted {T} later (pt : T -> Z) n x l :
  (forall p, In p l -> (fst p < n)%nat) -> StronglySorted (rk later pt) l ->
  StronglySorted (rk later pt) (rins later (fun p => pt (snd p)) l (n, x)).
Proof.
  intros Hn HS. induction HS as [|a l HS IH HF]; [repeat constructor|].
  unfold rins in *. cbn [ins]. destruct (cmp later (pt (snd a)) (pt (snd (n, x)))) eqn:E; cbn [snd] in *.
  - constructor; [constructor; assumption|]. rewrite Forall_forall in *. intros b [<-|Hb].
    + unfold rk; cbn [fst snd]. pose proof (Hn a (or_introl eq_refl)). unfold cmp in E. destruct later; [|lia].
      destruct (Z.eq_dec (pt (snd a)) (pt x)); lia.
    + specialize (HF b Hb). pose proof (Hn b (or_intror Hb)). unfold rk in *; cbn [fst snd]. unfold cmp in E.
      destruct later; [|lia]. destruct (Z.eq_dec (pt (snd b)) (pt x)); lia.
  - constructor; [apply IH; intros; apply Hn; right; assumption|].
    rewrite Forall_forall in *. intros b Hb. apply in_ins in Hb as [->|Hb]; [|auto].
    unfold rk; cbn [fst snd]. pose proof (Hn a (or_introl eq_refl)). unfold cmp in E. destruct later; [lia|].
    destruct (Z.eq_dec (pt (snd a)) (pt x)); lia.
Qed.

Lemma rsort_ranked {T} later (pt : T -> Z) input :
  StronglySorted (rk later pt) (rsort later (fun p => pt (snd p)) (indexed input)).
Proof.
  induction input as [|x input IH] using rev_ind; [constructor|].
  unfold rsort in *. rewrite indexed_snoc, fold_left_app. cbn [fold_left]. apply rins_sorted; [|assumption].
  intros [i y] Hp. assert (Hin : In (i, y) (indexed input)).
  { eapply Permutation_in; [apply (rsort_perm later (fun p => pt (snd p)))|]. exact Hp. }
  apply in_indexed in Hin. cbn. apply nth_error_Some. congruence.
Qed.

Lemma map_fst_indexed {A} (l : list A) : map fst (indexed l) = seq 0 (length l).
Proof.
  apply nth_error_ext; intros i. rewrite nth_error_map', nth_error_indexed, nth_error_seq.
  destruct (Nat.ltb_spec i (length l)) as [H|H].
  - destruct (nth_error_lt l i H) as [x Hx]. rewrite Hx. reflexivity.
  - apply nth_error_None in H. rewrite H. reflexivity.
Qed.

Lemma StronglySorted_map {A B} (f : A -> B) (R : A -> A -> Prop) (R' : B -> B -> Prop) l :
  (forall a b, In a l -> In b l -> R a b -> R' (f a) (f b)) -> StronglySorted R l -> StronglySorted R' (map f l).
Proof.
  intros H HS. induction HS as [|a l HS IH HF]; cbn [map]; constructor.
  - apply IH. intros; apply H; auto; right; assumption.
  - rewrite Forall_forall in *. intros b Hb. apply in_map_iff in Hb as (b0 & <- & Hb0).
    apply H; [left; reflexivity|right; assumption|apply HF; assumption].
Qed.

Lemma top_n_rsort {T} later (pt : T -> Z) n input : top_n pt later n input (firstn n (rsort later pt input)).
Proof.
  set (r := rsort later (fun p => pt (snd p)) (indexed input)).
  assert (Hin : forall i x, In (i, x) r -> nth_error input i = Some x).
  { intros i x H. apply in_indexed. eapply Permutation_in; [apply rsort_perm|exact H]. }
  exists (map fst r). split; [|split].
  - rewrite <- map_fst_indexed. apply Permutation_map. apply rsort_perm.
  - eapply StronglySorted_map; [|apply rsort_ranked]. intros [i x] [j y] Ha Hb Hr.
    exists x, y. split; [apply Hin; assumption|]. split; [apply Hin; assumption|]. exact Hr.
  - assert (E : rsort later pt input = map snd r).
    { unfold r. rewrite <- (rsort_map later snd (fun p => pt (snd p)) pt (indexed input)) by reflexivity.
      rewrite map_snd_indexed. reflexivity. }
    rewrite E, !firstn_map.
    assert (G : forall l, (forall p, In p l -> In p r) -> Forall2 (fun i x => nth_error input i = Some x) (map fst l) (map snd l)).
    { induction l as [|[i x] l IH]; intros Hl; cbn; constructor.
      - apply Hin. apply Hl. left; reflexivity.
      - apply IH. intros; apply Hl; right; assumption. }
    apply G. intros p Hp. rewrite <- (firstn_skipn n r). apply in_or_app. left; assumption.
Qed.

(** the specification determines the output *)
Lemma top_n_unique {T} (pt : T -> Z) later n input o1 o2 :
  top_n pt later n input o1 -> top_n pt later n input o2 -> o1 = o2.
Proof.
  intros (i1 & P1 & S1 & F1) (i2 & P2 & S2 & F2).
  assert (E : i1 = i2).
  { assert (P : Permutation i1 i2) by (rewrite P1, P2; reflexivity). clear P1 P2 F1 F2. revert i2 P S2.
    induction S1 as [|a l1 S1 IH HF]; intros i2 P S2.
    - apply Permutation_nil in P. symmetry; assumption.
    - destruct i2 as [|b l2]; [symmetry in P; apply Permutation_nil in P; discriminate|].
      assert (a = b).
      { destruct (Nat.eq_dec a b) as [|N]; [assumption|]. exfalso.
        assert (Ha : In a l2). { assert (In a (b :: l2)) by (eapply Permutation_in; [exact P|left; reflexivity]). destruct H; congruence. }
        assert (Hb : In b l1). { assert (In b (a :: l1)) by (eapply Permutation_in; [symmetry; exact P|left; reflexivity]). destruct H; congruence. }
        rewrite Forall_forall in HF. specialize (HF b Hb) as (x & y & Hx & Hy & Hxy).
        inversion S2 as [|? ? _ HF2]; subst. rewrite Forall_forall in HF2. specialize (HF2 a Ha) as (y' & x' & Hy' & Hx' & Hyx).
        assert (x' = x) by congruence. assert (y' = y) by congruence. subst. destruct later; lia. }
      subst b. f_equal. apply Permutation_cons_inv in P. apply IH; [assumption|]. inversion S2; assumption. }
  subst i2. clear - F1 F2. revert o2 F2. induction F1 as [|i x l o H F IH]; intros o2 F2; inversion F2; subst; [reflexivity|].
  f_equal; [congruence|]. apply IH. assumption.
Qed.
