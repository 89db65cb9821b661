(** Both matching algorithms (comparator network of the firmware, running
    minimum of the reference) compute the same "first best candidate". *)
From Verif Require Import Base BaseFacts Data PFHw PFRef SpecLink.

Lemma best_inv cand :
  match best_st cand with
  | (_, None) => forall j w, nth_error cand j <> Some (Some w)
  | (m, Some i) => nth_error cand i = Some (Some m) /\
      forall j w, nth_error cand j = Some (Some w) -> m < w \/ (m = w /\ (i <= j)%nat)
  end.
Proof.
  induction cand as [|c cand IH] using rev_ind.
  - simpl. intros [|j] w; discriminate.
  - unfold best_st in *. rewrite indexed_snoc, fold_left_app. cbn [fold_left].
    destruct (fold_left bstep (indexed cand) (0, None)) as [m [i|]].
    + destruct IH as [Hi Hmin].
      assert (Li : (i < length cand)%nat) by (apply nth_error_Some; congruence).
      destruct c as [v|]; cbn [bstep].
      * destruct (Z.ltb_spec v m).
        -- split; [rewrite nth_error_app2, Nat.sub_diag by lia; reflexivity|].
           intros j w Hj. destruct (Nat.lt_ge_cases j (length cand)).
           ++ rewrite nth_error_app1 in Hj by lia. destruct (Hmin j w Hj); lia.
           ++ rewrite nth_error_app2 in Hj by lia. destruct (j - length cand)%nat eqn:E; cbn in Hj.
              ** inversion Hj; subst; lia.
              ** destruct n; discriminate.
        -- split; [rewrite nth_error_app1 by lia; assumption|].
           intros j w Hj. destruct (Nat.lt_ge_cases j (length cand)).
           ++ rewrite nth_error_app1 in Hj by lia. apply Hmin; assumption.
           ++ rewrite nth_error_app2 in Hj by lia. destruct (j - length cand)%nat eqn:E; cbn in Hj.
              ** inversion Hj; subst; lia.
              ** destruct n; discriminate.
      * split; [rewrite nth_error_app1 by lia; assumption|].
        intros j w Hj. destruct (Nat.lt_ge_cases j (length cand)).
        -- rewrite nth_error_app1 in Hj by lia. apply Hmin; assumption.
        -- rewrite nth_error_app2 in Hj by lia. destruct (j - length cand)%nat as [|n]; cbn in Hj; [discriminate|destruct n; discriminate].
    + destruct c as [v|]; cbn [bstep].
      * split; [rewrite nth_error_app2, Nat.sub_diag by lia; reflexivity|].
        intros j w Hj. destruct (Nat.lt_ge_cases j (length cand)).
        -- rewrite nth_error_app1 in Hj by lia. exfalso; eapply IH; eauto.
        -- rewrite nth_error_app2 in Hj by lia. destruct (j - length cand)%nat as [|n] eqn:E; cbn in Hj; [inversion Hj; lia|destruct n; discriminate].
      * intros j w Hj. destruct (Nat.lt_ge_cases j (length cand)).
        -- rewrite nth_error_app1 in Hj by lia. eapply IH; eauto.
        -- rewrite nth_error_app2 in Hj by lia. destruct (j - length cand)%nat as [|n] eqn:E; cbn in Hj; [discriminate|destruct n; discriminate].
Qed.

Lemma is_best_unique cand i j : is_best cand i -> is_best cand j -> i = j.
Proof.
  intros (v & Hv & Mv) (w & Hw & Mw). specialize (Mv j w Hw). specialize (Mw i v Hv). lia.
Qed.

Lemma best_spec cand i : best cand = Some i <-> is_best cand i.
Proof.
  unfold best. pose proof (best_inv cand) as H. destruct (best_st cand) as [m [k|]]; cbn [snd].
  - destruct H as [H1 H2]. assert (B : is_best cand k) by (exists m; auto).
    split; [intros E; inversion E; subst; assumption|]. intros Bi. f_equal. eapply is_best_unique; eauto.
  - split; [discriminate|]. intros (v & Hv & _). exfalso; eapply H; eauto.
Qed.

Lemma best_None cand : best cand = None <-> ~ some_admissible cand.
Proof.
  unfold best. pose proof (best_inv cand) as H. destruct (best_st cand) as [m [k|]]; cbn [snd].
  - destruct H as [H1 H2]. split; [discriminate|]. intros N. exfalso; apply N. exists k, m; assumption.
  - split; [|reflexivity]. intros _ (j & w & Hj). eapply H; eauto.
Qed.

Lemma best_lt cand i : best cand = Some i -> (i < length cand)%nat.
Proof. intros H. apply best_spec in H as (v & Hv & _). apply nth_error_Some; congruence. Qed.

Lemma best_ext cand cand' : cand = cand' -> best cand = best cand'.
Proof. congruence. Qed.

(** ** running minimum with an initial bound *)
Definition below (M : Z) (c : option Z) : option Z :=
  match c with Some v => if v <? M then Some v else None | None => None end.

Lemma running_min_best M cand :
  snd (fold_left (fun '(m, b) '(i, c) =>
                    match c with
                    | None => (m, b)
                    | Some v => if v <? m then (v, Some i) else (m, b)
                    end) (indexed cand) (M, None)) = best (map (below M) cand).
Proof.
  match goal with |- context [fold_left ?g (indexed cand)] => set (f := g) end.
  assert (H : let s1 := fold_left f (indexed cand) (M, None) in
              let s2 := best_st (map (below M) cand) in
              snd s1 = snd s2 /\ match snd s1 with None => fst s1 = M | Some _ => fst s1 = fst s2 /\ fst s1 < M end).
  { induction cand as [|c cand IH] using rev_ind; [cbn; auto|].
    cbv zeta in *. unfold best_st in *. rewrite map_app. cbn [map]. rewrite !indexed_snoc, !fold_left_app.
    cbn [fold_left]. rewrite map_length.
    destruct (fold_left f (indexed cand) (M, None)) as [m b].
    destruct (fold_left bstep (indexed (map (below M) cand)) (0, None)) as [m' b'].
    cbn [fst snd] in *. destruct IH as [-> IH]. unfold f, bstep, below.
    destruct c as [v|]; [|cbn; auto].
    destruct b' as [k|].
    - destruct IH as [-> Hm]. destruct (Z.ltb_spec v M).
      + destruct (v <? m') eqn:E; cbn; auto.
      + destruct (Z.ltb_spec v m'); [lia|]. cbn; auto.
    - subst m. destruct (Z.ltb_spec v M); cbn; auto. }
  unfold best. apply H.
Qed.

Lemma fold_indexed_map {A B S} (f : S -> nat * B -> S) (g : A -> B) l s :
  fold_left f (indexed (map g l)) s = fold_left (fun s p => f s (fst p, g (snd p))) (indexed l) s.
Proof.
  unfold indexed. rewrite map_length. generalize 0%nat as k. revert s.
  induction l as [|x l IH]; intros s k; [reflexivity|]. cbn [length seq map combine fold_left]. rewrite IH. reflexivity.
Qed.

Lemma fold_left_ext {A S} (f g : S -> A -> S) l s :
  (forall s x, In x l -> f s x = g s x) -> fold_left f l s = fold_left g l s.
Proof.
  revert s; induction l as [|x l IH]; intros s H; [reflexivity|]. cbn [fold_left].
  rewrite (H s x (or_introl eq_refl)). apply IH. intros; apply H; right; assumption.
Qed.

(** ** one-hot masks *)
Definition onehot (n : nat) (b : option nat) : list bool :=
  map (fun i => match b with Some k => (k =? i)%nat | None => false end) (seq 0 n).

Lemma length_onehot n b : length (onehot n b) = n.
Proof. unfold onehot; rewrite map_length, seq_length; reflexivity. Qed.

Lemma nth_onehot n b i : (i < n)%nat ->
  nth i (onehot n b) false = match b with Some k => (k =? i)%nat | None => false end.
Proof.
  intros H. apply nth_error_nth'. unfold onehot. rewrite nth_error_map', nth_error_seq.
  destruct (Nat.ltb_spec i n); [reflexivity|lia].
Qed.

Lemma nth_error_onehot n b i : (i < n)%nat ->
  nth_error (onehot n b) i = Some (match b with Some k => (k =? i)%nat | None => false end).
Proof.
  intros H. unfold onehot. rewrite nth_error_map', nth_error_seq.
  destruct (Nat.ltb_spec i n); [reflexivity|lia].
Qed.

Lemma existsb_onehot n b : (forall k, b = Some k -> (k < n)%nat) ->
  existsb (fun x => x) (onehot n b) = match b with Some _ => true | None => false end.
Proof.
  intros H. destruct b as [k|].
  - apply existsb_exists. exists true. split; [|reflexivity].
    apply nth_error_In with (n := k). rewrite nth_error_onehot by auto. rewrite Nat.eqb_refl; reflexivity.
  - apply not_true_is_false. intros E. apply existsb_exists in E as (x & Hx & Ex). subst.
    unfold onehot in Hx. apply in_map_iff in Hx as (i & E & _). discriminate.
Qed.

Lemma last_set_onehot n b : (forall k, b = Some k -> (k < n)%nat) -> last_set (onehot n b) = b.
Proof.
  unfold last_set, onehot. rewrite fold_indexed_map.
  assert (G : forall b, let r := fold_left (fun s p => if match b with Some k => (k =? snd p)%nat | None => false end then Some (fst p) else s) (indexed (seq 0 n)) None in
          match b with Some k => if (k <? n)%nat then r = b else r = None | None => r = None end).
  { clear. intros b. induction n as [|n IH]; [destruct b; reflexivity|].
    cbv zeta in *. rewrite seq_S. rewrite indexed_snoc, fold_left_app. cbn [fold_left fst snd].
    rewrite seq_length. rewrite Nat.add_0_l. destruct b as [k|]; [|assumption].
    destruct (Nat.eqb_spec k n) as [->|N].
    - destruct (Nat.ltb_spec n (S n)); [reflexivity|lia].
    - destruct (Nat.ltb_spec k n); destruct (Nat.ltb_spec k (S n)); try lia; assumption. }
  intros H. specialize (G b). cbv zeta in G. destruct b as [k|].
  - specialize (H k eq_refl). destruct (Nat.ltb_spec k n); [|lia]. exact G.
  - exact G.
Qed.

(** ** comparator network *)
Lemma fold_and {A} (g : A -> bool) l b : fold_left (fun (x : bool) p => x && g p) l b = b && forallb g l.
Proof.
  revert b; induction l as [|p l IH]; intros b; cbn [fold_left forallb]; [destruct b; reflexivity|].
  rewrite IH. rewrite andb_assoc. reflexivity.
Qed.

Lemma row_onehot (ok : Z -> bool) M vals :
  (forall v, In v vals -> ok v = (v <? M)) ->
  mapi (fun icalo mydr =>
          fold_left (fun (link : bool) '(j, vj) =>
                       if (icalo <=? j)%nat then link && (vj >=? mydr) else link && (vj >? mydr))
                    (indexed vals) (ok mydr)) vals
  = onehot (length vals) (best (map (fun v => cand_if (v <? M) v) vals)).
Proof.
  intros Hok. apply nth_error_ext; intros i. rewrite nth_error_mapi.
  destruct (nth_error vals i) as [v|] eqn:Ev; cbn [option_map].
  2:{ symmetry; apply nth_error_None. rewrite length_onehot. apply nth_error_None; assumption. }
  assert (Hi : (i < length vals)%nat) by (apply nth_error_Some; congruence).
  rewrite nth_error_onehot by assumption. f_equal.
  set (g := fun p : nat * Z => if (i <=? fst p)%nat then snd p >=? v else snd p >? v).
  rewrite (fold_left_ext _ (fun (x : bool) p => x && g p)).
  2:{ intros b [j w] _. unfold g; cbn [fst snd]. destruct (i <=? j)%nat; reflexivity. }
  rewrite fold_and. rewrite (Hok v) by (eapply nth_error_In; eauto).
  set (cand := map _ vals).
  assert (K : (v <? M) && forallb g (indexed vals) = true <-> is_best cand i).
  { rewrite andb_true_iff, forallb_forall. split.
    - intros [Hv Hall]. exists v. split.
      + unfold cand. rewrite nth_error_map', Ev. cbn. unfold cand_if. rewrite Hv; reflexivity.
      + intros j w Hj. unfold cand in Hj. rewrite nth_error_map' in Hj.
        destruct (nth_error vals j) as [u|] eqn:Eu; [|discriminate]. cbn in Hj. unfold cand_if in Hj.
        destruct (u <? M); [|discriminate]. inversion Hj; subst.
        specialize (Hall (j, w)). rewrite in_indexed in Hall. specialize (Hall Eu).
        unfold g in Hall; cbn [fst snd] in Hall. destruct (Nat.leb_spec i j); lia.
    - intros (v' & Hv' & Hmin). unfold cand in Hv'. rewrite nth_error_map', Ev in Hv'. cbn in Hv'. unfold cand_if in Hv'.
      destruct (v <? M) eqn:E; [|discriminate]. inversion Hv'; subst. split; [reflexivity|].
      intros [j w] Hin. apply in_indexed in Hin. unfold g; cbn [fst snd].
      destruct (Z.ltb_spec w M).
      + assert (Hj : nth_error cand j = Some (Some w)).
        { unfold cand. rewrite nth_error_map', Hin. cbn. unfold cand_if. destruct (Z.ltb_spec w M); [reflexivity|lia]. }
        specialize (Hmin j w Hj). destruct (Nat.leb_spec i j); lia.
      + destruct (Nat.leb_spec i j); lia. }
  destruct (best cand) as [k|] eqn:B.
  - destruct (Nat.eqb_spec k i) as [->|N].
    + apply K. apply best_spec; assumption.
    + apply not_true_is_false. intros H. apply K in H. apply best_spec in B. apply N. eapply is_best_unique; eauto.
  - apply not_true_is_false. intros H. apply K in H. apply best_spec in H. congruence.
Qed.

Lemma pick_closest_row_onehot M vals : (forall v, In v vals -> v <= M) ->
  pick_closest_row M vals = onehot (length vals) (best (map (fun v => cand_if (v <? M) v) vals)).
Proof.
  intros H. unfold pick_closest_row. apply (row_onehot (fun v => negb (v =? M)) M).
  intros v Hv. specialize (H v Hv). destruct (Z.eqb_spec v M), (Z.ltb_spec v M); try lia; reflexivity.
Qed.
