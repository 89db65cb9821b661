(** The in-place insertion loops compute ordinary insertion + truncation. *)
From Coq Require Import Permutation Sorted.
From Verif Require Import Base BaseFacts Data PFHw PFRef.

(** [x] is inserted in front of the first element satisfying [c]. *)
Fixpoint ins {T} (c : T -> bool) (x : T) (l : list T) : list T :=
  match l with
  | [] => [x]
  | y :: r => if c y then x :: l else y :: ins c x r
  end.

Section shift.
Context {T : Type}.
Implicit Types (a l : list T) (x y : T).

(** value written at position i *)
Definition newval (c1 c2 : T -> bool) (x : T) (a : list T) (i : nat) (ai : T) : T :=
  if c1 ai then
    match i with
    | O => x
    | S j => match nth_error a j with
             | Some aj => if c2 aj then x else aj
             | None => ai
             end
    end
  else ai.

Lemma shift_body_Ok c1 c2 x a i :
  (i < length a)%nat ->
  exists ai, nth_error a i = Some ai /\
  shift_body c1 c2 x a i = Ok (upd a i (newval c1 c2 x a i ai)).
Proof.
  intros Hi. destruct (nth_error_lt a i Hi) as [ai E]. exists ai; split; [assumption|].
  unfold shift_body. unfold rd at 1. rewrite E. cbn [bind]. unfold newval.
  assert (Eupd : upd a i ai = a).
  { apply nth_error_ext; intros j. destruct (Nat.eq_dec i j) as [->|N].
    - rewrite nth_error_upd_eq by assumption; auto.
    - apply nth_error_upd_ne; assumption. }
  destruct (c1 ai); [|rewrite Eupd; reflexivity].
  destruct i as [|j].
  - apply wr_Ok; assumption.
  - destruct (nth_error_lt a j ltac:(lia)) as [aj Ej]. unfold rd. rewrite Ej. cbn [bind].
    destruct (c2 aj); apply wr_Ok; assumption.
Qed.

Lemma shift_loop_k c1 c2 x k : forall a, (k <= length a)%nat ->
  foldM (shift_body c1 c2 x) (rev (seq 0 k)) a =
  Ok (mapi (fun i ai => if (i <? k)%nat then newval c1 c2 x a i ai else ai) a).
Proof.
  induction k as [|k IH]; intros a Hk.
  - cbn [seq rev foldM]. f_equal. apply nth_error_ext; intros i. rewrite nth_error_mapi.
    change (i <? 0)%nat with false. destruct (nth_error a i); reflexivity.
  - rewrite seq_S. rewrite rev_app_distr. cbn [rev app]. cbn [foldM]. rewrite Nat.add_0_l.
    destruct (shift_body_Ok c1 c2 x a k ltac:(lia)) as (ak & Ek & E). rewrite E. cbn [bind].
    rewrite IH by (rewrite length_upd; lia). f_equal.
    apply nth_error_ext; intros i. rewrite !nth_error_mapi.
    destruct (Nat.eq_dec i k) as [->|Ni].
    + rewrite nth_error_upd_eq by lia. rewrite Ek. cbn [option_map].
      destruct (Nat.ltb_spec k k); [lia|]. destruct (Nat.ltb_spec k (S k)); [|lia]. reflexivity.
    + rewrite nth_error_upd_ne by congruence.
      destruct (nth_error a i) as [ai|] eqn:Ei; [cbn [option_map]|reflexivity].
      destruct (Nat.ltb_spec i k); destruct (Nat.ltb_spec i (S k)); try lia; [|reflexivity].
      unfold newval. destruct i as [|j]; [reflexivity|]. rewrite nth_error_upd_ne by lia. reflexivity.
Qed.

Lemma shift_loop_spec c1 c2 x n a : length a = n ->
  shift_loop c1 c2 x n a = Ok (mapi (newval c1 c2 x a) a).
Proof.
  intros Hn. unfold shift_loop. rewrite shift_loop_k by lia. f_equal.
  apply nth_error_ext; intros i. rewrite !nth_error_mapi.
  destruct (nth_error a i) as [ai|] eqn:Ei; [cbn [option_map]|reflexivity].
  assert (i < length a)%nat by (apply nth_error_Some; congruence).
  destruct (Nat.ltb_spec i n); [reflexivity|lia].
Qed.

(** [c] switches from false to true at most once along the list *)
Definition mono (c : T -> bool) (l : list T) : Prop :=
  forall i j x y, (i <= j)%nat -> nth_error l i = Some x -> nth_error l j = Some y -> c x = true -> c y = true.

Lemma mono_tl c y l : mono c (y :: l) -> mono c l.
Proof. intros H i j a b Hij Ha Hb. apply (H (S i) (S j)); auto; lia. Qed.

Lemma nth_error_ins_true c x l : mono c l -> forall i ai,
  nth_error l i = Some ai -> c ai = true ->
  nth_error (ins c x l) i =
  match i with
  | O => Some x
  | S j => match nth_error l j with
           | Some aj => if c aj then Some aj else Some x
           | None => None
           end
  end.
Proof.
  induction l as [|y l IH]; intros M i ai Ei Ci; [destruct i; discriminate|].
  cbn [ins]. destruct (c y) eqn:Cy.
  - destruct i as [|j]; [reflexivity|]. cbn [nth_error] in *.
    destruct j as [|j]; cbn [nth_error]; [rewrite Cy; reflexivity|].
    destruct (nth_error l j) as [aj|] eqn:Ej; [|reflexivity].
    assert (c aj = true) as ->. { apply (M 0%nat (S j) y aj); auto; lia. }
    reflexivity.
  - destruct i as [|i]; cbn [nth_error] in Ei; [congruence|].
    cbn [nth_error]. rewrite (IH (mono_tl _ _ _ M) i ai Ei Ci).
    destruct i as [|j]; cbn [nth_error]; [rewrite Cy; reflexivity|reflexivity].
Qed.

Lemma nth_error_ins_false c x l : mono c l -> forall i ai,
  nth_error l i = Some ai -> c ai = false -> nth_error (ins c x l) i = Some ai.
Proof.
  induction l as [|y l IH]; intros M i ai Ei Ci; [destruct i; discriminate|].
  cbn [ins]. destruct (c y) eqn:Cy.
  - exfalso. assert (c ai = true); [|congruence]. apply (M 0%nat i y ai); auto; lia.
  - destruct i as [|i]; cbn [nth_error] in *; [assumption|]. apply IH; auto. eapply mono_tl; eauto.
Qed.

Lemma length_ins c x l : length (ins c x l) = S (length l).
Proof. induction l as [|y l IH]; simpl; [reflexivity|]. destruct (c y); simpl; auto. Qed.

Lemma nth_error_firstn {A} (l : list A) n i :
  nth_error (firstn n l) i = if (i <? n)%nat then nth_error l i else None.
Proof.
  revert l i; induction n as [|n IH]; intros [|x l] [|i]; cbn [firstn nth_error]; try reflexivity.
  - destruct (S i <? S n)%nat; reflexivity.
  - rewrite IH. reflexivity.
Qed.

Lemma shift_loop_ins c1 c2 x n a : length a = n -> mono c1 a ->
  (forall y, In y a -> c2 y = negb (c1 y)) ->
  shift_loop c1 c2 x n a = Ok (firstn n (ins c1 x a)).
Proof.
  intros Hn M Hc. rewrite shift_loop_spec by assumption. f_equal.
  apply nth_error_ext; intros i. rewrite nth_error_mapi, nth_error_firstn.
  destruct (nth_error a i) as [ai|] eqn:Ei.
  - assert (i < length a)%nat by (apply nth_error_Some; congruence).
    destruct (Nat.ltb_spec i n); [|lia]. cbn [option_map]. unfold newval.
    destruct (c1 ai) eqn:Ci.
    + rewrite (nth_error_ins_true _ _ _ M _ _ Ei Ci). destruct i as [|j]; [reflexivity|].
      destruct (nth_error_lt a j ltac:(lia)) as [aj Ej]. rewrite Ej.
      rewrite Hc by (eapply nth_error_In; eauto). destruct (c1 aj); reflexivity.
    + rewrite (nth_error_ins_false _ _ _ M _ _ Ei Ci). reflexivity.
  - apply nth_error_None in Ei. destruct (Nat.ltb_spec i n); [lia|reflexivity].
Qed.

Lemma firstn_ins_firstn c x n l : firstn n (ins c x (firstn n l)) = firstn n (ins c x l).
Proof.
  revert l; induction n as [|n IH]; intros l; [reflexivity|].
  destruct l as [|y l]; [reflexivity|]. rewrite firstn_cons. cbn [ins].
  destruct (c y).
  - rewrite !firstn_cons. f_equal. destruct n as [|n]; [reflexivity|]. rewrite !firstn_cons. f_equal.
    rewrite firstn_firstn. f_equal. lia.
  - rewrite !firstn_cons. f_equal. apply IH.
Qed.

Lemma ins_perm c x l : Permutation (ins c x l) (x :: l).
Proof.
  induction l as [|y l IH]; simpl; [reflexivity|]. destruct (c y); [reflexivity|].
  rewrite IH. apply perm_swap.
Qed.

Lemma in_ins c x l y : In y (ins c x l) <-> y = x \/ In y l.
Proof.
  split.
  - intros H. apply (Permutation_in _ (ins_perm c x l)) in H. destruct H; auto.
  - intros H. apply (Permutation_in _ (Permutation_sym (ins_perm c x l))). destruct H; [left|right]; auto.
Qed.

End shift.

(** ** decreasing order by a key *)
Section desc.
Context {T : Type} (pt : T -> Z).

Definition desc (l : list T) : Prop := StronglySorted (fun a b => pt b <= pt a) l.

Lemma desc_mono_le l v : desc l -> mono (fun o => pt o <=? v) l.
Proof.
  intros H. induction H as [|a l H IH F]; intros i j x y Hij Hx Hy Cx.
  - destruct i; discriminate.
  - destruct j as [|j].
    + assert (i = 0)%nat by lia; subst. cbn in *; congruence.
    + destruct i as [|i]; cbn in Hx, Hy.
      * inversion Hx; subst. rewrite Forall_forall in F. specialize (F y (nth_error_In _ _ Hy)). lia.
      * apply (IH i j x y); auto; lia.
Qed.
Lemma desc_mono_lt l v : desc l -> mono (fun o => pt o <? v) l.
Proof.
  intros H. induction H as [|a l H IH F]; intros i j x y Hij Hx Hy Cx.
  - destruct i; discriminate.
  - destruct j as [|j].
    + assert (i = 0)%nat by lia; subst. cbn in *; congruence.
    + destruct i as [|i]; cbn in Hx, Hy.
      * inversion Hx; subst. rewrite Forall_forall in F. specialize (F y (nth_error_In _ _ Hy)). lia.
      * apply (IH i j x y); auto; lia.
Qed.

Lemma desc_ins (c : T -> bool) x l :
  (forall y, In y l -> c y = true -> pt y <= pt x) ->
  (forall y, In y l -> c y = false -> pt x <= pt y) ->
  desc l -> desc (ins c x l).
Proof.
  intros H1 H2 H. induction H as [|a l H IH F]; cbn [ins]; [repeat constructor|].
  destruct (c a) eqn:Ca.
  - constructor; [constructor; assumption|]. constructor; [apply H1; [left; auto|assumption]|].
    rewrite Forall_forall in *. intros y Hy. specialize (F y Hy).
    specialize (H1 a (or_introl eq_refl) Ca). lia.
  - constructor.
    + apply IH; intros y Hy; [apply H1|apply H2]; right; assumption.
    + rewrite Forall_forall in *. intros y Hy. apply in_ins in Hy as [->|Hy]; [|apply F; assumption].
      apply H2; [left; auto|assumption].
Qed.

Lemma desc_firstn n l : desc l -> desc (firstn n l).
Proof.
  intros H; revert n; induction H as [|a l H IH F]; intros [|n]; cbn [firstn]; constructor; [apply IH|].
  rewrite Forall_forall in *. intros y Hy. apply F.
  rewrite <- (firstn_skipn n l). apply in_or_app; left; assumption.
Qed.

Lemma desc_repeat_key l v : (forall x, In x l -> pt x = v) -> desc l.
Proof.
  induction l as [|a l IH]; intros H; constructor.
  - apply IH; intros; apply H; right; assumption.
  - rewrite Forall_forall; intros y Hy. rewrite (H a), (H y); [lia|right; assumption|left; reflexivity].
Qed.
End desc.

(** ** ptsort *)
Section ptsort.
Context {T : Type} (pt : T -> Z).

(** the sorted sequence of all candidates: later element first on ties *)
Definition insle (acc : list T) (x : T) : list T := ins (fun o => pt o <=? pt x) x acc.
Definition sorted_cands (input : list T) : list T := fold_left insle input [].

Lemma desc_insle l x : desc pt l -> desc pt (insle l x).
Proof. intros H; apply desc_ins; auto; intros y Hy C; lia. Qed.
Lemma desc_fold_insle input l : desc pt l -> desc pt (fold_left insle input l).
Proof. revert l; induction input; simpl; auto using desc_insle. Qed.

Lemma fold_insle_firstn n input l :
  firstn n (fold_left insle input (firstn n l)) = firstn n (fold_left insle input l).
Proof.
  revert l; induction input as [|x input IH]; intros l; cbn [fold_left].
  - rewrite firstn_firstn. f_equal; lia.
  - unfold insle at 2 4. rewrite <- IH. rewrite firstn_ins_firstn. rewrite IH. reflexivity.
Qed.

Lemma ptsort_hwopt_fold zero junk input nout :
  (forall x, pt (zero x) = 0) ->
  ptsort_hwopt pt zero junk input nout =
  Ok (firstn nout (fold_left insle input (map (fun i => zero (junk i)) (seq 0 nout)))).
Proof.
  intros Hz. unfold ptsort_hwopt.
  set (l0 := map _ _).
  assert (L0 : length l0 = nout) by (unfold l0; rewrite map_length, seq_length; reflexivity).
  assert (D0 : desc pt l0).
  { apply desc_repeat_key with (v := 0). intros x Hx. unfold l0 in Hx. apply in_map_iff in Hx as (i & <- & _). apply Hz. }
  clearbody l0. revert l0 L0 D0. induction input as [|x input IH]; intros l0 L0 D0.
  - cbn [foldM fold_left]. f_equal. symmetry; apply firstn_all2; lia.
  - cbn [foldM fold_left].
    rewrite shift_loop_ins; [|assumption|apply desc_mono_le; assumption|intros; lia].
    cbn [bind]. rewrite IH.
    + f_equal. change (ins _ x l0) with (insle l0 x). apply fold_insle_firstn.
    + rewrite firstn_length, length_ins. lia.
    + apply desc_firstn. apply (desc_insle l0 x D0).
Qed.

(** *** ptsort_ref *)
Lemma ref_shift (out : list T) : forall k i, (i < length out)%nat -> (k <= length out - S i)%nat ->
  foldM (fun out i2 => do v <- rd out (i2 - 1); wr out i2 v) (rev (seq (S i) k)) out =
  Ok (mapi (fun j oj => if ((i <? j) && (j <=? i + k))%nat
                        then match nth_error out (j - 1) with Some v => v | None => oj end else oj) out).
Proof.
  intros k; revert out. induction k as [|k IH]; intros out i Hi Hk.
  - cbn [seq rev foldM]. f_equal. apply nth_error_ext; intros j. rewrite nth_error_mapi.
    destruct (nth_error out j); [cbn [option_map]|reflexivity].
    destruct (Nat.ltb_spec i j); destruct (Nat.leb_spec j (i + 0)); cbn [andb]; try reflexivity; lia.
  - rewrite seq_S. rewrite rev_app_distr. cbn [rev app foldM].
    replace (S i + k - 1)%nat with (i + k)%nat by lia.
    destruct (nth_error_lt out (i + k) ltac:(lia)) as [v Ev].
    unfold rd at 1. rewrite Ev. cbn [bind]. rewrite wr_Ok by lia. cbn [bind].
    rewrite IH by (rewrite ?length_upd; lia). f_equal.
    apply nth_error_ext; intros j. rewrite !nth_error_mapi.
    destruct (Nat.eq_dec j (S i + k)) as [->|Nj].
    + rewrite nth_error_upd_eq by lia.
      destruct (nth_error_lt out (S i + k) ltac:(lia)) as [w Ew]. rewrite Ew. cbn [option_map].
      destruct (Nat.ltb_spec i (S i + k)); [|lia].
      destruct (Nat.leb_spec (S i + k) (i + k)); [lia|]. destruct (Nat.leb_spec (S i + k) (i + S k)); [|lia].
      cbn [andb]. replace (S i + k - 1)%nat with (i + k)%nat by lia. rewrite Ev. reflexivity.
    + rewrite (nth_error_upd_ne _ _ j) by lia.
      destruct (nth_error out j) as [w|] eqn:Ew; [cbn [option_map]|reflexivity].
      destruct (Nat.ltb_spec i j); cbn [andb]; [|reflexivity].
      destruct (Nat.leb_spec j (i + k)); destruct (Nat.leb_spec j (i + S k)); try lia; [|reflexivity].
      rewrite nth_error_upd_ne by lia. reflexivity.
Qed.


(** position of the first element satisfying c *)
Fixpoint fpos (c : T -> bool) (l : list T) : option nat :=
  match l with
  | [] => None
  | y :: r => if c y then Some O else option_map S (fpos c r)
  end.

Lemma find_fpos c l pre : 
  find (fun i => match nth_error (pre ++ l) i with Some o => c o | None => false end) (seq (length pre) (length l)) =
  option_map (fun k => (length pre + k)%nat) (fpos c l).
Proof.
  revert pre; induction l as [|y l IH]; intros pre; [reflexivity|].
  cbn [length seq find fpos]. rewrite nth_error_app2 by lia. rewrite Nat.sub_diag. cbn [nth_error].
  destruct (c y); [cbn; f_equal; lia|].
  specialize (IH (pre ++ [y])). rewrite <- app_assoc in IH. cbn [app] in IH.
  rewrite app_length in IH. cbn [length] in IH. rewrite Nat.add_1_r in IH. rewrite IH.
  destruct (fpos c l); cbn [option_map]; [f_equal; lia|reflexivity].
Qed.

Lemma fpos_None_ins c x l : fpos c l = None -> ins c x l = l ++ [x].
Proof.
  induction l as [|y l IH]; cbn; [reflexivity|]. destruct (c y); [discriminate|].
  destruct (fpos c l); [discriminate|]. intros; f_equal; auto.
Qed.
Lemma fpos_Some_ins c x l k : fpos c l = Some k -> ins c x l = firstn k l ++ x :: skipn k l /\ (k < length l)%nat.
Proof.
  revert k; induction l as [|y l IH]; cbn [fpos ins]; intros k H; [discriminate|].
  destruct (c y); [inversion H; subst; cbn; split; [reflexivity|lia]|].
  destruct (fpos c l) as [k'|]; [|discriminate]. inversion H; subst.
  destruct (IH k' eq_refl) as [-> ?]. cbn. split; [reflexivity|lia].
Qed.

Lemma nth_error_skipn {A} (l : list A) n i : nth_error (skipn n l) i = nth_error l (n + i).
Proof. revert l; induction n; intros [|x l]; simpl; auto. destruct i; reflexivity. Qed.

Lemma ptsort_ref_step_ins n out x : length out = n ->
  ptsort_ref_step pt n out x = Ok (firstn n (insle out x)).
Proof.
  intros Hn. unfold ptsort_ref_step, insle.
  pose proof (find_fpos (fun o => pt x >=? pt o) out []) as F. cbn [length app] in F. rewrite Hn in F.
  rewrite F. clear F.
  assert (E : ins (fun o => pt o <=? pt x) x out = ins (fun o => pt x >=? pt o) x out).
  { clear Hn; induction out as [|y out IH]; cbn [ins]; [reflexivity|].
    rewrite IH. replace (pt x >=? pt y) with (pt y <=? pt x) by lia. reflexivity. }
  rewrite E; clear E.
  destruct (fpos _ out) as [k|] eqn:F; cbn [option_map].
  - destruct (fpos_Some_ins _ x _ _ F) as [E Hk]. rewrite E. cbn [plus].
    rewrite ref_shift by lia. cbn [bind]. rewrite wr_Ok by (rewrite length_mapi; lia). f_equal.
    apply nth_error_ext; intros j. rewrite nth_error_firstn.
    destruct (Nat.ltb_spec j n).
    + destruct (Nat.eq_dec k j) as [->|N].
      * rewrite nth_error_upd_eq by (rewrite length_mapi; lia).
        rewrite nth_error_app2 by (rewrite firstn_length; lia).
        rewrite firstn_length. replace (j - min j (length out))%nat with 0%nat by lia. reflexivity.
      * rewrite nth_error_upd_ne by assumption. rewrite nth_error_mapi.
        destruct (nth_error_lt out j ltac:(lia)) as [v Ev]. rewrite Ev. cbn [option_map].
        destruct (Nat.ltb_spec k j); cbn [andb].
        -- destruct (Nat.leb_spec j (k + (n - S k))); [|lia].
           rewrite nth_error_app2 by (rewrite firstn_length; lia).
           rewrite firstn_length. replace (j - min k (length out))%nat with (S (j - 1 - k))%nat by lia.
           cbn [nth_error]. rewrite nth_error_skipn. replace (k + (j - 1 - k))%nat with (j - 1)%nat by lia.
           destruct (nth_error_lt out (j - 1) ltac:(lia)) as [w Ew]. rewrite Ew. reflexivity.
        -- rewrite nth_error_app1 by (rewrite firstn_length; lia).
           rewrite nth_error_firstn. destruct (Nat.ltb_spec j k); [auto|lia].
    + apply nth_error_None. rewrite length_upd, length_mapi. lia.
  - rewrite (fpos_None_ins _ x _ F). f_equal. rewrite firstn_app, firstn_all2 by lia.
    replace (n - length out)%nat with 0%nat by lia. cbn. symmetry; apply app_nil_r.
Qed.

Lemma ptsort_ref_fold zero input out :
  ptsort_ref pt zero input out = Ok (firstn (length out) (fold_left insle input (map zero out))).
Proof.
  unfold ptsort_ref. set (n := length out). set (l0 := map zero out).
  assert (L0 : length l0 = n) by (unfold l0; apply map_length). clearbody l0 n. revert l0 L0.
  induction input as [|x input IH]; intros l0 L0; cbn [foldM fold_left].
  - f_equal; symmetry; apply firstn_all2; lia.
  - rewrite ptsort_ref_step_ins by assumption. cbn [bind]. rewrite IH.
    + rewrite fold_insle_firstn. reflexivity.
    + unfold insle; rewrite firstn_length, length_ins; lia.
Qed.

(** *** zeros are flushed out by non-negative inputs *)
Lemma ins_app_zeros x l zs :
  (forall z, In z zs -> pt z <= pt x) -> insle (l ++ zs) x = insle l x ++ zs \/ zs = [] .
Proof.
  intros H. destruct zs as [|z zs]; [right; reflexivity|left]. unfold insle.
  induction l as [|y l IH]; cbn [app ins].
  - assert (pt z <= pt x) by (apply H; left; reflexivity). destruct (Z.leb_spec (pt z) (pt x)); [reflexivity|lia].
  - destruct (pt y <=? pt x); [reflexivity|]. cbn [app]. f_equal. assumption.
Qed.

Lemma fold_insle_zeros input l zs :
  (forall x, In x input -> 0 <= pt x) -> (forall z, In z zs -> pt z = 0) ->
  fold_left insle input (l ++ zs) = fold_left insle input l ++ zs.
Proof.
  intros Hx Hz. revert l; induction input as [|x input IH]; intros l; cbn [fold_left]; [reflexivity|].
  destruct (ins_app_zeros x l zs) as [E|E].
  - intros z Hin. rewrite (Hz z Hin). apply Hx; left; reflexivity.
  - rewrite E. apply IH. intros; apply Hx; right; assumption.
  - subst zs. rewrite !app_nil_r. reflexivity.
Qed.

Lemma length_fold_insle input l : length (fold_left insle input l) = (length input + length l)%nat.
Proof.
  revert l; induction input as [|x input IH]; intros l; cbn [fold_left]; [reflexivity|].
  rewrite IH. unfold insle. rewrite length_ins. simpl; lia.
Qed.

Lemma ptsort_hwopt_sorted zero junk input nout :
  (forall x, pt (zero x) = 0) -> (forall x, In x input -> 0 <= pt x) -> (nout <= length input)%nat ->
  ptsort_hwopt pt zero junk input nout = Ok (firstn nout (sorted_cands input)).
Proof.
  intros Hz Hx Hn. rewrite ptsort_hwopt_fold by assumption. f_equal.
  set (zs := map _ _).
  pose proof (fold_insle_zeros input [] zs) as F; cbn [app] in F; rewrite F; clear F; [|assumption|].
  - rewrite firstn_app. rewrite length_fold_insle. cbn [length].
    replace (nout - (length input + 0))%nat with 0%nat by lia. cbn [firstn]. apply app_nil_r.
  - intros z Hin. unfold zs in Hin. apply in_map_iff in Hin as (i & <- & _). apply Hz.
Qed.

Lemma ptsort_ref_sorted zero input out :
  (forall x, pt (zero x) = 0) -> (forall x, In x input -> 0 <= pt x) -> (length out <= length input)%nat ->
  ptsort_ref pt zero input out = Ok (firstn (length out) (sorted_cands input)).
Proof.
  intros Hz Hx Hn. rewrite ptsort_ref_fold. f_equal.
  pose proof (fold_insle_zeros input [] (map zero out)) as F; cbn [app] in F; rewrite F; clear F; [|assumption|].
  - rewrite firstn_app. rewrite length_fold_insle. cbn [length].
    replace (length out - (length input + 0))%nat with 0%nat by lia. cbn [firstn]. apply app_nil_r.
  - intros z Hin. apply in_map_iff in Hin as (i & <- & _). apply Hz.
Qed.

Lemma sorted_cands_perm input : Permutation (sorted_cands input) input.
Proof.
  assert (H : forall l, Permutation (fold_left insle input l) (input ++ l)).
  { induction input as [|x input IH]; intros l; cbn [fold_left app]; [reflexivity|].
    rewrite IH. unfold insle. rewrite ins_perm. symmetry; apply Permutation_middle. }
  unfold sorted_cands. rewrite H, app_nil_r. reflexivity.
Qed.
Lemma sorted_cands_desc input : desc pt (sorted_cands input).
Proof. apply desc_fold_insle. constructor. Qed.
End ptsort.

(** insertion commutes with key-preserving maps *)
Lemma ins_map {A B} (f : A -> B) c c' x l : (forall y, c' (f y) = c y) -> ins c' (f x) (map f l) = map f (ins c x l).
Proof.
  intros H. induction l as [|y l IH]; cbn [ins map]; [reflexivity|]. rewrite H. destruct (c y); cbn; [reflexivity|].
  f_equal; assumption.
Qed.
Lemma sorted_cands_map {A B} (f : A -> B) pa pb input : (forall y, pb (f y) = pa y) ->
  sorted_cands pb (map f input) = map f (sorted_cands pa input).
Proof.
  intros H. unfold sorted_cands.
  assert (G : forall l, fold_left (insle pb) (map f input) (map f l) = map f (fold_left (insle pa) input l)).
  { induction input as [|x input IH]; intros l; cbn [map fold_left]; [reflexivity|].
    unfold insle at 2 4. rewrite (ins_map f (fun o => pa o <=? pa x)); [apply IH|]. intros y. rewrite !H. reflexivity. }
  apply (G []).
Qed.
