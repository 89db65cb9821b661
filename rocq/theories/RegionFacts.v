(** Insertion into cleared slots, and the merges. *)
From Coq Require Import Permutation Sorted.
From Verif Require Import Base BaseFacts PFHw SortFacts SpecSort RankFacts TabFacts Regionizer SpecRegion.

Section facts.
Context {A : Type} (d : A).
Implicit Types (x y o : robj A) (l p q a : list (robj A)).

Notation clr := (rclear d).
Definition ri l x := rins false r_pt l x.
Definition F l a := fold_left (rins false r_pt) l a.
Definition pos l := Forall (fun x => 0 < r_pt x) l.

(** [n] slots holding the candidates [l] *)
Definition K (n : nat) l : list (robj A) := firstn n (rsort false r_pt l ++ repeat clr n).

Lemma K_length n l : length (K n l) = n.
Proof. unfold K. rewrite firstn_length, app_length, repeat_length. lia. Qed.

Lemma K_eq n l : K n l = firstn n (rsort false r_pt l) ++ repeat clr (n - length (firstn n (rsort false r_pt l))).
Proof.
  unfold K. rewrite firstn_app. f_equal. rewrite firstn_length.
  generalize (length (rsort false r_pt l)) as m; intros m.
  assert (G : forall k j, (k <= j)%nat -> firstn k (repeat clr j) = repeat clr k).
  { intros k; induction k as [|k IH]; intros [|j] H; cbn; try reflexivity; try lia. f_equal. apply IH. lia. }
  rewrite G by lia. f_equal. lia.
Qed.

Lemma kept_K n l : kept d n l (K n l).
Proof. exists (firstn n (rsort false r_pt l)). split; [apply top_n_rsort|apply K_eq]. Qed.

Lemma kept_unique n l a1 a2 : kept d n l a1 -> kept d n l a2 -> a1 = a2.
Proof. intros (t1 & H1 & ->) (t2 & H2 & ->). rewrite (top_n_unique _ _ _ _ _ _ H1 H2). reflexivity. Qed.

Lemma rins_desc a x : desc r_pt a -> desc r_pt (rins false r_pt a x).
Proof. intros H. apply desc_ins; [| |assumption]; intros y _ E; cbn [cmp] in E; lia. Qed.
Lemma F_desc l a : desc r_pt a -> desc r_pt (F l a).
Proof. revert a; induction l as [|x l IH]; intros a H; cbn [F fold_left]; [assumption|]. apply IH. apply rins_desc; assumption. Qed.
Lemma rsort_desc l : desc r_pt (rsort false r_pt l).
Proof. apply F_desc. constructor. Qed.

Lemma pos_rsort l : pos l -> pos (rsort false r_pt l).
Proof. intros H. unfold pos in *. rewrite Forall_forall in *. intros x Hx. apply H. eapply Permutation_in; [apply rsort_perm|exact Hx]. Qed.

Lemma desc_app_zeros p n : pos p -> desc r_pt p -> desc r_pt (p ++ repeat clr n).
Proof.
  intros P D. induction D as [|x p D IH HF]; cbn [app].
  - apply (desc_repeat_key _ _ 0). intros x Hx. apply repeat_spec in Hx. subst. reflexivity.
  - inversion P; subst. constructor; [apply IH; assumption|]. rewrite Forall_forall in *. intros y Hy. apply in_app_or in Hy as [Hy|Hy]; [auto|].
    apply repeat_spec in Hy. subst. cbn. lia.
Qed.

Lemma K_desc n l : pos l -> desc r_pt (K n l).
Proof. intros P. apply desc_firstn. apply desc_app_zeros; [apply pos_rsort; assumption|apply rsort_desc]. Qed.

Lemma rins_app_zeros x p n : 0 < r_pt x -> rins false r_pt (p ++ repeat clr n) x = rins false r_pt p x ++ repeat clr n.
Proof.
  intros Hx. unfold rins. induction p as [|y p IH]; cbn [app ins].
  - destruct n; cbn [repeat app ins]; [reflexivity|]. unfold cmp. cbn [rclear r_pt].
    destruct (Z.ltb_spec 0 (r_pt x)); [reflexivity|lia].
  - destruct (cmp _ _ _); [reflexivity|]. cbn [app]. f_equal. apply IH.
Qed.

Lemma ins_none (c : robj A -> bool) x a : (forall y, In y a -> c y = false) -> ins c x a = a ++ [x].
Proof. induction a as [|y a IH]; intros H; cbn [ins app]; [reflexivity|]. rewrite (H y) by (left; reflexivity). f_equal. apply IH. intros; apply H; right; assumption. Qed.

Lemma K_nonneg n l y : pos l -> In y (K n l) -> 0 <= r_pt y.
Proof.
  intros P Hy. unfold K in Hy. assert (H : In y (rsort false r_pt l ++ repeat clr n)).
  { rewrite <- (firstn_skipn n). apply in_or_app; left; exact Hy. }
  apply in_app_or in H as [H|H].
  - apply pos_rsort in P. unfold pos in P. rewrite Forall_forall in P. specialize (P y H). lia.
  - apply repeat_spec in H. subst. cbn. lia.
Qed.

(** one push *)
Lemma push_K n l x x' : pos l -> r_pt x' = r_pt x ->
  shift_loop (fun o => r_pt o <? r_pt x) (fun o => r_pt o >=? r_pt x) x' n (K n l)
  = Ok (K n (l ++ if 0 <? r_pt x then [x'] else [])).
Proof.
  intros P E. rewrite shift_loop_ins; [|apply K_length|apply desc_mono_lt; apply K_desc; assumption|intros; lia].
  f_equal. destruct (Z.ltb_spec 0 (r_pt x)) as [Hx|Hx].
  - unfold K at 1. rewrite firstn_ins_firstn. unfold K. unfold rsort at 2. rewrite fold_left_app. cbn [fold_left].
    fold (rsort false r_pt l). rewrite <- rins_app_zeros by lia. unfold rins. cbn [cmp]. rewrite E. reflexivity.
  - rewrite app_nil_r, ins_none; [|intros y Hy; apply (K_nonneg n l y P) in Hy; lia].
    rewrite firstn_app, K_length, Nat.sub_diag, app_nil_r. rewrite <- (K_length n l) at 1. apply firstn_all.
Qed.

Lemma K_nil n : K n [] = repeat clr n.
Proof. unfold K. cbn [rsort fold_left app]. rewrite <- (repeat_length clr n) at 1. apply firstn_all. Qed.

(** sorted lists *)
Lemma F_cons_ge x a l : (forall y, In y l -> r_pt y <= r_pt x) -> F l (x :: a) = x :: F l a.
Proof.
  revert a; induction l as [|y l IH]; intros a H; cbn [F fold_left]; [reflexivity|].
  unfold rins at 2. cbn [ins cmp]. destruct (Z.ltb_spec (r_pt x) (r_pt y)) as [L|L].
  - specialize (H y (or_introl eq_refl)). lia.
  - fold (rins false r_pt a y). fold (F l (x :: rins false r_pt a y)). rewrite IH; [reflexivity|]. intros; apply H; right; assumption.
Qed.

Lemma F_nil_sorted p a : desc r_pt p -> (forall x y, In x a -> In y p -> r_pt y <= r_pt x) -> F p a = a ++ p.
Proof.
  revert a; induction p as [|y p IH]; intros a D H; cbn [F fold_left]; [rewrite app_nil_r; reflexivity|].
  unfold rins at 2. rewrite ins_none; [|intros x Hx; specialize (H x y Hx (or_introl eq_refl)); cbn; lia].
  fold (F p (a ++ [y])). inversion D; subst. rewrite IH; [rewrite <- app_assoc; reflexivity|assumption|].
  intros x z Hx Hz. apply in_app_or in Hx as [Hx|[<-|[]]]; [apply H; [assumption|right; assumption]|].
  match goal with Q : Forall _ p |- _ => rewrite Forall_forall in Q; apply Q; assumption end.
Qed.

Lemma rsort_sorted p : desc r_pt p -> rsort false r_pt p = p.
Proof. intros D. change (rsort false r_pt p) with (F p []). rewrite F_nil_sorted; [reflexivity|assumption|intros x y []]. Qed.

(** one step of a left-biased merge *)
Lemma F_step_left x a y l : desc r_pt (y :: l) -> r_pt y <= r_pt x -> F (y :: l) (x :: a) = x :: F (y :: l) a.
Proof.
  intros D H. apply F_cons_ge. intros z [<-|Hz]; [assumption|]. inversion D; subst.
  match goal with Q : Forall _ l |- _ => rewrite Forall_forall in Q; specialize (Q z Hz) end. lia.
Qed.
Lemma F_step_right x a y l : desc r_pt (y :: l) -> r_pt x < r_pt y -> F (y :: l) (x :: a) = y :: F l (x :: a).
Proof.
  intros D H. cbn [F fold_left]. unfold rins at 2. cbn [ins cmp]. destruct (Z.ltb_spec (r_pt x) (r_pt y)); [|lia].
  fold (F l (y :: x :: a)). apply F_cons_ge. intros z Hz. inversion D; subst.
  match goal with Q : Forall _ l |- _ => rewrite Forall_forall in Q; specialize (Q z Hz) end. assumption.
Qed.
Lemma F_step_right_nil y l : desc r_pt (y :: l) -> F (y :: l) [] = y :: F l [].
Proof.
  intros D. cbn [F fold_left]. unfold rins at 2. cbn [ins]. fold (F l [y]). apply F_cons_ge. intros z Hz. inversion D; subst.
  match goal with Q : Forall _ l |- _ => rewrite Forall_forall in Q; specialize (Q z Hz) end. assumption.
Qed.
End facts.
