(** Facts about indexed maps, sums and monadic folds over them. *)
From Verif Require Import Base BaseFacts Data SpecLink SpecPF.

Lemma combine_map_both {X A B} (f : X -> A) (g : X -> B) l :
  combine (map f l) (map g l) = map (fun x => (f x, g x)) l.
Proof. induction l as [|x l IH]; [reflexivity|]. cbn. rewrite IH; reflexivity. Qed.

Lemma combine_mapi {A B C} (f : nat -> A -> B) (g : nat -> A -> C) l :
  combine (mapi f l) (mapi g l) = mapi (fun i x => (f i x, g i x)) l.
Proof. unfold mapi. apply (combine_map_both (fun p => f (fst p) (snd p)) (fun p => g (fst p) (snd p))). Qed.

Lemma mapi_id {A} (l : list A) : mapi (fun _ x => x) l = l.
Proof. apply map_snd_indexed. Qed.

Lemma combine_mapi_r {A C} (g : nat -> A -> C) l : combine l (mapi g l) = mapi (fun i x => (x, g i x)) l.
Proof. rewrite <- (mapi_id l) at 1. apply combine_mapi. Qed.
Lemma combine_mapi_l {A C} (g : nat -> A -> C) l : combine (mapi g l) l = mapi (fun i x => (g i x, x)) l.
Proof. rewrite <- (mapi_id l) at 2. apply (combine_mapi g (fun _ x => x)). Qed.
Lemma combine_map_r {A C} (g : A -> C) l : combine l (map g l) = map (fun x => (x, g x)) l.
Proof. rewrite <- (map_id l) at 1. apply combine_map_both. Qed.

Lemma mapi_ext_in {A B} (f g : nat -> A -> B) l :
  (forall i x, nth_error l i = Some x -> f i x = g i x) -> mapi f l = mapi g l.
Proof. intros H. unfold mapi. apply map_ext_in. intros [i x] Hin. apply in_indexed in Hin. apply H; assumption. Qed.

Lemma map_mapi {A B C} (h : B -> C) (f : nat -> A -> B) l : map h (mapi f l) = mapi (fun i x => h (f i x)) l.
Proof. unfold mapi. apply map_map. Qed.

Lemma map_as_mapi {A B} (f : A -> B) l : map f l = mapi (fun _ x => f x) l.
Proof. rewrite <- (mapi_id l) at 1. apply map_mapi. Qed.

Lemma mapi_mapi {A B C} (f : nat -> B -> C) (g : nat -> A -> B) l : mapi f (mapi g l) = mapi (fun i x => f i (g i x)) l.
Proof.
  apply nth_error_ext; intros i. rewrite !nth_error_mapi. destruct (nth_error l i); reflexivity.
Qed.

Lemma mapi_map {A B C} (f : nat -> B -> C) (g : A -> B) l : mapi f (map g l) = mapi (fun i x => f i (g x)) l.
Proof. rewrite map_as_mapi. apply mapi_mapi. Qed.

Lemma map_seq_mapi {A B} (f : nat -> B) (l : list A) : map f (seq 0 (length l)) = mapi (fun i _ => f i) l.
Proof.
  apply nth_error_ext; intros i. rewrite nth_error_mapi, nth_error_map', nth_error_seq.
  destruct (Nat.ltb_spec i (length l)) as [H|H].
  - apply nth_error_Some in H. destruct (nth_error l i); [reflexivity|congruence].
  - apply nth_error_None in H. rewrite H. reflexivity.
Qed.

Lemma mapi_snoc {A B} (f : nat -> A -> B) l x : mapi f (l ++ [x]) = mapi f l ++ [f (length l) x].
Proof. unfold mapi. rewrite indexed_snoc, map_app. reflexivity. Qed.

Lemma in_mapi {A B} (f : nat -> A -> B) l y : In y (mapi f l) <-> exists i x, nth_error l i = Some x /\ y = f i x.
Proof.
  unfold mapi. rewrite in_map_iff. split.
  - intros ([i x] & <- & Hin). apply in_indexed in Hin. exists i, x; auto.
  - intros (i & x & Hi & ->). exists (i, x). split; [reflexivity|]. apply in_indexed; assumption.
Qed.

Lemma Forall_mapi {A B} (P : B -> Prop) (f : nat -> A -> B) l :
  (forall i x, nth_error l i = Some x -> P (f i x)) -> Forall P (mapi f l).
Proof. intros H. apply Forall_forall. intros y Hy. apply in_mapi in Hy as (i & x & Hi & ->). apply H; assumption. Qed.

(** ** wrapped sums *)
Lemma fold_wrap_sum {A} (step : Z -> A -> Z) (g : A -> Z) l s :
  inS 16 s -> (forall s x, inS 16 s -> In x l -> step s x = pt_t (s + g x)) ->
  fold_left step l s = pt_t (s + sumZ (map g l)).
Proof.
  revert s; induction l as [|x l IH]; intros s Hs H; cbn [fold_left map].
  - cbn. rewrite Z.add_0_r. symmetry. unfold pt_t. apply wrapS_id; [lia|assumption].
  - rewrite (H s x Hs (or_introl eq_refl)). rewrite IH.
    + change (sumZ (g x :: map g l)) with (g x + sumZ (map g l)). unfold pt_t.
      rewrite wrapS_wrapS_add by lia. f_equal. lia.
    + unfold pt_t. apply wrapS_range. lia.
    + intros; apply H; [assumption|right; assumption].
Qed.

Lemma sumZ_le {A} (f g : A -> Z) l : (forall x, In x l -> f x <= g x) -> sumZ (map f l) <= sumZ (map g l).
Proof.
  induction l as [|x l IH]; intros H; [reflexivity|].
  change (f x + sumZ (map f l) <= g x + sumZ (map g l)).
  pose proof (H x (or_introl eq_refl)). assert (sumZ (map f l) <= sumZ (map g l)) by (apply IH; intros; apply H; right; assumption). lia.
Qed.

Lemma sum_where_le {A} sel (f : A -> Z) l : (forall x, In x l -> 0 <= f x) -> 0 <= sum_where sel f l <= sumZ (map f l).
Proof.
  intros H. unfold sum_where. split.
  - apply sumZ_nonneg. intros y Hy. apply in_mapi in Hy as (i & x & Hi & ->). destruct (sel i x); [|lia]. apply H. eapply nth_error_In; eauto.
  - rewrite (map_as_mapi f). unfold mapi. apply sumZ_le. intros [i x] Hin. apply in_indexed in Hin. cbn [fst snd].
    destruct (sel i x); [lia|]. apply H. eapply nth_error_In; eauto.
Qed.

Lemma sum_where_ext {A} (sel sel' : nat -> A -> bool) (f : A -> Z) l :
  (forall i x, nth_error l i = Some x -> (if sel i x then f x else 0) = (if sel' i x then f x else 0)) ->
  sum_where sel f l = sum_where sel' f l.
Proof. intros H. unfold sum_where. f_equal. apply mapi_ext_in. exact H. Qed.

Lemma sum_where_snoc {A} sel (f : A -> Z) l x :
  sum_where sel f (l ++ [x]) = sum_where sel f l + (if sel (length l) x then f x else 0).
Proof. unfold sum_where. rewrite mapi_snoc, sumZ_app. cbn [sumZ fold_right]. lia. Qed.

(** ** monadic maps *)
Lemma mapM_mapi {A B C} (f : B -> res C) (h : nat -> A -> B) (g : nat -> A -> C) l :
  (forall i x, nth_error l i = Some x -> f (h i x) = Ok (g i x)) -> mapM f (mapi h l) = Ok (mapi g l).
Proof.
  induction l as [|x l IH] using rev_ind; intros H; [reflexivity|].
  rewrite !mapi_snoc.
  assert (E : forall (a : list B) b ys y, mapM f a = Ok ys -> f b = Ok y -> mapM f (a ++ [b]) = Ok (ys ++ [y])).
  { induction a as [|a0 a IHa]; intros b ys y Ha Hb; cbn [app mapM] in *.
    - inversion Ha; subst. rewrite Hb. reflexivity.
    - destruct (f a0); [|discriminate]. cbn [bind] in *. destruct (mapM f a) as [zs|] eqn:E; [|discriminate]. cbn [bind] in *.
      inversion Ha; subst. rewrite (IHa b zs y eq_refl Hb). reflexivity. }
  apply E.
  - apply IH. intros i y Hi. apply H. rewrite nth_error_app1; [assumption|]. apply nth_error_Some; congruence.
  - apply H. rewrite nth_error_app2, Nat.sub_diag by lia. reflexivity.
Qed.

Lemma foldM_ext {A S} (f g : S -> A -> res S) l s :
  (forall s x, In x l -> f s x = g s x) -> foldM f l s = foldM g l s.
Proof.
  revert s; induction l as [|x l IH]; intros s H; [reflexivity|]. cbn [foldM].
  rewrite (H s x (or_introl eq_refl)). destruct (g s x); [|reflexivity]. cbn [bind]. apply IH. intros; apply H; right; assumption.
Qed.

Lemma foldM_map {A B S} (f : S -> B -> res S) (h : A -> B) l s :
  foldM f (map h l) s = foldM (fun s x => f s (h x)) l s.
Proof. revert s; induction l as [|x l IH]; intros s; [reflexivity|]. cbn [map foldM]. destruct (f s (h x)); [|reflexivity]. apply IH. Qed.
