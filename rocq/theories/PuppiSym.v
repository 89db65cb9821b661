(** Symmetries and locality of PUPPI (C79). *)
From Coq Require Import Permutation.
From Verif Require Import Base BaseFacts Data PFHw Puppi SpecPF SpecPuppi SpecSym SpecPuppiSym SymFacts PuppiProofs PuppiExact.

Lemma foldM_map {A B S} (f : S -> B -> res S) (g : A -> B) l : forall s, foldM f (map g l) s = foldM (fun s x => f s (g x)) l s.
Proof. induction l; intros s; cbn; [reflexivity|]. destruct (f s (g a)); cbn; auto. Qed.
Lemma foldM_ext {A S} (f g : S -> A -> res S) l : (forall s x, In x l -> f s x = g s x) -> forall s, foldM f l s = foldM g l s.
Proof.
  induction l as [|x l IH]; intros H s; cbn; [reflexivity|]. rewrite (H s x) by (left; reflexivity). destruct (g s x); cbn; auto.
  apply IH. intros; apply H; right; assumption.
Qed.
Lemma mapM_ext {A B} (f g : A -> res B) l : (forall x, In x l -> f x = g x) -> mapM f l = mapM g l.
Proof.
  induction l as [|x l IH]; intros H; cbn; [reflexivity|]. rewrite (H x) by (left; reflexivity). rewrite IH by (intros; apply H; right; assumption). reflexivity.
Qed.
Lemma foldM_filter {A S} (f : S -> A -> res S) keep l : (forall s x, In x l -> keep x = false -> f s x = Ok s) -> forall s, foldM f (filter keep l) s = foldM f l s.
Proof.
  induction l as [|x l IH]; intros H s; cbn; [reflexivity|].
  assert (forall s y, In y l -> keep y = false -> f s y = Ok s) as H' by (intros; apply H; [right; assumption|assumption]).
  destruct (keep x) eqn:K; cbn.
  - destruct (f s x); cbn; [apply IH; exact H'|reflexivity].
  - rewrite (H s x) by (auto; left; reflexivity). cbn. apply IH; exact H'.
Qed.
Lemma rmap_rmap {A B C} (f : A -> B) (g : B -> C) r : rmap g (rmap f r) = rmap (fun x => g (f x)) r.
Proof. destruct r; reflexivity. Qed.
Lemma mapM_rmap {A B C} (f : A -> res B) (g : B -> C) l : mapM (fun x => rmap g (f x)) l = rmap (map g) (mapM f l).
Proof. induction l as [|x l IH]; cbn; [reflexivity|]. destruct (f x); cbn; [|reflexivity]. rewrite IH. destruct (mapM f l); reflexivity. Qed.

(** *** one neutral at a time *)
Definition hw_ne (tab : list Z) pfch z (n : PFNe) : res PFNe := do s <- hw_sum pfch z n; hw_apply tab n (wrapU 32 (Z.shiftr s 10)).

Lemma hw_singles tab pfch pfne z r : simple_puppi_hw tab pfch pfne z = Ok r <-> Forall2 (fun n n' => simple_puppi_hw tab pfch [n] z = Ok [n']) pfne r.
Proof.
  unfold simple_puppi_hw. revert r. induction pfne as [|n l IH]; intros r; cbn.
  - split; [intros H; injection H as <-; constructor|intros H; inversion H; reflexivity].
  - destruct (hw_sum pfch z n) as [s|k] eqn:S; cbn.
    2: { split; [discriminate|]. intros H; inversion H; subst. cbn in H2. rewrite S in H2. discriminate. }
    destruct (mapM _ l) as [es|k] eqn:M; cbn in *.
    + destruct (hw_apply tab n _) as [m|k] eqn:A; cbn.
      2: { split; [discriminate|]. intros H; inversion H; subst. rewrite S in H2. cbn in H2. rewrite A in H2. discriminate. }
      destruct (mapM _ (combine l es)) as [rs|k] eqn:R; cbn.
      * split.
        -- intros H. injection H as <-. constructor; [rewrite S; cbn; rewrite A; reflexivity|]. apply IH. reflexivity.
        -- intros H. inversion H; subst. apply IH in H4. injection H4 as ->. rewrite S in H2. cbn in H2. rewrite A in H2. cbn in H2. injection H2 as ->. reflexivity.
      * split; [discriminate|]. intros H; inversion H; subst. apply IH in H4. discriminate.
    + split; [discriminate|]. intros H; inversion H; subst. apply IH in H4. discriminate.
Qed.
Lemma ref_singles tab pfch pfne z r : simple_puppi_ref tab pfch pfne z = Ok r <-> Forall2 (fun n n' => simple_puppi_ref tab pfch [n] z = Ok [n']) pfne r.
Proof.
  unfold simple_puppi_ref. revert r. cbn. set (f := fun n => _). change (forall r, mapM f pfne = Ok r <-> Forall2 (fun n n' => (do y <- f n; Ok [y]) = Ok [n']) pfne r).
  clearbody f. induction pfne as [|n l IH]; intros r; cbn.
  - split; [intros H; injection H as <-; constructor|intros H; inversion H; reflexivity].
  - destruct (f n) as [m|k] eqn:F; cbn.
    2: { split; [discriminate|]. intros H; inversion H; subst. rewrite F in H2. discriminate. }
    destruct (mapM f l) as [rs|k] eqn:M; cbn.
    + split; intros H.
      * injection H as <-. constructor; [rewrite F; reflexivity|]. apply IH. reflexivity.
      * inversion H; subst. rewrite F in H2. injection H2 as ->. apply IH in H4. injection H4 as ->. reflexivity.
    + split; [discriminate|]. intros H; inversion H; subst. apply IH in H4. discriminate.
Qed.

(** *** motions *)
Lemma hw_sum_moved mv s pfch z n : isometry mv -> hw_sum (map (move_ch mv s) pfch) (z + s) (move_ne mv n) = hw_sum pfch z n.
Proof.
  intros I. unfold hw_sum. rewrite foldM_map. apply foldM_ext. intros a c _. cbn. replace (z + s - (c_z0 c + s)) with (z - c_z0 c) by lia.
  change dr2_int with dist2. rewrite I. reflexivity.
Qed.
Lemma ref_sum_moved mv s pfch z n : isometry mv -> ref_sum (map (move_ch mv s) pfch) (z + s) (move_ne mv n) = ref_sum pfch z n.
Proof.
  intros I. unfold ref_sum. rewrite foldM_map. apply foldM_ext. intros a c _. cbn. replace (z + s - (c_z0 c + s)) with (z - c_z0 c) by lia.
  change dr2_int with dist2. rewrite I. reflexivity.
Qed.
Lemma hw_moved tab mv s pfch pfne z : isometry mv ->
  simple_puppi_hw tab (map (move_ch mv s) pfch) (map (move_ne mv) pfne) (z + s) = rmap (map (move_ne mv)) (simple_puppi_hw tab pfch pfne z).
Proof.
  intros I. unfold simple_puppi_hw. rewrite mapM_map. rewrite (mapM_ext _ (fun n => do sum <- hw_sum pfch z n; Ok (wrapU 32 (Z.shiftr sum 10)))) by (intros; rewrite hw_sum_moved by exact I; reflexivity).
  destruct (mapM _ pfne) as [es|k]; [|reflexivity]. cbn. rewrite <- mapM_rmap.
  revert es. induction pfne as [|n l IH]; intros [|e es]; cbn; try reflexivity. rewrite IH.
  unfold hw_apply. cbn [n_pt n_eta n_phi n_id n_puppi move_ne]. destruct (e <? PUPPI_TABLE_SIZE); cbn; [|reflexivity].
  destruct (if e <=? 0 then Ok 0 else rmap (wrapU 8) (puppiweight tab e)); reflexivity.
Qed.
Lemma ref_moved tab mv s pfch pfne z : isometry mv ->
  simple_puppi_ref tab (map (move_ch mv s) pfch) (map (move_ne mv) pfne) (z + s) = rmap (map (move_ne mv)) (simple_puppi_ref tab pfch pfne z).
Proof.
  intros I. unfold simple_puppi_ref. rewrite mapM_map, <- mapM_rmap. apply mapM_ext. intros n _. rewrite ref_sum_moved by exact I. cbn [n_pt n_eta n_phi n_id n_puppi move_ne].
  destruct (n_pt n =? 0); [reflexivity|]. destruct (ref_sum pfch z n); cbn; [|reflexivity]. destruct (ref_weight tab _); reflexivity.
Qed.

(** *** charged candidates out of reach *)
Lemma unseen_step {A} z c n (x y : A) : unseen z c n -> (if (z - c_z0 c >? DZMAX) || (z - c_z0 c <? - DZMAX) then x else if dr2_int (c_eta c) (c_phi c) (n_eta n) (n_phi n) <=? DR2MAX then y else x) = x.
Proof.
  intros U. rewrite cut_eq. change dr2_int with dist2. destruct U as [U|U].
  - destruct (Z.leb_spec (Z.abs (z - c_z0 c)) 256); [lia|reflexivity].
  - unfold DR2MAX. destruct (Z.leb_spec (dist2 (c_eta c) (c_phi c) (n_eta n) (n_phi n)) 8404); [lia|]. destruct (negb _); reflexivity.
Qed.
Lemma hw_unseen tab pfch pfne z keep : (forall c n, In c pfch -> In n pfne -> keep c = false -> unseen z c n) ->
  simple_puppi_hw tab (filter keep pfch) pfne z = simple_puppi_hw tab pfch pfne z.
Proof.
  intros H. unfold simple_puppi_hw. f_equal. 
  rewrite (mapM_ext _ (fun n => do sum <- hw_sum pfch z n; Ok (wrapU 32 (Z.shiftr sum 10)))); [reflexivity|].
  intros n N. f_equal. unfold hw_sum. apply foldM_filter. intros s c C K. cbv zeta. apply unseen_step. auto.
Qed.
Lemma ref_unseen tab pfch pfne z keep : (forall c n, In c pfch -> In n pfne -> n_pt n <> 0 -> keep c = false -> unseen z c n) ->
  simple_puppi_ref tab (filter keep pfch) pfne z = simple_puppi_ref tab pfch pfne z.
Proof.
  intros H. unfold simple_puppi_ref. apply mapM_ext. intros n N. destruct (Z.eqb_spec (n_pt n) 0) as [E|E]; [reflexivity|].
  replace (ref_sum (filter keep pfch) z n) with (ref_sum pfch z n); [reflexivity|]. symmetry.
  unfold ref_sum. apply foldM_filter. intros s c C K. cbv zeta. apply unseen_step. auto.
Qed.

(** *** order of the charged candidates *)
Lemma alpha_int_perm z l l' n : Permutation l l' -> int_alpha_sum z l n = int_alpha_sum z l' n.
Proof. intros P. unfold int_alpha_sum. apply sumZ_perm, Permutation_map, P. Qed.
Lemma hw_dec tab pfch pfne z : table_ok tab -> Forall (fun n => inS 16 (n_pt n)) pfne ->
  simple_puppi_hw tab pfch pfne z = Ok (map (fun n => set_puppi n (int_puppi_pt tab (n_pt n) (int_alpha_sum z pfch n))) pfne) \/ simple_puppi_hw tab pfch pfne z = UB SignedOverflow.
Proof.
  intros T R. destruct (hw_exact tab pfch pfne z T R) as (G & B).
  assert (forall l : list PFNe, (forall n k, In n l -> is_int (int_alpha_sum z (firstn k pfch) n)) \/ ~ (forall n k, In n l -> is_int (int_alpha_sum z (firstn k pfch) n))) as D.
  { induction l as [|n l IH]; [left; intros ? ? []|]. destruct (prefixes_dec z pfch n) as [P|(k & P)]; [|right; intros F; apply P, F; left; reflexivity].
    destruct IH as [IH|IH]; [left; intros m k [<-|M]; auto|right; intros F; apply IH; intros m k M; apply F; right; exact M]. }
  destruct (D pfne); [left; apply G|right; apply B]; assumption.
Qed.
Lemma hw_order tab pfch pfch' pfne z r r' : table_ok tab -> Forall (fun n => inS 16 (n_pt n)) pfne -> Permutation pfch pfch' ->
  simple_puppi_hw tab pfch pfne z = Ok r -> simple_puppi_hw tab pfch' pfne z = Ok r' -> r = r'.
Proof.
  intros T R P E E'. destruct (hw_dec tab pfch pfne z T R) as [G|G]; rewrite G in E; [|discriminate]. destruct (hw_dec tab pfch' pfne z T R) as [G'|G']; rewrite G' in E'; [|discriminate].
  injection E as <-. injection E' as <-. apply map_ext. intros n. rewrite (alpha_int_perm z pfch pfch') by exact P. reflexivity.
Qed.
Lemma firstn_sub z n pfch k : alpha_sum z (firstn k pfch) n <= alpha_sum z pfch n.
Proof. rewrite <- (firstn_skipn k pfch) at 2. rewrite alpha_sum_app. pose proof (alpha_sum_nonneg z (skipn k pfch) n). lia. Qed.
Lemma int_sum_eq_term z n l : Forall (fun c => is_int (alpha_term z c n)) l -> int_alpha_sum z l n = alpha_sum z l n.
Proof.
  induction 1 as [|c l H _ IH]; [reflexivity|]. rewrite int_cons, IH, to_int_id by exact H. reflexivity.
Qed.
(** no single term of 2^31 or more: then the order does not matter at all *)
Lemma hw_order_full tab pfch pfch' pfne z : table_ok tab -> Forall (fun n => inS 16 (n_pt n)) pfne -> Permutation pfch pfch' ->
  (forall c n, In c pfch -> In n pfne -> alpha_term z c n < 2147483648) -> simple_puppi_hw tab pfch pfne z = simple_puppi_hw tab pfch' pfne z.
Proof.
  intros T R P S.
  assert (forall l, (forall c, In c l -> In c pfch) -> forall n, In n pfne -> int_alpha_sum z l n = alpha_sum z l n) as E.
  { intros l L n N. apply int_sum_eq_term, Forall_forall. intros c C. specialize (S c n (L c C) N). pose proof (alpha_term_nonneg z c n). unfold is_int. lia. }
  assert (forall l, Permutation pfch l -> simple_puppi_hw tab l pfne z = Ok (map (fun n => set_puppi n (int_puppi_pt tab (n_pt n) (alpha_sum z pfch n))) pfne) /\ (forall n, In n pfne -> is_int (alpha_sum z pfch n))
     \/ simple_puppi_hw tab l pfne z = UB SignedOverflow /\ ~ (forall n, In n pfne -> is_int (alpha_sum z pfch n))) as M.
  { intros l L. destruct (hw_exact tab l pfne z T R) as (G & B).
    assert (forall c, In c l -> In c pfch) as LI by (intros c C; eapply Permutation_in; [symmetry; exact L|exact C]).
    assert (forall n, In n pfne -> int_alpha_sum z l n = alpha_sum z pfch n) as EL by (intros n N; rewrite E by auto; symmetry; apply alpha_sum_perm, L).
    assert (forall n k, In n pfne -> int_alpha_sum z (firstn k l) n = alpha_sum z (firstn k l) n) as EF by (intros n k N; apply E; [|exact N]; intros c C; apply LI; rewrite <- (firstn_skipn k l); apply in_or_app; left; exact C).
    assert (((forall n k, In n pfne -> is_int (int_alpha_sum z (firstn k l) n)) <-> (forall n, In n pfne -> is_int (alpha_sum z pfch n)))) as Q.
    { split; intros H n.
      - intros N. specialize (H n (length l) N). rewrite firstn_all, EL in H by exact N. exact H.
      - intros k N. rewrite EF by exact N. specialize (H n N). pose proof (firstn_sub z n l k). rewrite (alpha_sum_perm z l pfch) in H0 by (symmetry; exact L).
        pose proof (alpha_sum_nonneg z (firstn k l) n). unfold is_int in *. lia. }
    destruct (hw_dec tab l pfne z T R) as [D|D].
    - left. destruct (hw_dec tab l pfne z T R) as [D'|D']; [|congruence]. 
      assert (~ ~ (forall n, In n pfne -> is_int (alpha_sum z pfch n))) as NN by (intros F; rewrite B in D by (rewrite Q; exact F); discriminate).
      assert (forall n, In n pfne -> is_int (alpha_sum z pfch n)) as H.
      { intros n N. destruct (is_int_dec (alpha_sum z pfch n)) as [I|I]; [exact I|]. exfalso. apply NN. intros F. apply I, F, N. }
      split; [|exact H]. rewrite D. f_equal. apply map_ext_in. intros n N. rewrite EL by exact N. reflexivity.
    - right. split; [exact D|]. intros H. rewrite G in D by (rewrite Q; exact H). discriminate. }
  destruct (M pfch (Permutation_refl _)) as [(A & HA)|(A & HA)], (M pfch' P) as [(B & HB)|(B & HB)]; try (exfalso; auto; fail); congruence.
Qed.
Lemma ref_order tab pfch pfch' pfne z : table_ok tab -> Forall (fun c => inS 16 (c_pt c)) pfch -> Forall (fun n => inS 16 (n_pt n)) pfne -> Permutation pfch pfch' ->
  simple_puppi_ref tab pfch pfne z = simple_puppi_ref tab pfch' pfne z.
Proof.
  intros T C R P. assert (Forall (fun c => inS 16 (c_pt c)) pfch') as C' by (rewrite Forall_forall in *; intros c I; apply C; eapply Permutation_in; [symmetry; exact P|exact I]).
  destruct (ref_exact tab pfch pfne z T C R) as (G & B). destruct (ref_exact tab pfch' pfne z T C' R) as (G' & B').
  assert (forall n, alpha_sum z pfch' n = alpha_sum z pfch n) as E by (intros n; apply alpha_sum_perm; symmetry; exact P).
  assert ((forall n, In n pfne -> n_pt n <> 0 -> is_int (alpha_sum z pfch n)) \/ ~ (forall n, In n pfne -> n_pt n <> 0 -> is_int (alpha_sum z pfch n))) as D.
  { clear - pfne. induction pfne as [|n l IH]; [left; intros ? []|]. destruct (Z.eq_dec (n_pt n) 0) as [N0|N0].
    - destruct IH as [IH|IH]; [left; intros m [<-|M]; auto; contradiction|right; intros F; apply IH; intros m M; apply F; right; exact M].
    - destruct (is_int_dec (alpha_sum z pfch n)) as [I|I]; [|right; intros F; apply I, F; [left; reflexivity|exact N0]].
      destruct IH as [IH|IH]; [left; intros m [<-|M]; auto|right; intros F; apply IH; intros m M; apply F; right; exact M]. }
  destruct D as [D|D].
  - rewrite G by exact D. rewrite G' by (intros n N N0; rewrite E; auto). f_equal. apply map_ext. intros n. rewrite E. reflexivity.
  - rewrite B by exact D. rewrite B'; [reflexivity|]. intros F. apply D. intros n N N0. rewrite <- E. auto.
Qed.
