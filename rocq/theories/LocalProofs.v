(** Isolated groups of objects: the specification at the slots of the group is
    the specification of the group. *)
From Coq Require Import Permutation Sorting.Sorted.
From Verif Require Import Base BaseFacts Data PFHw PFRef SpecLink LinkFacts SpecSort RankFacts SortProofs MapiFacts SpecPF SpecPFWrap SpecPFRef SpecSym SymProofs SpecLocal InsertFacts PFWrap PFWrapFacts PFRefWrap PFRefAgree.

Section pick.
Context {A : Type} (q : nat -> nat) (small big : list A).
Hypothesis P : picks q small big.
Notation n := (length small).
Notation N := (length big).
Lemma q_inj i j : (i < n)%nat -> (j < n)%nat -> q i = q j -> i = j.
Proof. intros I J E. destruct P as (_ & M). destruct (Nat.lt_trichotomy i j) as [H|[H|H]]; [specialize (M _ _ H J); lia|exact H|specialize (M _ _ H I); lia]. Qed.
Lemma q_lt i : (i < n)%nat -> (q i < N)%nat.
Proof. intros I. destruct P as (H & _). destruct (nth_error_lt small i I) as (x & X). specialize (H i I). rewrite X in H. apply nth_error_Some. congruence. Qed.
Lemma inside_dec j : {inside q n j} + {~ inside q n j}.
Proof.
  destruct (existsb (fun i => (q i =? j)%nat) (seq 0 n)) eqn:E.
  - left. apply existsb_exists in E as (i & I & Q). apply in_seq in I. apply Nat.eqb_eq in Q. exists i. split; [lia|exact Q].
  - right. intros (i & I & Q). assert (X : existsb (fun i => (q i =? j)%nat) (seq 0 n) = true) by (apply existsb_exists; exists i; split; [apply in_seq; lia|apply Nat.eqb_eq; exact Q]). congruence.
Qed.
Lemma seq_split : exists rest, Permutation (seq 0 N) (map q (seq 0 n) ++ rest) /\ forall j, In j rest -> (j < N)%nat /\ ~ inside q n j.
Proof.
  exists (filter (fun j => if inside_dec j then false else true) (seq 0 N)). split.
  - apply NoDup_Permutation; [apply seq_NoDup| |].
    + assert (G : forall m k, (m + k <= n)%nat -> NoDup (map q (seq m k))).
      { intros m k. revert m. induction k as [|k IH]; intros m H; [constructor|]. cbn. constructor; [|apply IH; lia]. intros I. apply in_map_iff in I as (j & Q & J). apply in_seq in J. apply q_inj in Q; lia. }
      assert (D : forall a b : list nat, NoDup a -> NoDup b -> (forall x, In x a -> ~ In x b) -> NoDup (a ++ b)).
      { induction a as [|x a IH]; intros b Ha Hb H; [exact Hb|]. inversion Ha; subst. cbn. constructor; [intros I; apply in_app_or in I as [I|I]; [tauto|exact (H x (or_introl eq_refl) I)]|]. apply IH; [assumption|assumption|]. intros y Y. apply H. right. exact Y. }
      apply D; [apply G; lia|apply NoDup_filter, seq_NoDup|]. intros x I J. apply in_map_iff in I as (i & <- & I). apply in_seq in I. apply filter_In in J as (_ & J). destruct (inside_dec (q i)) as [|C]; [discriminate|]. apply C. exists i. split; [lia|reflexivity].
    + intros j. rewrite in_app_iff, filter_In, in_map_iff, in_seq. split.
      * intros J. destruct (inside_dec j) as [(i & I & Q)|O]; [left; exists i; split; [exact Q|apply in_seq; lia]|right; split; [lia|reflexivity]].
      * intros [(i & <- & I)|(J & _)]; [|exact J]. apply in_seq in I. pose proof (q_lt i ltac:(lia)). lia.
  - intros j J. apply filter_In in J as (J & O). apply in_seq in J. destruct (inside_dec j) as [|C]; [discriminate|]. split; [lia|exact C].
Qed.
Lemma as_seq {B} (d : B) (l : list B) : map Some l = map (nth_error l) (seq 0 (length l)).
Proof. apply nth_error_ext. intros j. rewrite !nth_error_map', nth_error_seq. destruct (Nat.ltb_spec j (length l)) as [H|H]; [destruct (nth_error_lt l j H) as (x & X); rewrite X; cbn; rewrite X; reflexivity|]. apply nth_error_None in H. rewrite H. reflexivity. Qed.
(** a list over [big] is one over [small] and the rest *)
Lemma split_list {B} (g g' : nat -> A -> B) : (forall i x, nth_error small i = Some x -> g' (q i) x = g i x) ->
  exists rest, Permutation (mapi g' big) (mapi g small ++ rest) /\ forall z, In z rest -> exists j y, nth_error big j = Some y /\ ~ inside q n j /\ z = g' j y.
Proof.
  intros E. destruct seq_split as (rest & PR & HR). set (pick := fun j => match nth_error (mapi g' big) j with Some z => [z] | None => [] end).
  assert (F : forall X (m : list X), List.concat (map (fun x => [x]) m) = m) by (intros X m; induction m as [|x m IH]; [reflexivity|cbn; rewrite IH; reflexivity]).
  assert (G : forall X (m : list X), m = List.concat (map (fun j => match nth_error m j with Some z => [z] | None => [] end) (seq 0 (length m)))).
  { intros X m. rewrite <- (F X m) at 1. f_equal. apply nth_error_ext. intros j. rewrite !nth_error_map', nth_error_seq. destruct (Nat.ltb_spec j (length m)) as [H|H]; [destruct (nth_error_lt m j H) as (x & X0); rewrite X0; cbn; rewrite X0; reflexivity|]. apply nth_error_None in H. rewrite H. reflexivity. }
  exists (List.concat (map pick rest)). split.
  - rewrite (G _ (mapi g' big)), length_mapi. fold pick. assert (PC : forall a b, Permutation a b -> Permutation (List.concat (map pick a)) (List.concat (map pick b))).
    { induction 1; cbn; [reflexivity|apply Permutation_app_head; assumption|rewrite !app_assoc; apply Permutation_app_tail, Permutation_app_comm|etransitivity; eassumption]. }
    rewrite (PC _ _ PR), map_app, concat_app. apply Permutation_app_tail. rewrite (G _ (mapi g small)), length_mapi, map_map. match goal with |- Permutation ?a ?b => replace a with b; [reflexivity|] end. f_equal. apply map_ext_in. intros i I. apply in_seq in I. unfold pick. rewrite !nth_error_mapi. destruct P as (H & _). rewrite H by lia. destruct (nth_error small i) as [x|] eqn:X; [|reflexivity]. cbn. rewrite E by exact X. reflexivity.
  - intros z Z. apply in_concat in Z as (l & L & Z). apply in_map_iff in L as (j & <- & J). destruct (HR j J) as (_ & O). unfold pick in Z. rewrite nth_error_mapi in Z. destruct (nth_error big j) as [y|] eqn:Y; [|destruct Z]. destruct Z as [<-|[]]. exists j, y. auto.
Qed.
Lemma sum_pick (sel sel' : nat -> A -> bool) (f : A -> Z) : (forall i x, nth_error small i = Some x -> sel' (q i) x = sel i x) -> (forall j y, nth_error big j = Some y -> ~ inside q n j -> sel' j y = false) ->
  sum_where sel' f big = sum_where sel f small.
Proof.
  intros E O. unfold sum_where. destruct (split_list (fun i x => if sel i x then f x else 0) (fun i x => if sel' i x then f x else 0)) as (rest & PR & HR); [intros i x X; rewrite E by exact X; reflexivity|].
  assert (S : forall a b, Permutation a b -> sumZ a = sumZ b) by (induction 1; cbn in *; unfold sumZ in *; cbn in *; lia). rewrite (S _ _ PR).
  assert (Z : forall r, (forall z, In z r -> z = 0) -> forall a, sumZ (a ++ r) = sumZ a).
  { intros r H a. assert (R0 : fold_right Z.add 0 r = 0) by (induction r as [|z r IH]; [reflexivity|cbn; rewrite (H z (or_introl eq_refl)), IH; [reflexivity|intros; apply H; right; assumption]]). unfold sumZ. rewrite fold_right_app. fold (sumZ r) in R0 |- *. unfold sumZ in *. rewrite R0. reflexivity. }
  apply Z. intros z I. destruct (HR z I) as (j & y & Y & OO & ->). rewrite O by assumption. reflexivity.
Qed.
Lemma exists_pick (g g' : nat -> A -> bool) : (forall i x, nth_error small i = Some x -> g' (q i) x = g i x) -> (forall j y, nth_error big j = Some y -> ~ inside q n j -> g' j y = false) ->
  existsb (fun '(k, e) => g' k e) (indexed big) = existsb (fun '(k, e) => g k e) (indexed small).
Proof.
  intros E O. apply eq_true_iff_eq. rewrite !existsb_exists. split; intros ((j & y) & I & G); apply in_indexed in I.
  - destruct (inside_dec j) as [(i & Hi & <-)|C]; [|rewrite O in G by assumption; discriminate]. destruct P as (H & _). rewrite H in I by exact Hi. exists (i, y). split; [apply in_indexed; exact I|]. rewrite <- E by exact I. exact G.
  - exists (q j, y). assert (Hj : (j < n)%nat) by (apply nth_error_Some; congruence). destruct P as (H & _). split; [apply in_indexed; rewrite H by exact Hj; exact I|]. rewrite E by exact I. exact G.
Qed.
Lemma best_pick (g g' : A -> option Z) : (forall i x, nth_error small i = Some x -> g' x = g x) -> (forall j y, nth_error big j = Some y -> ~ inside q n j -> g' y = None) ->
  best (map g' big) = option_map q (best (map g small)).
Proof.
  intros E O. destruct P as (H & M). destruct (best (map g small)) as [i|] eqn:B.
  - apply best_spec. apply best_spec in B. destruct B as (v & V & W). rewrite nth_error_map' in V. destruct (nth_error small i) as [x|] eqn:X; [|discriminate]. cbn in V. assert (Hi : (i < n)%nat) by (apply nth_error_Some; congruence).
    exists v. split; [rewrite nth_error_map', H by exact Hi; rewrite X; cbn; rewrite (E _ _ X); exact V|]. intros j w J. rewrite nth_error_map' in J. destruct (nth_error big j) as [y|] eqn:Y; [|discriminate]. cbn in J.
    destruct (inside_dec j) as [(k & Hk & <-)|C]; [|rewrite (O _ _ Y C) in J; discriminate]. rewrite H in Y by exact Hk. specialize (W k w). rewrite nth_error_map', Y in W. cbn in W. rewrite (E _ _ Y) in J. destruct (W J) as [|(-> & L)]; [left; assumption|]. right. split; [reflexivity|].
    apply Nat.lt_eq_cases in L as [L| ->]; [specialize (M _ _ L Hk); lia|lia].
  - apply best_None. apply best_None in B. intros (j & w & J). rewrite nth_error_map' in J. destruct (nth_error big j) as [y|] eqn:Y; [|discriminate]. cbn in J. destruct (inside_dec j) as [(k & Hk & <-)|C]; [|rewrite (O _ _ Y C) in J; discriminate].
    apply B. rewrite H in Y by exact Hk. exists k, w. rewrite nth_error_map', Y. cbn. rewrite <- (E _ _ Y). exact J.
Qed.
Lemma best_outside (g' : A -> option Z) j : (forall i x, nth_error small i = Some x -> g' x = None) -> best (map g' big) = Some j -> ~ inside q n j.
Proof.
  intros E B (i & Hi & <-). apply best_spec in B. destruct B as (v & V & _). rewrite nth_error_map' in V. destruct P as (H & _). rewrite H in V by exact Hi. destruct (nth_error small i) as [x|] eqn:X; [|discriminate]. cbn in V. rewrite (E _ _ X) in V. discriminate.
Qed.
Lemma opt_is_pick b k : (forall i, b = Some i -> (i < n)%nat) -> (k < n)%nat -> opt_is (option_map q b) (q k) = opt_is b k.
Proof. intros B K. destruct b as [i|]; [|reflexivity]. cbn. destruct (Nat.eqb_spec i k) as [->|NE]; [apply Nat.eqb_refl|]. apply Nat.eqb_neq. intros Q. apply NE. apply q_inj; [apply B; reflexivity|exact K|exact Q]. Qed.
Lemma opt_is_outside b k : (forall j, b = Some j -> ~ inside q n j) -> (k < n)%nat -> opt_is b (q k) = false.
Proof. intros B K. destruct b as [j|]; [|reflexivity]. cbn. apply Nat.eqb_neq. intros ->. apply (B _ eq_refl). exists k. auto. Qed.
Lemma picked i x : nth_error small i = Some x -> nth_error big (q i) = Some x /\ (i < n)%nat.
Proof. intros X. assert (H : (i < n)%nat) by (apply nth_error_Some; congruence). split; [rewrite (proj1 P) by exact H; exact X|exact H]. Qed.
End pick.

Section group.
Variables (qe qh qt qm : nat -> nat).
Variables (em em' : list EmCalo) (had had' : list HadCalo) (track track' : list Tk) (mu mu' : list Mu).
Hypothesis ISO : isolated qe qh qt qm em em' had had' track track' mu mu'.
Lemma ins {A} q (small big : list A) i x : picks q small big -> nth_error small i = Some x -> nth_error big (q i) = Some x /\ inside q (length small) (q i).
Proof. intros P X. destruct (picked _ _ _ P _ _ X) as (B & L). split; [exact B|]. exists i. auto. Qed.
Lemma mu_in i m : nth_error mu i = Some m -> mu_match track' m = option_map qt (mu_match track m).
Proof.
  intros M. unfold mu_match. destruct (0 <? m_pt m); [|reflexivity]. destruct (ins _ _ _ _ _ (iso_mu _ _ _ _ _ _ _ _ _ _ _ _ ISO) M) as (M' & I).
  apply (best_pick qt track track' (iso_tk _ _ _ _ _ _ _ _ _ _ _ _ ISO)); [reflexivity|]. intros j y Y O. pose proof (iso_mu_tk _ _ _ _ _ _ _ _ _ _ _ _ ISO _ _ _ _ M' Y (or_introl (conj I O))) as D.
  cbn zeta. destruct (Z.ltb_spec (dist2 (m_eta m) (m_phi m) (t_eta y) (t_phi y)) 2101); [lia|reflexivity].
Qed.
Lemma mu_out_ i m j : nth_error mu' i = Some m -> ~ inside qm (length mu) i -> mu_match track' m = Some j -> ~ inside qt (length track) j.
Proof.
  intros M O. unfold mu_match. destruct (0 <? m_pt m); [|discriminate]. apply (best_outside qt track track' (iso_tk _ _ _ _ _ _ _ _ _ _ _ _ ISO)). intros k y Y. destruct (ins _ _ _ _ _ (iso_tk _ _ _ _ _ _ _ _ _ _ _ _ ISO) Y) as (Y' & I).
  pose proof (iso_mu_tk _ _ _ _ _ _ _ _ _ _ _ _ ISO _ _ _ _ M Y' (or_intror (conj O I))) as D. cbn zeta. destruct (Z.ltb_spec (dist2 (m_eta m) (m_phi m) (t_eta y) (t_phi y)) 2101); [lia|reflexivity].
Qed.
Lemma match_lt m i : mu_match track m = Some i -> (i < length track)%nat.
Proof. unfold mu_match. destruct (0 <? m_pt m); [|discriminate]. intros B. apply best_lt in B. unfold cand_mu_tk in B. rewrite map_length in B. exact B. Qed.
Lemma is_mu_in i : (i < length track)%nat -> is_mu track' mu' (qt i) = is_mu track mu i.
Proof.
  intros I. unfold is_mu. pose proof (exists_pick qm mu mu' (iso_mu _ _ _ _ _ _ _ _ _ _ _ _ ISO) (fun _ m => opt_is (mu_match track m) i) (fun _ m => opt_is (mu_match track' m) (qt i))) as E.
  assert (F : forall (g : Mu -> bool) l, existsb (fun '(k, e) => g e) (indexed l) = existsb g l).
  { intros g l. apply eq_true_iff_eq. rewrite !existsb_exists. split; [intros ((k & e) & X & G); apply in_indexed, nth_error_In in X; exists e; auto|intros (e & X & G); apply In_nth_error in X as (k & X); exists (k, e); split; [apply in_indexed; exact X|exact G]]. }
  rewrite <- (F _ mu), <- (F _ mu'). apply E.
  - intros k m M. rewrite (mu_in _ _ M). apply (opt_is_pick qt track track' (iso_tk _ _ _ _ _ _ _ _ _ _ _ _ ISO)); [apply match_lt|exact I].
  - intros j m M O. exact (opt_is_outside qt track _ i (fun j => mu_out_ _ m j M O) I).
Qed.
Lemma em_in i tk : nth_error track i = Some tk -> em_match em' track' mu' (qt i) tk = option_map qe (em_match em track mu i tk).
Proof.
  intros T. destruct (ins _ _ _ _ _ (iso_tk _ _ _ _ _ _ _ _ _ _ _ _ ISO) T) as (T' & I). unfold em_match. rewrite is_mu_in by (apply nth_error_Some; congruence). destruct (is_mu track mu i); [reflexivity|].
  apply (best_pick qe em em' (iso_em _ _ _ _ _ _ _ _ _ _ _ _ ISO)); [reflexivity|]. intros j y Y O. pose proof (iso_tk_em _ _ _ _ _ _ _ _ _ _ _ _ ISO _ _ _ _ T' Y (or_introl (conj I O))) as D.
  cbn zeta. destruct (Z.ltb_spec (dist2 (t_eta tk) (t_phi tk) (e_eta y) (e_phi y)) 84); [lia|reflexivity].
Qed.
Lemma em_out i tk j : nth_error track' i = Some tk -> ~ inside qt (length track) i -> em_match em' track' mu' i tk = Some j -> ~ inside qe (length em) j.
Proof.
  intros T O. unfold em_match. destruct (is_mu track' mu' i); [discriminate|]. apply (best_outside qe em em' (iso_em _ _ _ _ _ _ _ _ _ _ _ _ ISO)). intros k y Y. destruct (ins _ _ _ _ _ (iso_em _ _ _ _ _ _ _ _ _ _ _ _ ISO) Y) as (Y' & I).
  pose proof (iso_tk_em _ _ _ _ _ _ _ _ _ _ _ _ ISO _ _ _ _ T Y' (or_intror (conj O I))) as D. cbn zeta. destruct (Z.ltb_spec (dist2 (t_eta tk) (t_phi tk) (e_eta y) (e_phi y)) 84); [lia|reflexivity].
Qed.
Lemma em_lt i tk k : em_match em track mu i tk = Some k -> (k < length em)%nat.
Proof. unfold em_match. destruct (is_mu track mu i); [discriminate|]. intros B. apply best_lt in B. unfold cand_tk_em in B. rewrite map_length in B. exact B. Qed.
Lemma tksum_in k : (k < length em)%nat -> em_tksum em' track' mu' (qe k) = em_tksum em track mu k.
Proof.
  intros K. unfold em_tksum. apply (sum_pick qt track track' (iso_tk _ _ _ _ _ _ _ _ _ _ _ _ ISO)).
  - intros i tk T. rewrite (em_in _ _ T). apply (opt_is_pick qe em em' (iso_em _ _ _ _ _ _ _ _ _ _ _ _ ISO)); [apply em_lt|exact K].
  - intros j tk T O. exact (opt_is_outside qe em _ k (fun k => em_out _ tk k T O) K).
Qed.
Lemma em_had_in k e : nth_error em k = Some e -> best (cand_em_had had' e) = option_map qh (best (cand_em_had had e)).
Proof.
  intros E. destruct (ins _ _ _ _ _ (iso_em _ _ _ _ _ _ _ _ _ _ _ _ ISO) E) as (E' & I). apply (best_pick qh had had' (iso_had _ _ _ _ _ _ _ _ _ _ _ _ ISO)); [reflexivity|]. intros j y Y O.
  pose proof (iso_em_had _ _ _ _ _ _ _ _ _ _ _ _ ISO _ _ _ _ E' Y (or_introl (conj I O))) as D. cbn zeta. destruct (Z.ltb_spec (dist2 (e_eta e) (e_phi e) (h_eta y) (h_phi y)) 525); [lia|]. rewrite andb_false_r. reflexivity.
Qed.
Lemma em_had_out k e j : nth_error em' k = Some e -> ~ inside qe (length em) k -> best (cand_em_had had' e) = Some j -> ~ inside qh (length had) j.
Proof.
  intros E O. apply (best_outside qh had had' (iso_had _ _ _ _ _ _ _ _ _ _ _ _ ISO)). intros i y Y. destruct (ins _ _ _ _ _ (iso_had _ _ _ _ _ _ _ _ _ _ _ _ ISO) Y) as (Y' & I).
  pose proof (iso_em_had _ _ _ _ _ _ _ _ _ _ _ _ ISO _ _ _ _ E Y' (or_intror (conj O I))) as D. cbn zeta. destruct (Z.ltb_spec (dist2 (e_eta e) (e_phi e) (h_eta y) (h_phi y)) 525); [lia|]. rewrite andb_false_r. reflexivity.
Qed.
Lemma em_had_lt e h : best (cand_em_had had e) = Some h -> (h < length had)%nat.
Proof. intros B. apply best_lt in B. unfold cand_em_had in B. rewrite map_length in B. exact B. Qed.
Lemma sp_mu_in i m : nth_error mu i = Some m -> sp_mu track' m = sp_mu track m.
Proof. intros M. unfold sp_mu. rewrite (mu_in _ _ M). destruct (mu_match track m) as [j|] eqn:B; [|reflexivity]. cbn. rewrite (proj1 (iso_tk _ _ _ _ _ _ _ _ _ _ _ _ ISO)) by exact (match_lt _ _ B). reflexivity. Qed.

Lemma tksum_w_in k : (k < length em)%nat -> em_tksum_w em' track' mu' (qe k) = em_tksum_w em track mu k.
Proof. intros K. unfold em_tksum_w. rewrite tksum_in by exact K. reflexivity. Qed.
Lemma is_em_w_in k e : (k < length em)%nat -> is_em_w em' track' mu' (qe k) e = is_em_w em track mu k e.
Proof. intros K. unfold is_em_w. rewrite tksum_w_in by exact K. reflexivity. Qed.
Lemma is_ele_w_in i tk : nth_error track i = Some tk -> is_ele_w em' track' mu' (qt i) tk = is_ele_w em track mu i tk.
Proof.
  intros T. unfold is_ele_w. rewrite (em_in _ _ T). destruct (em_match em track mu i tk) as [k|] eqn:B; [|reflexivity]. cbn. apply em_lt in B. rewrite (proj1 (iso_em _ _ _ _ _ _ _ _ _ _ _ _ ISO)) by exact B. destruct (nth_error em k); [|reflexivity]. apply is_em_w_in. exact B.
Qed.
Lemma emsum_w_in h : (h < length had)%nat -> had_emsum_w em' had' track' mu' (qh h) = had_emsum_w em had track mu h.
Proof.
  intros H. unfold had_emsum_w. f_equal. apply (sum_pick qe em em' (iso_em _ _ _ _ _ _ _ _ _ _ _ _ ISO)).
  - intros k e E. rewrite is_em_w_in by (apply nth_error_Some; congruence). rewrite (em_had_in _ _ E). rewrite (opt_is_pick qh had had' (iso_had _ _ _ _ _ _ _ _ _ _ _ _ ISO)); [reflexivity|apply em_had_lt|exact H].
  - intros k e E O. rewrite (opt_is_outside qh had _ h (fun j => em_had_out _ e j E O) H). apply andb_false_r.
Qed.
Lemma left_pt_w_in h c : (h < length had)%nat -> had_left_pt_w em' had' track' mu' (qh h) c = had_left_pt_w em had track mu h c.
Proof. intros H. unfold had_left_pt_w. rewrite emsum_w_in by exact H. reflexivity. Qed.
Lemma left_w_picks : picks qh (had_left_w em had track mu) (had_left_w em' had' track' mu').
Proof.
  unfold had_left_w. split; rewrite length_mapi; [|apply (iso_had _ _ _ _ _ _ _ _ _ _ _ _ ISO)]. intros i I. rewrite !nth_error_mapi, (proj1 (iso_had _ _ _ _ _ _ _ _ _ _ _ _ ISO)) by exact I. destruct (nth_error had i); [|reflexivity]. cbn. rewrite left_pt_w_in by exact I. reflexivity.
Qed.
Lemma left_w_len : length (had_left_w em had track mu) = length had. Proof. apply length_mapi. Qed.
Lemma had_w_in i tk : nth_error track i = Some tk -> had_match_w em' had' track' mu' tk = option_map qh (had_match_w em had track mu tk).
Proof.
  intros T. destruct (ins _ _ _ _ _ (iso_tk _ _ _ _ _ _ _ _ _ _ _ _ ISO) T) as (T' & I). unfold had_match_w. apply (best_pick qh _ _ left_w_picks); [reflexivity|]. rewrite left_w_len. intros j y Y O.
  unfold had_left_w in Y. rewrite nth_error_mapi in Y. destruct (nth_error had' j) as [c|] eqn:C; [|discriminate]. injection Y as <-.
  pose proof (iso_tk_had _ _ _ _ _ _ _ _ _ _ _ _ ISO _ _ _ _ T' C (or_introl (conj I O))) as D. cbn [h_eta h_phi h_pt]. cbn zeta. destruct (Z.ltb_spec (dist2 (t_eta tk) (t_phi tk) (h_eta c) (h_phi c)) 756); [lia|]. rewrite andb_false_r. reflexivity.
Qed.
Lemma had_w_out i tk j : nth_error track' i = Some tk -> ~ inside qt (length track) i -> had_match_w em' had' track' mu' tk = Some j -> ~ inside qh (length had) j.
Proof.
  intros T O. rewrite <- left_w_len. apply (best_outside qh _ _ left_w_picks). intros k y Y. unfold had_left_w in Y. rewrite nth_error_mapi in Y. destruct (nth_error had k) as [c|] eqn:C; [|discriminate]. injection Y as <-.
  destruct (ins _ _ _ _ _ (iso_had _ _ _ _ _ _ _ _ _ _ _ _ ISO) C) as (C' & I). pose proof (iso_tk_had _ _ _ _ _ _ _ _ _ _ _ _ ISO _ _ _ _ T C' (or_intror (conj O I))) as D.
  cbn [h_eta h_phi h_pt]. cbn zeta. destruct (Z.ltb_spec (dist2 (t_eta tk) (t_phi tk) (h_eta c) (h_phi c)) 756); [lia|]. rewrite andb_false_r. reflexivity.
Qed.
Lemma had_w_lt tk h : had_match_w em had track mu tk = Some h -> (h < length had)%nat.
Proof. intros B. apply best_lt in B. unfold cand_tk_had in B. rewrite map_length, left_w_len in B. exact B. Qed.
Lemma in_had_w_in h i tk : (h < length had)%nat -> nth_error track i = Some tk -> in_had_w em' had' track' mu' (qh h) (qt i) tk = in_had_w em had track mu h i tk.
Proof.
  intros H T. unfold in_had_w. rewrite (is_ele_w_in _ _ T), is_mu_in by (apply nth_error_Some; congruence). rewrite (had_w_in _ _ T). rewrite (opt_is_pick qh had had' (iso_had _ _ _ _ _ _ _ _ _ _ _ _ ISO)); [reflexivity|apply had_w_lt|exact H].
Qed.
Lemma in_had_w_out h i tk : (h < length had)%nat -> nth_error track' i = Some tk -> ~ inside qt (length track) i -> in_had_w em' had' track' mu' (qh h) i tk = false.
Proof. intros H T O. unfold in_had_w. rewrite (opt_is_outside qh had _ h (fun j => had_w_out _ tk j T O) H). apply andb_false_r. Qed.
Lemma tksum_h_w_in h : (h < length had)%nat -> had_tksum_w em' had' track' mu' (qh h) = had_tksum_w em had track mu h.
Proof. intros H. unfold had_tksum_w. rewrite (sum_pick qt track track' (iso_tk _ _ _ _ _ _ _ _ _ _ _ _ ISO) (in_had_w em had track mu h)); [reflexivity|intros i tk T; apply in_had_w_in; assumption|intros j tk T O; apply in_had_w_out; assumption]. Qed.
Lemma err2_w_in h : (h < length had)%nat -> had_err2_w em' had' track' mu' (qh h) = had_err2_w em had track mu h.
Proof. intros H. unfold had_err2_w. apply (sum_pick qt track track' (iso_tk _ _ _ _ _ _ _ _ _ _ _ _ ISO)); [intros i tk T; apply in_had_w_in; assumption|intros j tk T O; apply in_had_w_out; assumption]. Qed.
Lemma ne_pt_w_in h c : (h < length had)%nat -> ne_pt_w em' had' track' mu' (qh h) c = ne_pt_w em had track mu h c.
Proof. intros H. unfold ne_pt_w. rewrite left_pt_w_in, tksum_h_w_in, err2_w_in by exact H. reflexivity. Qed.
Lemma ch_w_in i tk : nth_error track i = Some tk -> sp_ch_w em' had' track' mu' (qt i) tk = sp_ch_w em had track mu i tk.
Proof.
  intros T. unfold sp_ch_w, ch_kept_w. rewrite (is_ele_w_in _ _ T), is_mu_in by (apply nth_error_Some; congruence). rewrite (had_w_in _ _ T). destruct (had_match_w em had track mu tk); reflexivity.
Qed.
Lemma ints_w_in : ints_fit em' had' track' mu' -> ints_fit em had track mu.
Proof.
  intros (A & B). split.
  - intros k e E. destruct (picked _ _ _ (iso_em _ _ _ _ _ _ _ _ _ _ _ _ ISO) _ _ E) as (E' & K). specialize (A _ _ E'). rewrite tksum_w_in in A by exact K. exact A.
  - intros h c C. destruct (picked _ _ _ (iso_had _ _ _ _ _ _ _ _ _ _ _ _ ISO) _ _ C) as (C' & H). specialize (B _ _ C'). rewrite err2_w_in, tksum_h_w_in, left_pt_w_in in B by exact H. exact B.
Qed.

Lemma tksum_r_in k : (k < length em)%nat -> em_tksum_r em' track' mu' (qe k) = em_tksum_r em track mu k.
Proof. intros K. unfold em_tksum_r. rewrite tksum_in by exact K. reflexivity. Qed.
Lemma is_em_r_in k e : (k < length em)%nat -> is_em_r em' track' mu' (qe k) e = is_em_r em track mu k e.
Proof. intros K. unfold is_em_r. rewrite tksum_r_in by exact K. reflexivity. Qed.
Lemma is_ele_r_in i tk : nth_error track i = Some tk -> is_ele_r em' track' mu' (qt i) tk = is_ele_r em track mu i tk.
Proof.
  intros T. unfold is_ele_r. rewrite (em_in _ _ T). destruct (em_match em track mu i tk) as [k|] eqn:B; [|reflexivity]. cbn. apply em_lt in B. rewrite (proj1 (iso_em _ _ _ _ _ _ _ _ _ _ _ _ ISO)) by exact B. destruct (nth_error em k); [|reflexivity]. apply is_em_r_in. exact B.
Qed.
Lemma emsum_r_in h : (h < length had)%nat -> had_emsum_r em' had' track' mu' (qh h) = had_emsum_r em had track mu h.
Proof.
  intros H. unfold had_emsum_r. f_equal. apply (sum_pick qe em em' (iso_em _ _ _ _ _ _ _ _ _ _ _ _ ISO)).
  - intros k e E. rewrite is_em_r_in by (apply nth_error_Some; congruence). rewrite (em_had_in _ _ E). rewrite (opt_is_pick qh had had' (iso_had _ _ _ _ _ _ _ _ _ _ _ _ ISO)); [reflexivity|apply em_had_lt|exact H].
  - intros k e E O. rewrite (opt_is_outside qh had _ h (fun j => em_had_out _ e j E O) H). apply andb_false_r.
Qed.
Lemma keep_r_in h : (h < length had)%nat -> had_keep_r em' had' track' mu' true (qh h) = had_keep_r em had track mu true h.
Proof.
  intros H. unfold had_keep_r. cbn [andb]. apply (exists_pick qe em em' (iso_em _ _ _ _ _ _ _ _ _ _ _ _ ISO)).
  - intros k e E. rewrite is_em_r_in by (apply nth_error_Some; congruence). rewrite (em_had_in _ _ E). rewrite (opt_is_pick qh had had' (iso_had _ _ _ _ _ _ _ _ _ _ _ _ ISO)); [reflexivity|apply em_had_lt|exact H].
  - intros k e E O. rewrite (opt_is_outside qh had _ h (fun j => em_had_out _ e j E O) H). apply andb_false_r.
Qed.
Lemma left_pt_r_in h c : (h < length had)%nat -> had_left_pt_r em' had' track' mu' true (qh h) c = had_left_pt_r em had track mu true h c.
Proof. intros H. unfold had_left_pt_r. rewrite emsum_r_in, keep_r_in by exact H. reflexivity. Qed.
Lemma left_r_picks : picks qh (had_left_r em had track mu true) (had_left_r em' had' track' mu' true).
Proof.
  unfold had_left_r. split; rewrite length_mapi; [|apply (iso_had _ _ _ _ _ _ _ _ _ _ _ _ ISO)]. intros i I. rewrite !nth_error_mapi, (proj1 (iso_had _ _ _ _ _ _ _ _ _ _ _ _ ISO)) by exact I. destruct (nth_error had i); [|reflexivity]. cbn. rewrite left_pt_r_in by exact I. reflexivity.
Qed.
Lemma left_r_len : length (had_left_r em had track mu true) = length had. Proof. apply length_mapi. Qed.
Lemma had_r_in i tk : nth_error track i = Some tk -> had_match_r em' had' track' mu' true tk = option_map qh (had_match_r em had track mu true tk).
Proof.
  intros T. destruct (ins _ _ _ _ _ (iso_tk _ _ _ _ _ _ _ _ _ _ _ _ ISO) T) as (T' & I). unfold had_match_r. apply (best_pick qh _ _ left_r_picks); [reflexivity|]. rewrite left_r_len. intros j y Y O.
  unfold had_left_r in Y. rewrite nth_error_mapi in Y. destruct (nth_error had' j) as [c|] eqn:C; [|discriminate]. injection Y as <-.
  pose proof (iso_tk_had _ _ _ _ _ _ _ _ _ _ _ _ ISO _ _ _ _ T' C (or_introl (conj I O))) as D. cbn [h_eta h_phi h_pt]. cbn zeta. destruct (Z.ltb_spec (dist2 (t_eta tk) (t_phi tk) (h_eta c) (h_phi c)) 756); [lia|]. rewrite andb_false_r. reflexivity.
Qed.
Lemma had_r_out i tk j : nth_error track' i = Some tk -> ~ inside qt (length track) i -> had_match_r em' had' track' mu' true tk = Some j -> ~ inside qh (length had) j.
Proof.
  intros T O. rewrite <- left_r_len. apply (best_outside qh _ _ left_r_picks). intros k y Y. unfold had_left_r in Y. rewrite nth_error_mapi in Y. destruct (nth_error had k) as [c|] eqn:C; [|discriminate]. injection Y as <-.
  destruct (ins _ _ _ _ _ (iso_had _ _ _ _ _ _ _ _ _ _ _ _ ISO) C) as (C' & I). pose proof (iso_tk_had _ _ _ _ _ _ _ _ _ _ _ _ ISO _ _ _ _ T C' (or_intror (conj O I))) as D.
  cbn [h_eta h_phi h_pt]. cbn zeta. destruct (Z.ltb_spec (dist2 (t_eta tk) (t_phi tk) (h_eta c) (h_phi c)) 756); [lia|]. rewrite andb_false_r. reflexivity.
Qed.
Lemma had_r_lt tk h : had_match_r em had track mu true tk = Some h -> (h < length had)%nat.
Proof. intros B. apply best_lt in B. unfold cand_tk_had in B. rewrite map_length, left_r_len in B. exact B. Qed.
Lemma in_had_r_in h i tk : (h < length had)%nat -> nth_error track i = Some tk -> in_had_r em' had' track' mu' true (qh h) (qt i) tk = in_had_r em had track mu true h i tk.
Proof.
  intros H T. unfold in_had_r. rewrite (is_ele_r_in _ _ T), is_mu_in by (apply nth_error_Some; congruence). rewrite (had_r_in _ _ T). rewrite (opt_is_pick qh had had' (iso_had _ _ _ _ _ _ _ _ _ _ _ _ ISO)); [reflexivity|apply had_r_lt|exact H].
Qed.
Lemma in_had_r_out h i tk : (h < length had)%nat -> nth_error track' i = Some tk -> ~ inside qt (length track) i -> in_had_r em' had' track' mu' true (qh h) i tk = false.
Proof. intros H T O. unfold in_had_r. rewrite (opt_is_outside qh had _ h (fun j => had_r_out _ tk j T O) H). apply andb_false_r. Qed.
Lemma tksum_h_r_in h : (h < length had)%nat -> had_tksum_r em' had' track' mu' true (qh h) = had_tksum_r em had track mu true h.
Proof. intros H. unfold had_tksum_r. rewrite (sum_pick qt track track' (iso_tk _ _ _ _ _ _ _ _ _ _ _ _ ISO) (in_had_r em had track mu true h)); [reflexivity|intros i tk T; apply in_had_r_in; assumption|intros j tk T O; apply in_had_r_out; assumption]. Qed.
Lemma err2_r_in h : (h < length had)%nat -> had_err2_r em' had' track' mu' true (qh h) = had_err2_r em had track mu true h.
Proof. intros H. unfold had_err2_r. apply (sum_pick qt track track' (iso_tk _ _ _ _ _ _ _ _ _ _ _ _ ISO)); [intros i tk T; apply in_had_r_in; assumption|intros j tk T O; apply in_had_r_out; assumption]. Qed.
Lemma ne_pt_r_in h c : (h < length had)%nat -> ne_pt_r em' had' track' mu' true (qh h) c = ne_pt_r em had track mu true h c.
Proof. intros H. unfold ne_pt_r. rewrite left_pt_r_in, tksum_h_r_in, err2_r_in by exact H. reflexivity. Qed.
Lemma ch_r_in i tk : nth_error track i = Some tk -> sp_ch_r em' had' track' mu' true (qt i) tk = sp_ch_r em had track mu true i tk.
Proof.
  intros T. unfold sp_ch_r, ch_kept_r. rewrite (is_ele_r_in _ _ T), is_mu_in by (apply nth_error_Some; congruence). rewrite (had_r_in _ _ T). destruct (had_match_r em had track mu true tk); reflexivity.
Qed.
Lemma ints_r_in : ints_fit_r em' had' track' mu' true -> ints_fit_r em had track mu true.
Proof.
  intros (A & B). split.
  - intros k e E. destruct (picked _ _ _ (iso_em _ _ _ _ _ _ _ _ _ _ _ _ ISO) _ _ E) as (E' & K). specialize (A _ _ E'). rewrite tksum_r_in in A by exact K. exact A.
  - intros h c C. destruct (picked _ _ _ (iso_had _ _ _ _ _ _ _ _ _ _ _ _ ISO) _ _ C) as (C' & H). specialize (B _ _ C'). rewrite err2_r_in, tksum_h_r_in in B by exact H. exact B.
Qed.
End group.

Lemma iso_phys qe qh qt qm em em' had had' track track' mu mu' : isolated qe qh qt qm em em' had had' track track' mu mu' -> phys em' had' track' mu' -> phys em had track mu.
Proof.
  intros [A B C D _ _ _ _] (E & H & T & M).
  assert (G : forall X (Q : X -> Prop) q (s b : list X), picks q s b -> Forall Q b -> Forall Q s).
  { intros X Q q s b P F. rewrite Forall_forall in *. intros x I. apply In_nth_error in I as (i & I). destruct (picked _ _ _ P _ _ I) as (J & _). apply F. eapply nth_error_In; exact J. }
  unfold phys. split; [|split; [|split]]; eapply G; eassumption.
Qed.
Lemma ne_obj_no_puppi p eta phi id a b : no_puppi (ne_obj p eta phi id a) = no_puppi (ne_obj p eta phi id b).
Proof. unfold ne_obj. destruct (p =? 0); reflexivity. Qed.
Lemma top_all {T} (pt : T -> Z) n l o : length l = n -> top_n pt true n l o -> Permutation o l.
Proof. intros <- H. apply top_n_is_firstn in H. subst o. rewrite firstn_all2 by (rewrite (Permutation_length (rsort_perm _ _ _)); lia). apply rsort_perm. Qed.
Lemma eq_perm {X} (a b : list X) : a = b -> Permutation a b. Proof. intros ->. reflexivity. Qed.

Lemma fw_isolated qe qh qt qm em em' had had' track track' mu mu' mem mem' out' : isolated qe qh qt qm em em' had had' track track' mu mu' -> phys em' had' track' mu' ->
  pfalgo3_full mem' (length had') em' had' track' mu' = Ok out' ->
  exists out, pfalgo3_full mem (length had) em had track mu = Ok out /\ at_slots id qt (o_ch out) (o_ch out') /\ at_slots no_puppi qe (o_pho out) (o_pho out') /\ at_slots id qm (o_mu out) (o_mu out') /\
    exists rest, Permutation (map no_puppi (o_ne out')) (map no_puppi (o_ne out) ++ rest).
Proof.
  intros ISO HP' R'. assert (HP : phys em had track mu) by (eapply iso_phys; eassumption).
  destruct (wrap_defined_iff em' had' track' mu' mem' (length had') HP' (Nat.le_refl _)) as (D' & _). destruct (wrap_defined_iff em had track mu mem (length had) HP (Nat.le_refl _)) as (D & _).
  destruct (proj2 D (ints_w_in _ _ _ _ _ _ _ _ _ _ _ _ ISO (proj1 D' (ex_intro _ out' R')))) as (out & R). exists out. split; [exact R|].
  destruct (wrap_result em had track mu mem _ out HP (Nat.le_refl _) R) as (C & P & T & M). destruct (wrap_result em' had' track' mu' mem' _ out' HP' (Nat.le_refl _) R') as (C' & P' & T' & M'). rewrite C, C', P, P', M, M'.
  split; [|split; [|split]].
  - intros i x X. rewrite nth_error_mapi in X. destruct (nth_error track i) as [tk|] eqn:K; [|discriminate]. injection X as <-. destruct (picked _ _ _ (iso_tk _ _ _ _ _ _ _ _ _ _ _ _ ISO) _ _ K) as (K' & _). rewrite nth_error_mapi, K'. eexists. split; [reflexivity|]. exact (ch_w_in _ _ _ _ _ _ _ _ _ _ _ _ ISO _ _ K).
  - intros i x X. rewrite nth_error_mapi in X. destruct (nth_error em i) as [e|] eqn:K; [|discriminate]. injection X as <-. destruct (picked _ _ _ (iso_em _ _ _ _ _ _ _ _ _ _ _ _ ISO) _ _ K) as (K' & L). rewrite nth_error_mapi, K'. eexists. split; [reflexivity|]. unfold sp_pho_w. rewrite (tksum_w_in _ _ _ _ _ _ _ _ _ _ _ _ ISO i L). apply ne_obj_no_puppi.
  - intros i x X. rewrite nth_error_map' in X. destruct (nth_error mu i) as [m|] eqn:K; [|discriminate]. injection X as <-. destruct (picked _ _ _ (iso_mu _ _ _ _ _ _ _ _ _ _ _ _ ISO) _ _ K) as (K' & _). rewrite nth_error_map', K'. eexists. split; [reflexivity|]. exact (sp_mu_in _ _ _ _ _ _ _ _ _ _ _ _ ISO _ _ K).
  - assert (Q : Permutation (map no_puppi (o_ne out)) (mapi (fun h c => no_puppi (sp_ne_w em had track mu (fun _ => 0) h c)) had)) by (rewrite (top_all _ _ _ _ (length_mapi _ _) T), map_mapi; apply eq_perm, mapi_ext_in; intros; apply ne_obj_no_puppi).
    assert (Q' : Permutation (map no_puppi (o_ne out')) (mapi (fun h c => no_puppi (sp_ne_w em' had' track' mu' (fun _ => 0) h c)) had')) by (rewrite (top_all _ _ _ _ (length_mapi _ _) T'), map_mapi; apply eq_perm, mapi_ext_in; intros; apply ne_obj_no_puppi).
    destruct (split_list qh had had' (iso_had _ _ _ _ _ _ _ _ _ _ _ _ ISO) (fun h c => no_puppi (sp_ne_w em had track mu (fun _ => 0) h c)) (fun h c => no_puppi (sp_ne_w em' had' track' mu' (fun _ => 0) h c))) as (rest & PR & _).
    { intros h c K. unfold sp_ne_w. destruct (picked _ _ _ (iso_had _ _ _ _ _ _ _ _ _ _ _ _ ISO) _ _ K) as (_ & L). rewrite (ne_pt_w_in _ _ _ _ _ _ _ _ _ _ _ _ ISO h c L). reflexivity. }
    exists rest. rewrite Q', Q. exact PR.
Qed.

Lemma ref_isolated qe qh qt qm em em' had had' track track' mu mu' mem mem' out' : isolated qe qh qt qm em em' had had' track track' mu mu' -> phys em' had' track' mu' ->
  pfalgo3_full_ref mem' (length had') em' had' track' mu' = Ok out' ->
  exists out, pfalgo3_full_ref mem (length had) em had track mu = Ok out /\ at_slots id qt (o_ch out) (o_ch out') /\ at_slots no_puppi qe (o_pho out) (o_pho out') /\ at_slots id qm (o_mu out) (o_mu out') /\
    exists rest, Permutation (map no_puppi (o_ne out')) (map no_puppi (o_ne out) ++ rest).
Proof.
  intros ISO HP' R'. assert (HP : phys em had track mu) by (eapply iso_phys; eassumption).
  destruct (ref_wrap_defined_iff em' had' track' mu' mem' (length had') HP' (Nat.le_refl _)) as (D' & _). destruct (ref_wrap_defined_iff em had track mu mem (length had) HP (Nat.le_refl _)) as (D & _).
  destruct (proj2 D (ints_r_in _ _ _ _ _ _ _ _ _ _ _ _ ISO (proj1 D' (ex_intro _ out' R')))) as (out & R). exists out. split; [exact R|].
  destruct (ref_wrap_result em had track mu mem _ out HP (Nat.le_refl _) R) as (C & P & T & M). destruct (ref_wrap_result em' had' track' mu' mem' _ out' HP' (Nat.le_refl _) R') as (C' & P' & T' & M'). rewrite C, C', P, P', M, M'.
  split; [|split; [|split]].
  - intros i x X. rewrite nth_error_mapi in X. destruct (nth_error track i) as [tk|] eqn:K; [|discriminate]. injection X as <-. destruct (picked _ _ _ (iso_tk _ _ _ _ _ _ _ _ _ _ _ _ ISO) _ _ K) as (K' & _). rewrite nth_error_mapi, K'. eexists. split; [reflexivity|]. exact (ch_r_in _ _ _ _ _ _ _ _ _ _ _ _ ISO _ _ K).
  - intros i x X. rewrite nth_error_mapi in X. destruct (nth_error em i) as [e|] eqn:K; [|discriminate]. injection X as <-. destruct (picked _ _ _ (iso_em _ _ _ _ _ _ _ _ _ _ _ _ ISO) _ _ K) as (K' & L). rewrite nth_error_mapi, K'. eexists. split; [reflexivity|]. unfold sp_pho_r. rewrite (tksum_r_in _ _ _ _ _ _ _ _ _ _ _ _ ISO i L). apply ne_obj_no_puppi.
  - intros i x X. rewrite nth_error_map' in X. destruct (nth_error mu i) as [m|] eqn:K; [|discriminate]. injection X as <-. destruct (picked _ _ _ (iso_mu _ _ _ _ _ _ _ _ _ _ _ _ ISO) _ _ K) as (K' & _). rewrite nth_error_map', K'. eexists. split; [reflexivity|]. exact (sp_mu_in _ _ _ _ _ _ _ _ _ _ _ _ ISO _ _ K).
  - assert (Q : Permutation (map no_puppi (o_ne out)) (mapi (fun h c => no_puppi (sp_ne_r em had track mu true (fun _ => 0) h c)) had)) by (rewrite (top_all _ _ _ _ (length_mapi _ _) T), map_mapi; apply eq_perm, mapi_ext_in; intros; apply ne_obj_no_puppi).
    assert (Q' : Permutation (map no_puppi (o_ne out')) (mapi (fun h c => no_puppi (sp_ne_r em' had' track' mu' true (fun _ => 0) h c)) had')) by (rewrite (top_all _ _ _ _ (length_mapi _ _) T'), map_mapi; apply eq_perm, mapi_ext_in; intros; apply ne_obj_no_puppi).
    destruct (split_list qh had had' (iso_had _ _ _ _ _ _ _ _ _ _ _ _ ISO) (fun h c => no_puppi (sp_ne_r em had track mu true (fun _ => 0) h c)) (fun h c => no_puppi (sp_ne_r em' had' track' mu' true (fun _ => 0) h c))) as (rest & PR & _).
    { intros h c K. unfold sp_ne_r. destruct (picked _ _ _ (iso_had _ _ _ _ _ _ _ _ _ _ _ _ ISO) _ _ K) as (_ & L). rewrite (ne_pt_r_in _ _ _ _ _ _ _ _ _ _ _ _ ISO h c L). reflexivity. }
    exists rest. rewrite Q', Q. exact PR.
Qed.

(** ** Two separated events *)
Lemma app_picks_l {A} (a b : list A) : picks (fun i => i) a (a ++ b).
Proof. split; [intros i I; rewrite nth_error_app1 by exact I; reflexivity|auto]. Qed.
Lemma app_picks_r {A} (a b : list A) : picks (fun i => length a + i)%nat b (a ++ b).
Proof. split; [intros i I; rewrite nth_error_app2 by lia; f_equal; lia|intros; lia]. Qed.
Lemma app_inside_l {A} (a b : list A) j x : nth_error (a ++ b) j = Some x -> (inside (fun i => i) (length a) j -> In x a) /\ (~ inside (fun i => i) (length a) j -> In x b).
Proof.
  intros X. split.
  - intros (i & I & ->). rewrite nth_error_app1 in X by exact I. eapply nth_error_In; exact X.
  - intros O. destruct (Nat.lt_ge_cases j (length a)) as [H|H]; [exfalso; apply O; exists j; auto|]. rewrite nth_error_app2 in X by exact H. eapply nth_error_In; exact X.
Qed.
Lemma app_inside_r {A} (a b : list A) j x : nth_error (a ++ b) j = Some x -> (inside (fun i => length a + i)%nat (length b) j -> In x b) /\ (~ inside (fun i => length a + i)%nat (length b) j -> In x a).
Proof.
  intros X. split.
  - intros (i & I & <-). rewrite nth_error_app2 in X by lia. eapply nth_error_In; exact X.
  - intros O. destruct (Nat.lt_ge_cases j (length a)) as [H|H]; [rewrite nth_error_app1 in X by exact H; eapply nth_error_In; exact X|]. exfalso. apply O. exists (j - length a)%nat. assert (j < length (a ++ b))%nat by (apply nth_error_Some; congruence). rewrite app_length in *. lia.
Qed.
Lemma sep_left em1 em2 had1 had2 track1 track2 mu1 mu2 : separated em1 em2 had1 had2 track1 track2 mu1 mu2 ->
  isolated (fun i => i) (fun i => i) (fun i => i) (fun i => i) em1 (em1 ++ em2) had1 (had1 ++ had2) track1 (track1 ++ track2) mu1 (mu1 ++ mu2).
Proof.
  intros [A B C D]. split; try apply app_picks_l; intros i j x y X Y O; apply app_inside_l in X, Y; [apply A|apply B|apply C|apply D]; tauto.
Qed.
Lemma sep_right em1 em2 had1 had2 track1 track2 mu1 mu2 : separated em1 em2 had1 had2 track1 track2 mu1 mu2 ->
  isolated (fun i => length em1 + i)%nat (fun i => length had1 + i)%nat (fun i => length track1 + i)%nat (fun i => length mu1 + i)%nat em2 (em1 ++ em2) had2 (had1 ++ had2) track2 (track1 ++ track2) mu2 (mu1 ++ mu2).
Proof.
  intros [A B C D]. split; try apply app_picks_r; intros i j x y X Y O; apply app_inside_r in X, Y; [apply A|apply B|apply C|apply D]; tauto.
Qed.
Lemma slots_app {A B} (f : A -> B) (a b l : list A) n : length a = n -> length l = (n + length b)%nat -> at_slots f (fun i => i) a l -> at_slots f (fun i => n + i)%nat b l -> map f l = map f a ++ map f b.
Proof.
  intros LA L Ha Hb. apply nth_error_ext. intros j. rewrite nth_error_map'. destruct (Nat.lt_ge_cases j n) as [H|H].
  - rewrite nth_error_app1 by (rewrite map_length; lia). rewrite nth_error_map'. destruct (nth_error_lt a j ltac:(lia)) as (x & X). destruct (Ha _ _ X) as (y & Y & E). rewrite X, Y. cbn. rewrite E. reflexivity.
  - rewrite nth_error_app2 by (rewrite map_length; lia). rewrite map_length, LA, nth_error_map'. destruct (nth_error b (j - n)) as [x|] eqn:X.
    + destruct (Hb _ _ X) as (y & Y & E). replace (n + (j - n))%nat with j in Y by lia. rewrite Y. cbn. rewrite E. reflexivity.
    + apply nth_error_None in X. assert (N : nth_error l j = None) by (apply nth_error_None; lia). rewrite N. reflexivity.
Qed.

Lemma fw_superposition em1 em2 had1 had2 track1 track2 mu1 mu2 mem1 mem2 mem : separated em1 em2 had1 had2 track1 track2 mu1 mu2 -> phys em1 had1 track1 mu1 -> phys em2 had2 track2 mu2 ->
  let run1 := pfalgo3_full mem1 (length had1) em1 had1 track1 mu1 in let run2 := pfalgo3_full mem2 (length had2) em2 had2 track2 mu2 in
  let run := pfalgo3_full mem (length (had1 ++ had2)) (em1 ++ em2) (had1 ++ had2) (track1 ++ track2) (mu1 ++ mu2) in
  (exists out1 out2 out, run1 = Ok out1 /\ run2 = Ok out2 /\ run = Ok out /\ o_ch out = o_ch out1 ++ o_ch out2 /\ map no_puppi (o_pho out) = map no_puppi (o_pho out1) ++ map no_puppi (o_pho out2) /\ o_mu out = o_mu out1 ++ o_mu out2 /\
     Permutation (map no_puppi (o_ne out)) (map no_puppi (o_ne out1) ++ map no_puppi (o_ne out2))) \/
  (run = UB SignedOverflow /\ (run1 = UB SignedOverflow \/ run2 = UB SignedOverflow)).
Proof.
  intros SEP HP1 HP2. cbn zeta. pose proof (sep_left _ _ _ _ _ _ _ _ SEP) as I1. pose proof (sep_right _ _ _ _ _ _ _ _ SEP) as I2.
  assert (HP : phys (em1 ++ em2) (had1 ++ had2) (track1 ++ track2) (mu1 ++ mu2)) by (destruct HP1 as (A & B & C & D), HP2 as (A' & B' & C' & D'); unfold phys; rewrite !Forall_app; tauto).
  destruct (wrap_defined_iff _ _ _ _ mem1 (length had1) HP1 (Nat.le_refl _)) as (D1 & U1). destruct (wrap_defined_iff _ _ _ _ mem2 (length had2) HP2 (Nat.le_refl _)) as (D2 & U2). destruct (wrap_defined_iff _ _ _ _ mem (length (had1 ++ had2)) HP (Nat.le_refl _)) as (D & U).
  assert (FIT : ints_fit em1 had1 track1 mu1 -> ints_fit em2 had2 track2 mu2 -> ints_fit (em1 ++ em2) (had1 ++ had2) (track1 ++ track2) (mu1 ++ mu2)).
  { intros (A & B) (A' & B'). split.
    - intros k e E. destruct (Nat.lt_ge_cases k (length em1)) as [H|H].
      + rewrite (tksum_w_in _ _ _ _ _ _ _ _ _ _ _ _ I1 k H). rewrite nth_error_app1 in E by exact H. exact (A _ _ E).
      + rewrite nth_error_app2 in E by exact H. assert (L : (k - length em1 < length em2)%nat) by (apply nth_error_Some; congruence). pose proof (tksum_w_in _ _ _ _ _ _ _ _ _ _ _ _ I2 (k - length em1)%nat L) as Q. cbn beta in Q. replace (length em1 + (k - length em1))%nat with k in Q by lia. rewrite Q. exact (A' _ _ E).
    - intros h c E. destruct (Nat.lt_ge_cases h (length had1)) as [H|H].
      + rewrite (err2_w_in _ _ _ _ _ _ _ _ _ _ _ _ I1 h H), (tksum_h_w_in _ _ _ _ _ _ _ _ _ _ _ _ I1 h H), (left_pt_w_in _ _ _ _ _ _ _ _ _ _ _ _ I1 h c H). rewrite nth_error_app1 in E by exact H. exact (B _ _ E).
      + rewrite nth_error_app2 in E by exact H. assert (L : (h - length had1 < length had2)%nat) by (apply nth_error_Some; congruence). specialize (B' _ _ E).
        pose proof (err2_w_in _ _ _ _ _ _ _ _ _ _ _ _ I2 _ L) as Q1. pose proof (tksum_h_w_in _ _ _ _ _ _ _ _ _ _ _ _ I2 _ L) as Q2. pose proof (left_pt_w_in _ _ _ _ _ _ _ _ _ _ _ _ I2 _ c L) as Q3. cbn beta in Q1, Q2, Q3. replace (length had1 + (h - length had1))%nat with h in Q1, Q2, Q3 by lia. rewrite Q1, Q2, Q3. exact B'. }
  destruct (pfalgo3_full mem (length (had1 ++ had2)) (em1 ++ em2) (had1 ++ had2) (track1 ++ track2) (mu1 ++ mu2)) as [out|kind] eqn:R.
  - left. destruct (fw_isolated _ _ _ _ _ _ _ _ _ _ _ _ mem1 mem out I1 HP R) as (out1 & R1 & C1 & P1 & M1 & _). destruct (fw_isolated _ _ _ _ _ _ _ _ _ _ _ _ mem2 mem out I2 HP R) as (out2 & R2 & C2 & P2 & M2 & _).
    exists out1, out2, out. split; [exact R1|]. split; [exact R2|]. split; [reflexivity|].
    destruct (wrap_result _ _ _ _ mem1 _ out1 HP1 (Nat.le_refl _) R1) as (c1 & p1 & t1 & m1). destruct (wrap_result _ _ _ _ mem2 _ out2 HP2 (Nat.le_refl _) R2) as (c2 & p2 & t2 & m2). destruct (wrap_result _ _ _ _ mem _ out HP (Nat.le_refl _) R) as (c & p & t & m).
    assert (LC : length (o_ch out) = (length track1 + length (o_ch out2))%nat) by (rewrite c, c2, !length_mapi; apply app_length).
    assert (LP : length (o_pho out) = (length em1 + length (o_pho out2))%nat) by (rewrite p, p2, !length_mapi; apply app_length).
    assert (LM : length (o_mu out) = (length mu1 + length (o_mu out2))%nat) by (rewrite m, m2, !map_length; apply app_length).
    split; [rewrite <- (map_id (o_ch out)), <- (map_id (o_ch out1)), <- (map_id (o_ch out2)); apply (slots_app id _ _ _ (length track1)); [rewrite c1; apply length_mapi|exact LC|exact C1|exact C2]|].
    split; [apply (slots_app no_puppi _ _ _ (length em1)); [rewrite p1; apply length_mapi|exact LP|exact P1|exact P2]|].
    split; [rewrite <- (map_id (o_mu out)), <- (map_id (o_mu out1)), <- (map_id (o_mu out2)); apply (slots_app id _ _ _ (length mu1)); [rewrite m1; apply map_length|exact LM|exact M1|exact M2]|].
    rewrite (top_all _ _ _ _ (length_mapi _ _) t), (top_all _ _ _ _ (length_mapi _ _) t1), (top_all _ _ _ _ (length_mapi _ _) t2), !map_mapi, mapi_app. apply Permutation_app; apply eq_perm, mapi_ext_in; intros h x X; unfold sp_ne_w.
    + rewrite (ne_pt_w_in _ _ _ _ _ _ _ _ _ _ _ _ I1 h x) by (apply nth_error_Some; congruence). apply ne_obj_no_puppi.
    + pose proof (ne_pt_w_in _ _ _ _ _ _ _ _ _ _ _ _ I2 h x ltac:(apply nth_error_Some; congruence)) as Q. cbn beta in Q. rewrite Q. apply ne_obj_no_puppi.
  - right. assert (NF : ~ ints_fit (em1 ++ em2) (had1 ++ had2) (track1 ++ track2) (mu1 ++ mu2)) by (intros X; destruct (proj2 D X); congruence). split; [exact (U NF)|].
    destruct (pfalgo3_full mem1 (length had1) em1 had1 track1 mu1) as [out1|k1] eqn:R1.
    + right. apply U2. intros F2. apply NF, FIT; [apply D1; eauto|exact F2].
    + left. apply U1. intros F1. destruct (proj2 D1 F1). congruence.
Qed.
(** the number of neutral hadrons asked for only cuts the sorted list *)
Lemma fw_nsel em had track mu mem nsel : phys em had track mu -> (nsel <= length had)%nat ->
  (exists out all, pfalgo3_full mem nsel em had track mu = Ok out /\ pfalgo3_full mem (length had) em had track mu = Ok all /\ o_ch out = o_ch all /\ o_pho out = o_pho all /\ o_mu out = o_mu all /\ o_ne out = firstn nsel (o_ne all)) \/
  (pfalgo3_full mem nsel em had track mu = UB SignedOverflow /\ pfalgo3_full mem (length had) em had track mu = UB SignedOverflow).
Proof.
  intros HP Hn. destruct (wrap_defined_iff em had track mu mem nsel HP Hn) as (D & U). destruct (wrap_defined_iff em had track mu mem (length had) HP (Nat.le_refl _)) as (D' & U').
  destruct (pfalgo3_full mem nsel em had track mu) as [out|k] eqn:R.
  - left. destruct (proj2 D' (proj1 D (ex_intro _ out eq_refl))) as (all & A). exists out, all. split; [reflexivity|]. split; [exact A|].
    destruct (wrap_result _ _ _ _ mem _ out HP Hn R) as (c1 & p1 & t1 & m1). destruct (wrap_result _ _ _ _ mem _ all HP (Nat.le_refl _) A) as (c2 & p2 & t2 & m2). rewrite c1, c2, p1, p2, m1, m2. repeat (split; [reflexivity|]).
    apply top_n_is_firstn in t1, t2. rewrite t1, t2, firstn_firstn, Nat.min_l by exact Hn. reflexivity.
  - right. assert (NF : ~ ints_fit em had track mu) by (intros X; destruct (proj2 D X); congruence). split; [exact (U NF)|exact (U' NF)].
Qed.

Lemma ref_superposition em1 em2 had1 had2 track1 track2 mu1 mu2 mem1 mem2 mem : separated em1 em2 had1 had2 track1 track2 mu1 mu2 -> phys em1 had1 track1 mu1 -> phys em2 had2 track2 mu2 ->
  let run1 := pfalgo3_full_ref mem1 (length had1) em1 had1 track1 mu1 in let run2 := pfalgo3_full_ref mem2 (length had2) em2 had2 track2 mu2 in
  let run := pfalgo3_full_ref mem (length (had1 ++ had2)) (em1 ++ em2) (had1 ++ had2) (track1 ++ track2) (mu1 ++ mu2) in
  (exists out1 out2 out, run1 = Ok out1 /\ run2 = Ok out2 /\ run = Ok out /\ o_ch out = o_ch out1 ++ o_ch out2 /\ map no_puppi (o_pho out) = map no_puppi (o_pho out1) ++ map no_puppi (o_pho out2) /\ o_mu out = o_mu out1 ++ o_mu out2 /\
     Permutation (map no_puppi (o_ne out)) (map no_puppi (o_ne out1) ++ map no_puppi (o_ne out2))) \/
  (run = UB SignedOverflow /\ (run1 = UB SignedOverflow \/ run2 = UB SignedOverflow)).
Proof.
  intros SEP HP1 HP2. cbn zeta. pose proof (sep_left _ _ _ _ _ _ _ _ SEP) as I1. pose proof (sep_right _ _ _ _ _ _ _ _ SEP) as I2.
  assert (HP : phys (em1 ++ em2) (had1 ++ had2) (track1 ++ track2) (mu1 ++ mu2)) by (destruct HP1 as (A & B & C & D), HP2 as (A' & B' & C' & D'); unfold phys; rewrite !Forall_app; tauto).
  destruct (ref_wrap_defined_iff _ _ _ _ mem1 (length had1) HP1 (Nat.le_refl _)) as (D1 & U1). destruct (ref_wrap_defined_iff _ _ _ _ mem2 (length had2) HP2 (Nat.le_refl _)) as (D2 & U2). destruct (ref_wrap_defined_iff _ _ _ _ mem (length (had1 ++ had2)) HP (Nat.le_refl _)) as (D & U).
  assert (FIT : ints_fit_r em1 had1 track1 mu1 true -> ints_fit_r em2 had2 track2 mu2 true -> ints_fit_r (em1 ++ em2) (had1 ++ had2) (track1 ++ track2) (mu1 ++ mu2) true).
  { intros (A & B) (A' & B'). split.
    - intros k e E. destruct (Nat.lt_ge_cases k (length em1)) as [H|H].
      + rewrite (tksum_r_in _ _ _ _ _ _ _ _ _ _ _ _ I1 k H). rewrite nth_error_app1 in E by exact H. exact (A _ _ E).
      + rewrite nth_error_app2 in E by exact H. assert (L : (k - length em1 < length em2)%nat) by (apply nth_error_Some; congruence). pose proof (tksum_r_in _ _ _ _ _ _ _ _ _ _ _ _ I2 (k - length em1)%nat L) as Q. cbn beta in Q. replace (length em1 + (k - length em1))%nat with k in Q by lia. rewrite Q. exact (A' _ _ E).
    - intros h c E. destruct (Nat.lt_ge_cases h (length had1)) as [H|H].
      + rewrite (err2_r_in _ _ _ _ _ _ _ _ _ _ _ _ I1 h H), (tksum_h_r_in _ _ _ _ _ _ _ _ _ _ _ _ I1 h H). rewrite nth_error_app1 in E by exact H. exact (B _ _ E).
      + rewrite nth_error_app2 in E by exact H. assert (L : (h - length had1 < length had2)%nat) by (apply nth_error_Some; congruence). specialize (B' _ _ E).
        pose proof (err2_r_in _ _ _ _ _ _ _ _ _ _ _ _ I2 _ L) as Q1. pose proof (tksum_h_r_in _ _ _ _ _ _ _ _ _ _ _ _ I2 _ L) as Q2. pose proof (left_pt_r_in _ _ _ _ _ _ _ _ _ _ _ _ I2 _ c L) as Q3. cbn beta in Q1, Q2, Q3. replace (length had1 + (h - length had1))%nat with h in Q1, Q2, Q3 by lia. rewrite Q1, Q2. exact B'. }
  destruct (pfalgo3_full_ref mem (length (had1 ++ had2)) (em1 ++ em2) (had1 ++ had2) (track1 ++ track2) (mu1 ++ mu2)) as [out|kind] eqn:R.
  - left. destruct (ref_isolated _ _ _ _ _ _ _ _ _ _ _ _ mem1 mem out I1 HP R) as (out1 & R1 & C1 & P1 & M1 & _). destruct (ref_isolated _ _ _ _ _ _ _ _ _ _ _ _ mem2 mem out I2 HP R) as (out2 & R2 & C2 & P2 & M2 & _).
    exists out1, out2, out. split; [exact R1|]. split; [exact R2|]. split; [reflexivity|].
    destruct (ref_wrap_result _ _ _ _ mem1 _ out1 HP1 (Nat.le_refl _) R1) as (c1 & p1 & t1 & m1). destruct (ref_wrap_result _ _ _ _ mem2 _ out2 HP2 (Nat.le_refl _) R2) as (c2 & p2 & t2 & m2). destruct (ref_wrap_result _ _ _ _ mem _ out HP (Nat.le_refl _) R) as (c & p & t & m).
    assert (LC : length (o_ch out) = (length track1 + length (o_ch out2))%nat) by (rewrite c, c2, !length_mapi; apply app_length).
    assert (LP : length (o_pho out) = (length em1 + length (o_pho out2))%nat) by (rewrite p, p2, !length_mapi; apply app_length).
    assert (LM : length (o_mu out) = (length mu1 + length (o_mu out2))%nat) by (rewrite m, m2, !map_length; apply app_length).
    split; [rewrite <- (map_id (o_ch out)), <- (map_id (o_ch out1)), <- (map_id (o_ch out2)); apply (slots_app id _ _ _ (length track1)); [rewrite c1; apply length_mapi|exact LC|exact C1|exact C2]|].
    split; [apply (slots_app no_puppi _ _ _ (length em1)); [rewrite p1; apply length_mapi|exact LP|exact P1|exact P2]|].
    split; [rewrite <- (map_id (o_mu out)), <- (map_id (o_mu out1)), <- (map_id (o_mu out2)); apply (slots_app id _ _ _ (length mu1)); [rewrite m1; apply map_length|exact LM|exact M1|exact M2]|].
    rewrite (top_all _ _ _ _ (length_mapi _ _) t), (top_all _ _ _ _ (length_mapi _ _) t1), (top_all _ _ _ _ (length_mapi _ _) t2), !map_mapi, mapi_app. apply Permutation_app; apply eq_perm, mapi_ext_in; intros h x X; unfold sp_ne_r.
    + rewrite (ne_pt_r_in _ _ _ _ _ _ _ _ _ _ _ _ I1 h x) by (apply nth_error_Some; congruence). apply ne_obj_no_puppi.
    + pose proof (ne_pt_r_in _ _ _ _ _ _ _ _ _ _ _ _ I2 h x ltac:(apply nth_error_Some; congruence)) as Q. cbn beta in Q. rewrite Q. apply ne_obj_no_puppi.
  - right. assert (NF : ~ ints_fit_r (em1 ++ em2) (had1 ++ had2) (track1 ++ track2) (mu1 ++ mu2) true) by (intros X; destruct (proj2 D X); congruence). split; [exact (U NF)|].
    destruct (pfalgo3_full_ref mem1 (length had1) em1 had1 track1 mu1) as [out1|k1] eqn:R1.
    + right. apply U2. intros F2. apply NF, FIT; [apply D1; eauto|exact F2].
    + left. apply U1. intros F1. destruct (proj2 D1 F1). congruence.
Qed.
(** the number of neutral hadrons asked for only cuts the sorted list *)
Lemma ref_nsel em had track mu mem nsel : phys em had track mu -> (nsel <= length had)%nat ->
  (exists out all, pfalgo3_full_ref mem nsel em had track mu = Ok out /\ pfalgo3_full_ref mem (length had) em had track mu = Ok all /\ o_ch out = o_ch all /\ o_pho out = o_pho all /\ o_mu out = o_mu all /\ o_ne out = firstn nsel (o_ne all)) \/
  (pfalgo3_full_ref mem nsel em had track mu = UB SignedOverflow /\ pfalgo3_full_ref mem (length had) em had track mu = UB SignedOverflow).
Proof.
  intros HP Hn. destruct (ref_wrap_defined_iff em had track mu mem nsel HP Hn) as (D & U). destruct (ref_wrap_defined_iff em had track mu mem (length had) HP (Nat.le_refl _)) as (D' & U').
  destruct (pfalgo3_full_ref mem nsel em had track mu) as [out|k] eqn:R.
  - left. destruct (proj2 D' (proj1 D (ex_intro _ out eq_refl))) as (all & A). exists out, all. split; [reflexivity|]. split; [exact A|].
    destruct (ref_wrap_result _ _ _ _ mem _ out HP Hn R) as (c1 & p1 & t1 & m1). destruct (ref_wrap_result _ _ _ _ mem _ all HP (Nat.le_refl _) A) as (c2 & p2 & t2 & m2). rewrite c1, c2, p1, p2, m1, m2. repeat (split; [reflexivity|]).
    apply top_n_is_firstn in t1, t2. rewrite t1, t2, firstn_firstn, Nat.min_l by exact Hn. reflexivity.
  - right. assert (NF : ~ ints_fit_r em had track mu true) by (intros X; destruct (proj2 D X); congruence). split; [exact (U NF)|exact (U' NF)].
Qed.
