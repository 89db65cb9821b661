(** The conversions between discrete and firmware objects. *)
From Verif Require Import Base BaseFacts Data TabFacts Discrete Convert DiscreteIO SpecIO IOFacts.

Lemma wr_app_snoc {A} (l1 : list A) x l2 v : wr (l1 ++ x :: l2) (length l1) v = Ok ((l1 ++ [v]) ++ l2).
Proof.
  rewrite wr_Ok by (rewrite app_length; cbn; lia). f_equal. pose proof (upd_app_r l1 (x :: l2) 0 v) as H. rewrite Nat.add_0_r in H. rewrite H. cbn [upd]. now rewrite <- app_assoc.
Qed.
Lemma fill_loop {A} (g : nat -> res A) (h : nat -> A) a k l1 l2 : length l1 = a -> (k <= length l2)%nat -> (forall i, (a <= i < a + k)%nat -> g i = Ok (h i)) ->
  foldM (fun o i => do x <- g i; wr o i x) (seq a k) (l1 ++ l2) = Ok (l1 ++ map h (seq a k) ++ skipn k l2).
Proof.
  revert a l1 l2. induction k as [|k IH]; intros a l1 l2 HL HK HG; [reflexivity|].
  destruct l2 as [|x l2]; cbn in HK; [lia|]. cbn [seq foldM]. rewrite HG by lia. cbn [bind]. rewrite <- HL at 1. rewrite wr_app_snoc. cbn [bind].
  rewrite IH; [cbn [map skipn]; rewrite <- app_assoc; reflexivity|rewrite app_length; cbn; lia|lia|]. intros i Hi. apply HG. lia.
Qed.
Lemma fill_loop0 {A} (g : nat -> res A) (h : nat -> A) k l2 : (k <= length l2)%nat -> (forall i, (i < k)%nat -> g i = Ok (h i)) ->
  foldM (fun o i => do x <- g i; wr o i x) (seq 0 k) l2 = Ok (map h (seq 0 k) ++ skipn k l2).
Proof. intros H1 H2. apply (fill_loop g h 0 k [] l2); [reflexivity|exact H1|]. intros i Hi. apply H2. lia. Qed.
Lemma foldM_ext {A S} (f g : S -> A -> res S) l s : (forall s x, f s x = g s x) -> foldM f l s = foldM g l s.
Proof. intros H. revert s. induction l as [|x r IH]; intros s; cbn; [reflexivity|]. rewrite H. destruct (g s x); cbn; auto. Qed.

Lemma convert_in_ok {In Out} (conv : In -> Out) clr NMAX ins out : fits ins -> length out = NMAX -> convert_in conv clr NMAX ins out = Ok (filled conv clr NMAX ins).
Proof.
  intros HF HL. unfold convert_in, filled. unfold fits in HF. rewrite (wrapU_id 32) by (unfold inU; lia). rewrite Nat2Z.id.
  set (n := length ins) in *. set (k := Nat.min NMAX n).
  destruct ins as [|i0 ins'].
  - cbn in n. subst n. replace k with 0%nat by (unfold k; lia). cbn [seq foldM bind]. rewrite Nat.sub_0_r.
    rewrite (foldM_ext _ (fun o i => do x <- Ok clr; wr o i x)) by reflexivity.
    rewrite (fill_loop0 (fun _ => Ok clr) (fun _ => clr)) by (auto; lia). rewrite firstn_nil. cbn [map app]. rewrite skipn_all2 by lia. rewrite app_nil_r.
    f_equal. rewrite <- (tab_repeat NMAX clr). reflexivity.
  - rewrite (foldM_ext _ (fun o i => do x <- rmap conv (rd (i0 :: ins') i); wr o i x)) by (intros s x; unfold rmap; destruct (rd (i0 :: ins') x); reflexivity).
    rewrite (fill_loop0 (fun i => rmap conv (rd (i0 :: ins') i)) (fun i => conv (nth i (i0 :: ins') i0))); [|lia|].
    2: { intros i Hi. rewrite (rd_Ok _ _ i0) by (fold n; lia). reflexivity. }
    cbn [bind app]. set (l1 := map (fun i => conv (nth i (i0 :: ins') i0)) (seq 0 k)).
    assert (E1 : l1 = map conv (firstn NMAX (i0 :: ins'))).
    { apply nth_error_ext. intros j. unfold l1. rewrite !nth_error_map', nth_error_seq. destruct (Nat.ltb_spec j k).
      - cbn [option_map Nat.add]. destruct (nth_error_lt (firstn NMAX (i0 :: ins')) j) as (x & Hx). { rewrite firstn_length. fold n. lia. }
        rewrite Hx. cbn [option_map]. f_equal. f_equal. apply nth_error_nth'. rewrite <- Hx. rewrite <- (firstn_skipn NMAX (i0 :: ins')) at 1. apply nth_error_app1. rewrite firstn_length. fold n. lia.
      - cbn. destruct (nth_error (firstn NMAX (i0 :: ins')) j) eqn:E; [|reflexivity]. exfalso. assert (nth_error (firstn NMAX (i0 :: ins')) j <> None) as E' by congruence. apply nth_error_Some in E'. rewrite firstn_length in E'. fold n in E'. lia. }
    rewrite <- E1. assert (L1 : length l1 = k) by (unfold l1; rewrite map_length, seq_length; reflexivity).
    destruct (Nat.le_gt_cases NMAX n) as [G|G].
    + replace (NMAX - n)%nat with 0%nat by lia. cbn [seq foldM repeat]. rewrite (@skipn_all2 _ k out) by lia. rewrite app_nil_r. reflexivity.
    + rewrite (foldM_ext _ (fun o i => do x <- Ok clr; wr o i x)) by reflexivity.
      rewrite (fill_loop (fun _ => Ok clr) (fun _ => clr) n (NMAX - n) l1 (skipn k out)); [|lia|rewrite skipn_length; lia|auto].
      f_equal. f_equal. rewrite (@skipn_all2 _ (NMAX - n) (skipn k out)) by (rewrite skipn_length; lia). rewrite app_nil_r.
      apply nth_error_ext. intros j. rewrite nth_error_map', nth_error_seq. destruct (Nat.ltb_spec j (NMAX - n)).
      * cbn [option_map]. symmetry. apply nth_error_repeat. lia.
      * cbn [option_map]. symmetry. apply nth_error_None. rewrite repeat_length. lia.
Qed.

Lemma filled_ext {In Out} (f g : In -> Out) h clr n l : (forall x, f (h x) = g x) -> filled f clr n (map h l) = filled g clr n l.
Proof. intros H. unfold filled. rewrite map_length, firstn_map, map_map. f_equal. apply map_ext. intros x. apply H. Qed.
Lemma fw_arrays_kept c special e r : fw_arrays c special (event_kept e) (region_kept r) = fw_arrays c special e r.
Proof.
  unfold fw_arrays, region_kept, event_kept. cbn [rg_calo rg_emcalo rg_track rg_muon ev_z0].
  rewrite (filled_ext fw_had fw_had clu_kept), (filled_ext fw_em fw_em clu_kept), (filled_ext fw_tk fw_tk ptk_kept) by reflexivity. reflexivity.
Qed.
Lemma length_filled {In Out} (f : In -> Out) clr n l : length (filled f clr n l) = n.
Proof. unfold filled. rewrite app_length, map_length, firstn_length, repeat_length. lia. Qed.
