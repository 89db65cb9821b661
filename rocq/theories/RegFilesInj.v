(** What the text files of the regionizer test program determine. *)
From Coq Require Import Ascii String.
From Verif Require Import Base BaseFacts TabFacts MapiFacts Data PFHw SerText HRProofs SpecRegion Regionizer
  RegTest RegFiles RegTestRun SpecRegFiles RegFilesProofs.
Local Open Scope string_scope.
Local Open Scope list_scope.
Local Open Scope Z_scope.

Lemma frames_length {T} (vals : nat -> T -> nat -> list Z) tests : length (frames vals tests) = (36 * length tests)%nat.
Proof. induction tests as [|t tests IH] using rev_ind; [reflexivity|]. unfold frames in *. rewrite mapi_snoc, concat_app, !app_length, IH. cbn [List.concat length]. rewrite app_nil_r, map_length, seq_length. lia. Qed.
Lemma frames_nth {T} (vals : nat -> T -> nat -> list Z) tests k t ic : nth_error tests k = Some t -> (ic < 36)%nat -> nth_error (frames vals tests) (36 * k + ic) = Some (Some (Z.of_nat (36 * k + ic + 1), vals (S k) t ic)).
Proof.
  induction tests as [|u tests IH] using rev_ind; intros Hk Hic; [destruct k; discriminate|].
  unfold frames in *. rewrite mapi_snoc, concat_app. pose proof (frames_length vals tests) as L. unfold frames in L.
  pose proof (proj1 (nth_error_Some (tests ++ [u]) k) ltac:(congruence)) as LT. rewrite app_length in LT. cbn [length] in LT.
  destruct (Nat.eq_dec k (length tests)) as [->|NE].
  - rewrite nth_error_app2, Nat.sub_diag in Hk by lia. injection Hk as ->. rewrite nth_error_app2 by lia. rewrite L. replace (36 * length tests + ic - 36 * length tests)%nat with ic by lia. cbn [List.concat]. rewrite app_nil_r.
    rewrite nth_error_map, (nth_error_nth' _ 0%nat), seq_nth by (rewrite ?seq_length; lia). reflexivity.
  - rewrite nth_error_app1 in Hk by lia. rewrite nth_error_app1 by lia. apply IH; assumption.
Qed.
Lemma frames_inj {T} (vals : nat -> T -> nat -> list Z) tests tests' : frames vals tests = frames vals tests' -> length tests = length tests' /\
  forall k t t', nth_error tests k = Some t -> nth_error tests' k = Some t' -> forall ic, (ic < 36)%nat -> vals (S k) t ic = vals (S k) t' ic.
Proof.
  intros E. split; [pose proof (f_equal (@length _) E) as L; rewrite !frames_length in L; lia|]. intros k t t' H H' ic Hic.
  pose proof (frames_nth vals tests k t ic H Hic) as N. rewrite E, (frames_nth vals tests' k t' ic H' Hic) in N. congruence.
Qed.
Lemma flat_inj {S T U} (f : S -> list T) (p : S -> U) n : (forall x, length (f x) = n) -> (forall x y, f x = f y -> p x = p y) -> forall l l', length l = length l' -> flat_map f l = flat_map f l' -> map p l = map p l'.
Proof.
  intros HL HI. induction l as [|x l IH]; intros [|y l'] L E; try discriminate; [reflexivity|]. cbn [flat_map map] in *. apply app_inj_len in E as [E1 E2]; [|rewrite !HL; reflexivity]. f_equal; [apply HI; exact E1|apply IH; [injection L; auto|exact E2]].
Qed.
Lemma had_vals_inj x y : had_vals x = had_vals y -> x = y.
Proof. destruct x as [? ? ? ? b], y as [? ? ? ? b']. unfold had_vals. cbn. intros [= -> -> -> -> E]. destruct b, b'; congruence. Qed.
Lemma em_vals_inj x y : em_vals x = em_vals y -> x = y. Proof. destruct x, y. unfold em_vals. cbn. congruence. Qed.
Lemma tk_vals_inj x y : tk_vals x = tk_vals y -> no_tight x = no_tight y. Proof. destruct x, y. unfold tk_vals, no_tight. cbn. congruence. Qed.
Lemma mu_vals_inj x y : mu_vals x = mu_vals y -> x = y. Proof. destruct x, y. unfold mu_vals. cbn. congruence. Qed.
Lemma flat_len {S T} (f : S -> list T) n l : (forall x, length (f x) = n) -> length (flat_map f l) = (n * length l)%nat.
Proof. intros H. induction l as [|x l IH]; [cbn; lia|]. cbn [flat_map length]. rewrite app_length, H, IH. lia. Qed.
Lemma rows_eq {T} n m (l l' : list (list T)) : dims2 n m l -> dims2 n m l' -> (forall i, (i < n)%nat -> nth i l [] = nth i l' []) -> l = l'.
Proof. intros [A _] [B _] H. apply (nth_ext l l' [] []); [congruence|]. intros i Hi. apply H. lia. Qed.
Lemma nth_len {T} n m (l : list (list T)) i : dims2 n m l -> (i < n)%nat -> length (nth i l []) = m.
Proof. intros D Hi. exact (proj2 (rd_nth n m l i D Hi)). Qed.
Lemma list_eq_nth_error {T} (l l' : list T) : length l = length l' -> (forall k x y, nth_error l k = Some x -> nth_error l' k = Some y -> x = y) -> l = l'.
Proof. revert l'. induction l as [|x l IH]; intros [|y l'] L H; try discriminate; [reflexivity|]. f_equal; [apply (H 0%nat); reflexivity|apply IH; [injection L; auto|intros k; apply (H (S k))]]. Qed.

Lemma region_vals_inj c t t' : test_sized c t -> test_sized c t' -> (forall i, (i < 18)%nat -> region_vals t i = region_vals t' i) -> regions_shown t = regions_shown t'.
Proof.
  intros (_ & _ & _ & _ & _ & D1 & D2 & D3 & D4) (_ & _ & _ & _ & _ & D1' & D2' & D3' & D4') H.
  assert (G : forall i, (i < 18)%nat -> nth i (rt_calo t) [] = nth i (rt_calo t') [] /\ nth i (rt_em t) [] = nth i (rt_em t') [] /\ map no_tight (nth i (rt_tk t) []) = map no_tight (nth i (rt_tk t') []) /\ nth i (rt_mu t) [] = nth i (rt_mu t') []).
  { intros i Hi. specialize (H i Hi). unfold region_vals in H.
    assert (L1 : length (nth i (rt_calo t) []) = length (nth i (rt_calo t') [])) by (rewrite (nth_len _ _ _ i D1 Hi), (nth_len _ _ _ i D1' Hi); reflexivity).
    assert (L2 : length (nth i (rt_em t) []) = length (nth i (rt_em t') [])) by (rewrite (nth_len _ _ _ i D2 Hi), (nth_len _ _ _ i D2' Hi); reflexivity).
    assert (L3 : length (nth i (rt_tk t) []) = length (nth i (rt_tk t') [])) by (rewrite (nth_len _ _ _ i D3 Hi), (nth_len _ _ _ i D3' Hi); reflexivity).
    assert (L4 : length (nth i (rt_mu t) []) = length (nth i (rt_mu t') [])) by (rewrite (nth_len _ _ _ i D4 Hi), (nth_len _ _ _ i D4' Hi); reflexivity).
    apply app_inj_len in H as [H1 H]; [|rewrite !(flat_len had_vals 5) by reflexivity; congruence].
    apply app_inj_len in H as [H2 H]; [|rewrite !(flat_len em_vals 4) by reflexivity; congruence].
    apply app_inj_len in H as [H3 H]; [|rewrite !(flat_len tk_vals 5) by reflexivity; congruence].
    apply app_inj_len in H as [H4 _]; [|rewrite !(flat_len mu_vals 4) by reflexivity; congruence].
    split; [|split; [|split]].
    - apply (flat_inj had_vals (fun x => x) 5) in H1; [rewrite !map_id in H1; exact H1|reflexivity|apply had_vals_inj|exact L1].
    - apply (flat_inj em_vals (fun x => x) 4) in H2; [rewrite !map_id in H2; exact H2|reflexivity|apply em_vals_inj|exact L2].
    - apply (flat_inj tk_vals no_tight 5) in H3; [exact H3|reflexivity|apply tk_vals_inj|exact L3].
    - apply (flat_inj mu_vals (fun x => x) 4) in H4; [rewrite !map_id in H4; exact H4|reflexivity|apply mu_vals_inj|exact L4]. }
  assert (E1 : rt_calo t = rt_calo t') by (apply (rows_eq 18 (NCALO c)); [assumption..|]; intros i Hi; apply (G i Hi)).
  assert (E2 : rt_em t = rt_em t') by (apply (rows_eq 18 (NEMCALO c)); [assumption..|]; intros i Hi; apply (G i Hi)).
  assert (E3 : map (map no_tight) (rt_tk t) = map (map no_tight) (rt_tk t')) by (apply (rows_eq 18 (NTRACK c)); [apply dims2_map; assumption..|]; intros i Hi; rewrite !nth_map_map; apply (G i Hi)).
  assert (E4 : rt_mu t = rt_mu t') by (apply (rows_eq 18 (NMU c)); [assumption..|]; intros i Hi; apply (G i Hi)).
  unfold regions_shown. rewrite E1, E2, E3, E4. reflexivity.
Qed.
Lemma c59_out_determines c tests tests' : few_tests tests -> few_tests tests' -> Forall (test_sized c) tests -> Forall (test_sized c) tests' -> Forall test_ok tests -> Forall test_ok tests' ->
  dump_out_file c tests = dump_out_file c tests' -> map regions_shown tests = map regions_shown tests'.
Proof.
  intros F F' S S' O O' E. destruct (c59_out c tests F S O) as (x & X & R), (c59_out c tests' F' S' O') as (x' & X' & R'). rewrite X, X' in E. injection E as ->. rewrite R in R'. unfold out_table in R'.
  apply frames_inj in R' as [L H]. apply list_eq_nth_error; [rewrite !map_length; exact L|]. intros k a b Ha Hb. rewrite nth_error_map in Ha, Hb.
  destruct (nth_error tests k) as [t|] eqn:E; [|discriminate]. destruct (nth_error tests' k) as [t'|] eqn:E'; [|discriminate]. cbn in Ha, Hb. injection Ha as <-. injection Hb as <-.
  rewrite Forall_forall in S, S'. apply (region_vals_inj c); [apply S; eapply nth_error_In; exact E|apply S'; eapply nth_error_In; exact E'|].
  intros i Hi. specialize (H k t t' E E' (2 * i)%nat ltac:(lia)). cbn beta in H. replace (2 * i / 2)%nat with i in H by lia. exact H.
Qed.

(** ** The inputs *)
Lemma slot_even {T} (clr : T) j n i row : (i < n)%nat -> slot clr (2 * j) n i row = nth i row clr.
Proof. intros H. unfold slot. replace (2 * j mod 2)%nat with 0%nat by lia. rewrite (proj2 (Nat.ltb_lt i n) H). reflexivity. Qed.
(** the columns of an array determine it *)
Lemma column_row {T U} (clr : T) (p : T -> U) n : forall x y, (n <= length x)%nat -> (n <= length y)%nat -> (forall j, (j < n)%nat -> p (nth j x clr) = p (nth j y clr)) -> map p (firstn n x) = map p (firstn n y).
Proof.
  induction n as [|n IH]; intros [|a x] [|b y] Lx Ly H; cbn [length] in *; try lia; [reflexivity..|]. cbn [firstn map]. f_equal; [apply (H 0%nat); lia|]. apply IH; [lia..|]. intros j Hj. apply (H (S j)). lia.
Qed.
Lemma columns {T U} (clr : T) (p : T -> U) n : forall l l', length l = length l' -> (forall a, In a l -> (n <= length a)%nat) -> (forall a, In a l' -> (n <= length a)%nat) ->
  (forall j, (j < n)%nat -> map (fun row => p (nth j row clr)) l = map (fun row => p (nth j row clr)) l') -> map (fun row => map p (firstn n row)) l = map (fun row => map p (firstn n row)) l'.
Proof.
  induction l as [|x l IH]; intros [|y l'] L M M' H; try discriminate; [reflexivity|]. cbn [map] in *. f_equal.
  - apply (column_row clr); [apply M; now left|apply M'; now left|]. intros j Hj. specialize (H j Hj). congruence.
  - apply IH; [injection L; auto|intros; apply M; now right|intros; apply M'; now right|]. intros j Hj. specialize (H j Hj). congruence.
Qed.
Lemma whole {T} n (l : list (list T)) : (forall a, In a l -> length a = n) -> map (fun row => map (fun x => x) (firstn n row)) l = l.
Proof. intros H. rewrite <- (map_id l) at 2. apply map_ext_in. intros a Ha. rewrite map_id. apply firstn_all2. rewrite (H a Ha). lia. Qed.
Lemma flat_len1 {S T} (f : S -> list T) n l l' : (forall x, length (f x) = n) -> length l = length l' -> length (flat_map f l) = length (flat_map f l').
Proof. intros H L. rewrite !(flat_len f n) by exact H. congruence. Qed.

Lemma in_vals_inj c k t t' : (NMU c <= 18)%nat -> test_sized c t -> test_sized c t' -> (forall ic, (ic < 36)%nat -> in_vals c k t ic = in_vals c k t' ic) -> inputs_shown t = inputs_shown t'.
Proof.
  intros HN ([L1 M1] & [L2 M2] & [L3 M3] & _ & [L4 M4] & _) ([L1' M1'] & [L2' M2'] & [L3' M3'] & _ & [L4' M4'] & _) H. unfold inputs_shown.
  set (i := rt_ins t) in *. set (i' := rt_ins t') in *.
  assert (G : forall j, (j < 18)%nat ->
    ((j < 15)%nat -> map (fun row => nth j row had0) (ri_calo i) = map (fun row => nth j row had0) (ri_calo i')) /\
    ((j < 12)%nat -> map (fun row => nth j row em0) (ri_em i) = map (fun row => nth j row em0) (ri_em i')) /\
    ((j < 5)%nat -> map (fun row => no_tight (nth (2 * j) row tk0)) (ri_tk i) = map (fun row => no_tight (nth (2 * j) row tk0)) (ri_tk i') /\ map (fun row => no_tight (nth (2 * j + 1) row tk0)) (ri_tk i) = map (fun row => no_tight (nth (2 * j + 1) row tk0)) (ri_tk i')) /\
    ((j < NMU c)%nat -> map (fun row => nth j row mu0) (ri_mu i) = map (fun row => nth j row mu0) (ri_mu i'))).
  { intros j Hj. specialize (H (2 * j)%nat ltac:(lia)). unfold in_vals in H. cbv zeta in H. fold i i' in H. apply app_inv_head in H. replace (2 * j / 2)%nat with j in H by lia.
    apply app_inj_len in H as [H1 H]; [|apply (flat_len1 _ 5); [reflexivity|congruence]]. apply app_inj_len in H as [H2 H]; [|apply (flat_len1 _ 4); [reflexivity|congruence]].
    apply app_inj_len in H as [H3 H4]; [|apply (flat_len1 _ 10); [reflexivity|congruence]].
    split; [|split; [|split]]; intros Hlt.
    - apply (flat_inj _ (fun row => nth j row had0) 5) in H1; [exact H1|reflexivity| |congruence]. intros x y E. rewrite !slot_even in E by exact Hlt. apply had_vals_inj. exact E.
    - apply (flat_inj _ (fun row => nth j row em0) 4) in H2; [exact H2|reflexivity| |congruence]. intros x y E. rewrite !slot_even in E by exact Hlt. apply em_vals_inj. exact E.
    - assert (H3' := H3). apply (flat_inj _ (fun row => no_tight (nth (2 * j) row tk0)) 10) in H3; [|reflexivity| |congruence].
      2:{ intros x y E. apply app_inj_len in E as [E _]; [|reflexivity]. rewrite !slot_even in E by lia. apply tk_vals_inj. exact E. }
      apply (flat_inj _ (fun row => no_tight (nth (2 * j + 1) row tk0)) 10) in H3'; [|reflexivity| |congruence]; [split; assumption|].
      intros x y E. apply app_inj_len in E as [_ E]; [|reflexivity]. rewrite !slot_even in E by lia. apply tk_vals_inj. exact E.
    - apply (flat_inj _ (fun row => nth j row mu0) 4) in H4; [exact H4|reflexivity| |congruence]. intros x y E. rewrite !slot_even in E by exact Hlt. apply mu_vals_inj. exact E. }
  assert (E1 : ri_calo i = ri_calo i').
  { rewrite <- (whole 15 (ri_calo i)), <- (whole 15 (ri_calo i')) by assumption. apply (columns had0); [congruence|intros a Ha; rewrite (M1 a Ha); lia|intros a Ha; rewrite (M1' a Ha); lia|]. intros j Hj. apply (G j ltac:(lia)). exact Hj. }
  assert (E2 : ri_em i = ri_em i').
  { rewrite <- (whole 12 (ri_em i)), <- (whole 12 (ri_em i')) by assumption. apply (columns em0); [congruence|intros a Ha; rewrite (M2 a Ha); lia|intros a Ha; rewrite (M2' a Ha); lia|]. intros j Hj. apply (G j ltac:(lia)). exact Hj. }
  assert (E3 : map (fun row => map no_tight (firstn 10 row)) (ri_tk i) = map (fun row => map no_tight (firstn 10 row)) (ri_tk i')).
  { apply (columns tk0); [congruence|intros a Ha; rewrite (M3 a Ha); lia|intros a Ha; rewrite (M3' a Ha); lia|]. intros j Hj. destruct (G (j / 2)%nat ltac:(lia)) as (_ & _ & G3 & _). destruct (G3 ltac:(lia)) as [Ga Gb].
    destruct (Nat.eq_dec (j mod 2) 0) as [E|E]; [replace (2 * (j / 2))%nat with j in Ga by lia; exact Ga|replace (2 * (j / 2) + 1)%nat with j in Gb by lia; exact Gb]. }
  assert (E4 : ri_mu i = ri_mu i').
  { rewrite <- (whole (NMU c) (ri_mu i)), <- (whole (NMU c) (ri_mu i')) by assumption. apply (columns mu0); [congruence|intros a Ha; rewrite (M4 a Ha); lia|intros a Ha; rewrite (M4' a Ha); lia|]. intros j Hj. apply (G j ltac:(lia)). exact Hj. }
  rewrite E1, E2, E3, E4. reflexivity.
Qed.
Lemma c59_in_determines c tests tests' : (NMU c <= 18)%nat -> few_tests tests -> few_tests tests' -> Forall (test_sized c) tests -> Forall (test_sized c) tests' -> Forall test_ok tests -> Forall test_ok tests' ->
  dump_in_file c tests = dump_in_file c tests' -> map inputs_shown tests = map inputs_shown tests'.
Proof.
  intros HN F F' S S' O O' E. destruct (c59_in c tests F S O) as (x & X & R), (c59_in c tests' F' S' O') as (x' & X' & R'). rewrite X, X' in E. injection E as ->. rewrite R in R'. unfold in_table in R'.
  apply frames_inj in R' as [L H]. apply list_eq_nth_error; [rewrite !map_length; exact L|]. intros k a b Ha Hb. rewrite nth_error_map in Ha, Hb.
  destruct (nth_error tests k) as [t|] eqn:E; [|discriminate]. destruct (nth_error tests' k) as [t'|] eqn:E'; [|discriminate]. cbn in Ha, Hb. injection Ha as <-. injection Hb as <-.
  rewrite Forall_forall in S, S'. apply (in_vals_inj c (Datatypes.S k)); [exact HN|apply S; eapply nth_error_In; exact E|apply S'; eapply nth_error_In; exact E'|].
  intros ic Hic. exact (H k t t' E E' ic Hic).
Qed.

(** ** The tracks dump_in.txt leaves out *)
Lemma dump_if_ten {T U} (p : T -> U) (dump : T -> list ascii) clr send i row row' : (forall x y, p x = p y -> dump x = dump y) -> (10 <= length row)%nat -> (10 <= length row')%nat -> map p (firstn 10 row) = map p (firstn 10 row') ->
  dump_if dump clr send 10 i row = dump_if dump clr send 10 i row'.
Proof.
  intros HD L L' E. unfold dump_if. destruct (Nat.ltb_spec i 10) as [Hi|]; [|reflexivity]. destruct send; [|reflexivity]. cbn [andb].
  assert (N : forall r : list T, (10 <= length r)%nat -> nth_error r i = nth_error (firstn 10 r) i).
  { intros r Hr. rewrite <- (firstn_skipn 10 r) at 1. apply nth_error_app1. rewrite firstn_length. lia. }
  pose proof (f_equal (fun l => nth_error l i) E) as EN. cbn beta in EN. rewrite !nth_error_map, <- !N in EN by assumption. unfold rd. destruct (nth_error row i), (nth_error row' i); cbn in EN; try discriminate; [|reflexivity].
  cbn [bind]. f_equal. apply HD. congruence.
Qed.
Lemma mapM_rows {T U} (f : list T -> res U) l l' n : length l = n -> length l' = n -> Forall2 (fun a b => f a = f b) l l' -> mapM (fun is => do row <- rd l is; f row) (seq 0 n) = mapM (fun is => do row <- rd l' is; f row) (seq 0 n).
Proof.
  intros L L' H. apply mapM_ext. intros s Hs. unfold rd.
  assert (G : forall s, match nth_error l s, nth_error l' s with Some a, Some b => f a = f b | None, None => True | _, _ => False end).
  { clear -H. induction H as [|a b l l' E _ IH]; intros [|s]; cbn [nth_error]; [exact I..|exact E|exact (IH s)]. }
  specialize (G s). destruct (nth_error l s), (nth_error l' s); cbn; tauto || exact G.
Qed.
Lemma c59_in_blind c tests : forall tests', Forall2 (fun t t' => test_sized c t /\ test_sized c t' /\ inputs_shown t = inputs_shown t') tests tests' -> dump_in_file c tests = dump_in_file c tests'.
Proof.
  assert (LINE : forall test t t' n ic, test_sized c t -> test_sized c t' -> inputs_shown t = inputs_shown t' -> dump_in_line c test (rt_ins t) n ic = dump_in_line c test (rt_ins t') n ic).
  { intros test t t' n ic (_ & _ & [L3 M3] & _) (_ & _ & [L3' M3'] & _) E. unfold inputs_shown in E. unfold dump_in_line. set (i := rt_ins t) in *. set (i' := rt_ins t') in *.
    apply pair_equal_spec in E as [E E4]. apply pair_equal_spec in E as [E E3]. apply pair_equal_spec in E as [E1 E2]. cbv zeta. rewrite <- E1, <- E2, <- E4. change (NTRACK_PER_SECTOR / 2)%nat with 10%nat. change N_IN_SECTORS with 12%nat.
    match goal with |- (do calo <- ?A; do em <- ?B; do tk <- mapM (fun is => do row <- rd _ is; @?F row) _; _) = _ => rewrite (mapM_rows F (ri_tk i) (ri_tk i') 12 L3 L3'); [reflexivity|] end.
    assert (HD : forall x y, no_tight x = no_tight y -> dump_tk x = dump_tk y) by (intros x y E; unfold no_tight in E; injection E as A1 A2 A3 A4 A5; unfold dump_tk; rewrite A1, A2, A3, A4, A5; reflexivity).
    clear -E3 M3 M3' HD. generalize dependent (ri_tk i'). induction (ri_tk i) as [|a l IH]; intros [|b l'] M' E; try discriminate; constructor.
    - cbn [map] in E. assert (Eab : map no_tight (firstn 10 a) = map no_tight (firstn 10 b)) by congruence. assert (La : (10 <= length a)%nat) by (rewrite (M3 a) by (now left); lia). assert (Lb : (10 <= length b)%nat) by (rewrite (M' b) by (now left); lia).
      rewrite !(dump_if_ten no_tight dump_tk tk0 _ _ a b HD La Lb Eab). reflexivity.
    - apply IH; [intros; apply M3; now right|intros; apply M'; now right|cbn [map] in E; congruence]. }
  unfold dump_in_file, dump_file, indexed. intros tests' H. assert (L : length tests = length tests') by (clear -H; induction H; cbn; congruence). rewrite <- L.
  match goal with |- (do (_, text) <- foldM ?f _ _; _) = _ => set (F := f) end.
  assert (G : forall a st, foldM F (combine (seq a (length tests)) tests) st = foldM F (combine (seq a (length tests)) tests') st); [|rewrite G; reflexivity].
  clear L. induction H as [|t t' l l' (S & S' & E) _ IH]; intros a st; [reflexivity|]. cbn [length seq combine foldM].
  assert (EF : F st (a, t) = F st (a, t')).
  { unfold F. apply foldM_ext. intros [frame text] ic _. cbn [fst snd]. unfold i32. destruct (_ && _); [|reflexivity]. cbn [bind]. rewrite (LINE _ t t') by assumption. reflexivity. }
  rewrite EF. destruct (F st (a, t')) as [st1|]; [|reflexivity]. cbn [bind]. apply IH.
Qed.
