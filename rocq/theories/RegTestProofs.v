(** Proofs about the regionizer test program: reading the sectors. *)
From Verif Require Import Base BaseFacts TabFacts Data PFHw TestUtils Discrete Convert ConvertFacts DiscreteIO SpecIO IOFacts EventLoop
  Regionizer SpecRegion EncFacts RegTest SpecRegTest.

(** ** Lists *)
Lemma rd_here {T} (l1 : list T) x l2 : rd (l1 ++ x :: l2) (length l1) = Ok x.
Proof. unfold rd. rewrite nth_error_app2, Nat.sub_diag by lia. reflexivity. Qed.
Lemma wr_here {T} (l1 : list T) x l2 v : wr (l1 ++ x :: l2) (length l1) v = Ok (l1 ++ v :: l2).
Proof. rewrite wr_app_snoc, <- app_assoc. reflexivity. Qed.
Lemma mapM_rd {T} (l : list T) : mapM (rd l) (seq 0 (length l)) = Ok l.
Proof.
  apply mapM_nth; [apply seq_length|]. intros i x y Hx Hy. pose proof (proj1 (nth_error_Some (seq 0 (length l)) i) ltac:(congruence)) as L. rewrite seq_length in L.
  assert (x = i). { rewrite (nth_error_nth' _ 0%nat), seq_nth in Hx by (rewrite ?seq_length; lia). injection Hx as <-. reflexivity. } subst. unfold rd. rewrite Hy. reflexivity.
Qed.
Lemma fill_whole {T} n (data : list T) : length data = n -> fill_stream n 1 0 data [] = Ok (Some data).
Proof.
  intros <-. unfold fill_stream. replace ((length data - 0 + 1 - 1) / 1)%nat with (length data) by (rewrite Nat.div_1_r; lia).
  rewrite (mapM_ext _ (rd data)) by (intros; f_equal; lia). rewrite mapM_rd. reflexivity.
Qed.
(** every other object, from object i: what fibre i of a sector carries *)
Definition half {T} (i : nat) (data : list T) : list T := flat_map (fun k => match nth_error data (i + 2 * k) with Some x => [x] | None => [] end) (seq 0 10).
Ltac list20 l H := do 20 (destruct l as [|? l]; [discriminate H|]); destruct l; [|discriminate H].
Lemma fill_half {T} i (data : list T) : length data = 20%nat -> (i < 2)%nat -> fill_stream 20 2 i data [] = Ok (Some (half i data)) /\ length (half i data) = 10%nat.
Proof. intros H Hi. list20 data H. destruct i as [|[|]]; [split; reflexivity..|lia]. Qed.
Lemma half_both {T} (data : list T) : length data = 20%nat ->
  flat_map (fun io => flat_map (fun f => match nth_error (half f data) io with Some x => [x] | None => [] end) (seq 0 2)) (seq 0 10) = data.
Proof. intros H. list20 data H. reflexivity. Qed.

(** ** One sector *)
Lemma fill_both_here {A} n step offset k (data f : list (robj A)) (c : chan A) a b a' b' : fill_stream n step offset data [] = Ok (Some f) ->
  ch_fib c = a ++ [] :: b -> ch_fibr c = a' ++ [] :: b' -> length a = k -> length a' = k ->
  fill_both n step offset k data c = Ok (Some (mkChan (a ++ f :: b) (a' ++ f :: b') (ch_reg c) (ch_regr c) (ch_static c))).
Proof.
  intros HF E1 E2 L1 L2. unfold fill_both. rewrite E1, E2. subst k. rewrite rd_here. cbn [bind]. rewrite HF. cbn [bind]. rewrite wr_here. cbn [bind].
  rewrite <- L2. rewrite rd_here. cbn [bind]. rewrite HF. cbn [bind]. rewrite wr_here. reflexivity.
Qed.
Lemma convert_row_here {In Out} (conv : In -> Out) clr n ins a row b : fits ins -> length row = n ->
  convert_row conv clr n ins (a ++ row :: b) (length a) = Ok (a ++ filled conv clr n ins :: b).
Proof. intros HF HL. unfold convert_row. rewrite rd_here. cbn [bind]. rewrite convert_in_ok by assumption. cbn [bind]. apply wr_here. Qed.
Lemma assert_all {T} (p : T -> bool) (row : list T) n : length row = n ->
  foldM (fun _ i => do o <- rd row i; if p o then Ok tt else UB AssertFail) (seq 0 n) tt = if forallb p row then Ok tt else UB AssertFail.
Proof.
  intros <-.
  assert (G : forall pre l, foldM (fun _ i => do o <- rd (pre ++ l) i; if p o then Ok tt else UB AssertFail) (seq (length pre) (length l)) tt = if forallb p l then Ok tt else UB AssertFail).
  { intros pre l. revert pre. induction l as [|x l IH]; intros pre; [reflexivity|]. cbn [length seq foldM forallb]. rewrite rd_here. cbn [bind]. destruct (p x); [|reflexivity]. cbn [bind andb].
    specialize (IH (pre ++ [x])). rewrite <- app_assoc, app_length in IH. cbn [app length] in IH. rewrite Nat.add_1_r in IH. exact IH. }
  exact (G [] row).
Qed.

(** the objects of a sector, as the test converts them *)
Definition s_calo (r : Region) : list HadCalo := filled fw_had had0 15 (rg_calo r).
Definition s_em (r : Region) : list EmCalo := filled fw_em em0 12 (rg_emcalo r).
Definition s_tk (r : Region) : list Tk := filled fw_tk tk0 20 (rg_track r).
Definition s_mu (n : nat) (r : Region) : list Mu := filled fw_mu mu0 n (rg_muon r).
Definition region_fits (r : Region) : Prop := fits (rg_calo r) /\ fits (rg_emcalo r) /\ fits (rg_track r) /\ fits (rg_muon r) /\ Forall (fun cl => inS 16 (cl_pt cl)) (rg_calo r).
Definition neg_sector (r : Region) : bool := existsb (fun cl => cl_pt cl <? 0) (firstn 15 (rg_calo r)).
Definition tk_fibres (r : Region) : list (list (robj (Z * Z * bool))) := [half 0 (map r_of_tk (s_tk r)); half 1 (map r_of_tk (s_tk r))].

Lemma forallb_negb_existsb {T} (p q : T -> bool) l : (forall x, In x l -> p x = negb (q x)) -> forallb p l = negb (existsb q l).
Proof. induction l as [|x l IH]; intros H; [reflexivity|]. cbn. rewrite (H x (or_introl eq_refl)), IH by (intros; apply H; now right). destruct (q x); reflexivity. Qed.
Lemma forallb_repeat {T} (p : T -> bool) x n : p x = true -> forallb p (repeat x n) = true.
Proof. intros H. induction n; cbn; [reflexivity|]. rewrite H. exact IHn. Qed.
Lemma positive_row r : region_fits r -> forallb (fun o => h_pt o >=? 0) (s_calo r) = negb (neg_sector r).
Proof.
  intros (_ & _ & _ & _ & HP). unfold s_calo, filled. rewrite forallb_app, (forallb_repeat _ had0) by reflexivity. rewrite andb_true_r.
  unfold neg_sector. rewrite <- (forallb_negb_existsb (fun cl => h_pt (fw_had cl) >=? 0)).
  - generalize (firstn 15 (rg_calo r)). intros l. induction l as [|x l IH]; [reflexivity|]. cbn [map forallb]. f_equal. exact IH.
  - intros x Hx. assert (In x (rg_calo r)) by (rewrite <- (firstn_skipn 15 (rg_calo r)); apply in_or_app; now left).
    pose proof (proj1 (Forall_forall _ _) HP x H) as R. cbn beta in R. cbn [fw_had h_pt]. unfold pt_t. rewrite wrapS_id by (exact R || lia). lia.
Qed.

Lemma len2 {A B} (f g : A -> B) l : length (flat_map (fun r => [f r; g r]) l) = (2 * length l)%nat.
Proof. induction l as [|x l IH]; [reflexivity|]. cbn [flat_map app length]. lia. Qed.

(** the state after the sectors [done], with [xc] etc. in the other rows *)
Definition filled_upto (c : config) (st : rstate) (done : list Region) (xc : list (list HadCalo)) (xe : list (list EmCalo)) (xt : list (list Tk)) (xm : list (list Mu)) (k : nat) : rstate :=
  let fibs {A} (ch : chan A) (l : list (list (robj A))) (k : nat) := mkChan (l ++ repeat [] k) (l ++ repeat [] k) (ch_reg ch) (ch_regr ch) (ch_static ch) in
  mkRs (mkRins (map s_calo done ++ xc) (map s_em done ++ xe) (map s_tk done ++ xt) (map (s_mu (NMU c)) done ++ xm) (ri_mu (rs_ins st)))
    (fibs (rs_calo st) (map (fun r => map r_of_had (s_calo r)) done) k) (fibs (rs_em st) (map (fun r => map r_of_em (s_em r)) done) k)
    (fibs (rs_tk st) (flat_map tk_fibres done) (2 * k)%nat) (rs_mu st) (rs_tests st).

Lemma sectors_step c ev st done r rest rowc xc rowe xe rowt xt rowm xm : ev_regions ev = done ++ r :: rest -> region_fits r ->
  length rowc = 15%nat -> length rowe = 12%nat -> length rowt = 20%nat -> length rowm = NMU c ->
  reg_sector c ev (Some (filled_upto c st done (rowc :: xc) (rowe :: xe) (rowt :: xt) (rowm :: xm) (S (length rest)))) (length done) =
    if neg_sector r then UB AssertFail else Ok (Some (filled_upto c st (done ++ [r]) xc xe xt xm (length rest))).
Proof.
  intros HE HF L1 L2 L3 L4. pose proof HF as (F1 & F2 & F3 & F4 & _). unfold reg_sector. rewrite HE, rd_here. cbn [bind].
  unfold filled_upto at 1 2. cbn [rs_ins ri_calo rs_calo].
  pose proof (convert_row_here fw_had had0 15 (rg_calo r) (map s_calo done) rowc xc F1 L1) as C1. rewrite map_length in C1. change NCALO_PER_SECTOR with 15%nat. rewrite C1. cbn [bind]. clear C1.
  pose proof (rd_here (map s_calo done) (filled fw_had had0 15 (rg_calo r)) xc) as C1. rewrite map_length in C1. rewrite C1. cbn [bind]. clear C1. fold (s_calo r).
  rewrite assert_all by apply length_filled. rewrite positive_row by exact HF. destruct (neg_sector r); [reflexivity|]. cbn [negb bind].
  rewrite (fill_both_here 15 1 0 (length done) _ (map r_of_had (s_calo r)) _ (map (fun r => map r_of_had (s_calo r)) done) (repeat [] (length rest)) (map (fun r => map r_of_had (s_calo r)) done) (repeat [] (length rest)));
    [|apply fill_whole; rewrite map_length; apply length_filled|reflexivity..|apply map_length|apply map_length]. cbn [bind].
  unfold filled_upto at 1 2. cbn [rs_ins ri_em rs_em].
  pose proof (convert_row_here fw_em em0 12 (rg_emcalo r) (map s_em done) rowe xe F2 L2) as C1. rewrite map_length in C1. change NEMCALO_PER_SECTOR with 12%nat. rewrite C1. cbn [bind]. clear C1.
  pose proof (rd_here (map s_em done) (filled fw_em em0 12 (rg_emcalo r)) xe) as C1. rewrite map_length in C1. rewrite C1. cbn [bind]. clear C1. fold (s_em r).
  rewrite (fill_both_here 12 1 0 (length done) _ (map r_of_em (s_em r)) _ (map (fun r => map r_of_em (s_em r)) done) (repeat [] (length rest)) (map (fun r => map r_of_em (s_em r)) done) (repeat [] (length rest)));
    [|apply fill_whole; rewrite map_length; apply length_filled|reflexivity..|apply map_length|apply map_length]. cbn [bind].
  unfold filled_upto at 1 2. cbn [rs_ins ri_tk rs_tk].
  pose proof (convert_row_here fw_tk tk0 20 (rg_track r) (map s_tk done) rowt xt F3 L3) as C1. rewrite map_length in C1. change NTRACK_PER_SECTOR with 20%nat. rewrite C1. cbn [bind]. clear C1.
  pose proof (rd_here (map s_tk done) (filled fw_tk tk0 20 (rg_track r)) xt) as C1. rewrite map_length in C1. rewrite C1. cbn [bind]. clear C1. fold (s_tk r).
  assert (LT : length (map r_of_tk (s_tk r)) = 20%nat) by (rewrite map_length; apply length_filled).
  assert (LD : length (flat_map tk_fibres done) = (2 * length done)%nat) by apply len2.
  cbn [foldM seq].
  rewrite (fill_both_here 20 2 0 (2 * length done + 0) _ (half 0 (map r_of_tk (s_tk r))) _ (flat_map tk_fibres done) ([] :: repeat [] (2 * length rest)) (flat_map tk_fibres done) ([] :: repeat [] (2 * length rest)));
    [|apply (fill_half 0 _ LT); lia|cbn [ch_fib]; f_equal; replace (2 * S (length rest))%nat with (S (S (2 * length rest))) by lia; reflexivity|cbn [ch_fibr]; f_equal; replace (2 * S (length rest))%nat with (S (S (2 * length rest))) by lia; reflexivity|lia|lia]. cbn [bind].
  rewrite (fill_both_here 20 2 1 (2 * length done + 1) _ (half 1 (map r_of_tk (s_tk r))) _ (flat_map tk_fibres done ++ [half 0 (map r_of_tk (s_tk r))]) (repeat [] (2 * length rest)) (flat_map tk_fibres done ++ [half 0 (map r_of_tk (s_tk r))]) (repeat [] (2 * length rest)));
    [|apply (fill_half 1 _ LT); lia|cbn [ch_fib]; rewrite <- app_assoc; reflexivity|cbn [ch_fibr]; rewrite <- app_assoc; reflexivity|rewrite app_length; cbn [length]; lia|rewrite app_length; cbn [length]; lia]. cbn [bind].
  unfold filled_upto at 1. cbn [rs_ins ri_mu12].
  pose proof (convert_row_here fw_mu mu0 (NMU c) (rg_muon r) (map (s_mu (NMU c)) done) rowm xm F4 L4) as C1. rewrite map_length in C1. rewrite C1. cbn [bind]. clear C1. fold (s_mu (NMU c) r).
  do 2 f_equal. unfold filled_upto. cbn [rs_ins ri_mu rs_mu rs_tests rs_calo rs_em rs_tk ch_reg ch_regr ch_static].
  rewrite !map_app, flat_map_app. cbn [map flat_map]. rewrite app_nil_r. unfold tk_fibres at 3 4. rewrite <- !app_assoc. reflexivity.
Qed.

Lemma sectors_loop c ev st rest : forall done xc xe xt xm, ev_regions ev = done ++ rest -> Forall region_fits rest ->
  dims2 (length rest) 15 xc -> dims2 (length rest) 12 xe -> dims2 (length rest) 20 xt -> dims2 (length rest) (NMU c) xm ->
  foldM (reg_sector c ev) (seq (length done) (length rest)) (Some (filled_upto c st done xc xe xt xm (length rest))) =
    if existsb neg_sector rest then UB AssertFail else Ok (Some (filled_upto c st (done ++ rest) [] [] [] [] 0)).
Proof.
  induction rest as [|r rest IH]; intros done xc xe xt xm HE HF D1 D2 D3 D4.
  - destruct D1 as [D1 _], D2 as [D2 _], D3 as [D3 _], D4 as [D4 _]. cbn [length] in *. destruct xc, xe, xt, xm; try discriminate. rewrite app_nil_r. reflexivity.
  - inversion HF; subst. destruct xc as [|rowc xc], xe as [|rowe xe], xt as [|rowt xt], xm as [|rowm xm]; try (destruct D1, D2, D3, D4; discriminate).
    cbn [length seq foldM existsb]. rewrite (sectors_step c ev st done r rest) by (assumption || (match goal with D : dims2 _ _ (?x :: _) |- length ?x = _ => apply D; now left end)).
    destruct (neg_sector r); [reflexivity|]. cbn [bind orb].
    assert (T : forall {T} n m (x : list T) l, dims2 (S n) m (x :: l) -> dims2 n m l) by (intros ? ? ? ? ? [A B]; split; [cbn in A; lia|intros; apply B; now right]).
    specialize (IH (done ++ [r]) xc xe xt xm). rewrite <- app_assoc in IH. rewrite app_length, Nat.add_1_r in IH. cbn [app] in IH. apply IH; try assumption; eapply T; eassumption.
Qed.
