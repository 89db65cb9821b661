(** Property lemmas about the regionizer (C35 to C41). *)
From Coq Require Import Permutation Sorted.
From Verif Require Import Base BaseFacts Data PFHw SortFacts SpecSort RankFacts TabFacts Regionizer SpecRegion RegionFacts RegionMerge RegionLoops.

Lemma filter_perm_len {T} (f : T -> bool) l l' : Permutation l l' -> length (filter f l) = length (filter f l').
Proof. intros P. induction P as [|z u v P IH|z w u|u v w P1 IH1 P2 IH2]; cbn; [reflexivity| | |congruence]. - destruct (f z); cbn; congruence. - destruct (f z), (f w); reflexivity. Qed.

(** ** consequences of [top_n] *)
Lemma top_n_in {T} (pt : T -> Z) later n l top x : top_n pt later n l top -> In x top -> In x l.
Proof.
  intros (idx & P & _ & Fo) Hx. clear P. induction Fo as [|i y is ys H Fo IH]; [destruct Hx|]. destruct Hx as [<-|Hx]; [|auto].
  eapply nth_error_In; eauto.
Qed.

Lemma top_n_displaced {T} (pt : T -> Z) n l top x : top_n pt false n l top -> In x l ->
  In x top \/ (length top = n /\ (forall y, In y top -> pt x <= pt y) /\ (n < length (filter (fun y => (pt x <=? pt y)%Z) l))%nat).
Proof.
  intros H Hx. assert (E := top_n_unique _ _ _ _ _ _ H (top_n_rsort false pt n l)). subst top. clear H.
  assert (P := rsort_perm false pt l).
  assert (Hx' : In x (rsort false pt l)) by (eapply Permutation_in; [symmetry; exact P|exact Hx]).
  assert (D : desc pt (rsort false pt l)).
  { assert (G : forall a, desc pt a -> desc pt (fold_left (rins false pt) l a)); [|apply G; constructor].
    clear. induction l as [|y l IH]; intros a D; cbn; [assumption|]. apply IH. apply desc_ins; [| |assumption]; intros z _ E; cbn [cmp] in E; lia. }
  set (r := rsort false pt l) in *. rewrite <- (firstn_skipn n r) in Hx'. apply in_app_or in Hx' as [Hx'|Hx']; [left; assumption|right].
  assert (L : (n < length r)%nat).
  { assert (length (skipn n r) <> 0)%nat by (destruct (skipn n r); [destruct Hx'|discriminate]). rewrite skipn_length in H. lia. }
  assert (G : forall y, In y (firstn n r) -> pt x <= pt y).
  { rewrite <- (firstn_skipn n r) in D. revert D Hx'. generalize (firstn n r) (skipn n r). intros u v. clear.
    induction u as [|z u IH]; intros D Hx y Hy; [destruct Hy|]. cbn in D. inversion D as [|? ? D' Q]; subst. destruct Hy as [<-|Hy].
    - rewrite Forall_forall in Q. apply Q. apply in_or_app; right; assumption.
    - apply IH; assumption. }
  split; [rewrite firstn_length; lia|]. split; [exact G|].
  rewrite <- (filter_perm_len _ _ _ P). rewrite <- (firstn_skipn n r), filter_app, app_length.
  assert (E1 : filter (fun y => pt x <=? pt y) (firstn n r) = firstn n r).
  { revert G. generalize (firstn n r). clear. induction l as [|z u IH]; intros G; cbn; [reflexivity|].
    destruct (Z.leb_spec (pt x) (pt z)); [f_equal; apply IH; intros; apply G; right; assumption|]. specialize (G z (or_introl eq_refl)). lia. }
  rewrite E1, firstn_length. assert (length (filter (fun y => (pt x <=? pt y)%Z) (skipn n r)) <> 0)%nat; [|lia].
  assert (Hf : In x (filter (fun y => pt x <=? pt y) (skipn n r))) by (apply filter_In; split; [assumption|lia]).
  intros E0. apply length_zero_iff_nil in E0. rewrite E0 in Hf. destruct Hf.
Qed.

Section region.
Context {A : Type} (d : A).
Implicit Types (x y o : robj A).

(** ** C35 *)
Lemma deserialize_hw_kept nobj n fibers work : dims3 12 3 n work -> length fibers = 12%nat -> (forall fib, In fib fibers -> (nobj <= length fib)%nat) ->
  exists work', deserialize_ptsort_eta d nobj n fibers work = Ok (map (skipn nobj) fibers, work') /\ dims3 12 3 n work' /\
    forall s ie, (s < 12)%nat -> (ie < 3)%nat -> kept d n (slice_cands ie (arrivals 1 nobj fibers s)) (nth ie (nth s work' []) []).
Proof.
  intros H1 H2 H3. eexists. split; [apply deserialize_hw_W; assumption|]. split; [apply W_dims|]. intros; apply W_kept; assumption.
Qed.
Lemma deserialize_ref_kept nobj n nf fibers work : dims3 12 3 n work -> length fibers = (nf * 12)%nat -> (forall fib, In fib fibers -> (nobj / nf <= length fib)%nat) ->
  exists work', deserialize_ref d nobj n nf fibers work = Ok (map (skipn (nobj / nf)) fibers, work') /\ dims3 12 3 n work' /\
    forall s ie, (s < 12)%nat -> (ie < 3)%nat -> kept d n (slice_cands ie (arrivals nf (nobj / nf) fibers s)) (nth ie (nth s work' []) []).
Proof.
  intros H1 H2 H3. eexists. split; [apply deserialize_ref_W; assumption|]. split; [apply W_dims|]. intros; apply W_kept; assumption.
Qed.

(** one fibre: the arrivals are its first entries *)
Lemma arrivals_one cnt fibers s : arrivals 1 cnt fibers s = firstn cnt (nth s fibers (@nil (robj A))).
Proof.
  unfold arrivals. replace (1 * s + 0)%nat with s by lia. cbn [seq flat_map]. replace (1 * s + 0)%nat with s by lia. generalize (nth s fibers []) as l. intros l.
  induction cnt as [|cnt IH]; [reflexivity|]. rewrite seq_S, flat_map_app, IH. cbn [flat_map Nat.add]. rewrite !app_nil_r.
  replace (S cnt) with (cnt + 1)%nat by lia. destruct (nth_error l cnt) eqn:E; [symmetry; apply firstn_snoc; assumption|].
  apply nth_error_None in E. rewrite !firstn_all2 by lia. apply app_nil_r.
Qed.

(** ** C36 *)
Lemma shifted_slots n p s : pos p -> shifted s (slots d n p) = map (add_phi s) p.
Proof. intros P. unfold shifted. rewrite filter_slots by assumption. reflexivity. Qed.

Lemma merge_smart_kept nsec nreg l1 s1 l2 s2 l3 s3 junk out :
  (nsec <= nreg)%nat -> length out = nreg -> sorted_slots d nsec l1 -> sorted_slots d nsec l2 -> sorted_slots d nsec l3 ->
  exists res, merge_smart d nsec nreg l1 s1 l2 s2 l3 s3 junk out = Ok res /\ kept d nreg (shifted s1 l1 ++ shifted s2 l2 ++ shifted s3 l3) res.
Proof.
  intros H1 H2 S1 S2 S3. apply sorted_slots_form in S1 as (p1 & -> & L1 & P1 & D1), S2 as (p2 & -> & L2 & P2 & D2), S3 as (p3 & -> & L3 & P3 & D3).
  rewrite !shifted_slots by assumption. eexists. split; [apply merge_smart_K; assumption|apply kept_K].
Qed.
Lemma merge_ref_kept nsec nreg l1 s1 l2 s2 l3 s3 out :
  length out = nreg -> sorted_slots d nsec l1 -> sorted_slots d nsec l2 -> sorted_slots d nsec l3 ->
  exists res, merge_sectors_ref d nsec nreg l1 s1 l2 s2 l3 s3 out = Ok res /\ kept d nreg (shifted s1 l1 ++ shifted s2 l2 ++ shifted s3 l3) res.
Proof.
  intros H2 S1 S2 S3. apply sorted_slots_form in S1 as (p1 & -> & L1 & P1 & D1), S2 as (p2 & -> & L2 & P2 & D2), S3 as (p3 & -> & L3 & P3 & D3).
  rewrite !shifted_slots by assumption. eexists. split; [apply merge_ref_K; assumption|apply kept_K].
Qed.
Lemma merge_equal nsec nreg l1 s1 l2 s2 l3 s3 junk out out' :
  (nsec <= nreg)%nat -> length out = nreg -> length out' = nreg -> sorted_slots d nsec l1 -> sorted_slots d nsec l2 -> sorted_slots d nsec l3 ->
  exists res, merge_smart d nsec nreg l1 s1 l2 s2 l3 s3 junk out = Ok res /\ merge_sectors_ref d nsec nreg l1 s1 l2 s2 l3 s3 out' = Ok res.
Proof.
  intros H1 H2 H2' S1 S2 S3. destruct (merge_smart_kept nsec nreg l1 s1 l2 s2 l3 s3 junk out) as (o & E & Ko); try assumption.
  destruct (merge_ref_kept nsec nreg l1 s1 l2 s2 l3 s3 out') as (o' & E' & Ko'); try assumption.
  exists o. split; [assumption|]. rewrite (kept_unique _ _ _ _ _ Ko Ko'). assumption.
Qed.
(** the slices are such lists *)
Lemma kept_sorted_slots n l (o : list (robj A)) : (forall x, In x l -> 0 < r_pt x) -> kept d n l o -> sorted_slots d n o.
Proof.
  intros P Ko. rewrite (kept_unique _ _ _ _ _ Ko (kept_K d n l)). clear Ko. assert (Pl : pos l) by (apply Forall_forall; exact P).
  exists (firstn n (rsort false r_pt l)). split; [apply K_eq|]. split; [rewrite firstn_length; lia|]. split.
  - intros x Hx. apply pos_rsort in Pl. unfold pos in Pl. rewrite Forall_forall in Pl. apply Pl. rewrite <- (firstn_skipn n). apply in_or_app; left; assumption.
  - assert (D : desc r_pt (firstn n (rsort false r_pt l))) by (apply desc_firstn, rsort_desc). revert D.
    generalize (firstn n (rsort false r_pt l)) as u. clear. intros u D. induction D as [|z u D IH Q]; intros [|i] [|j] x y Hij Hx Hy; cbn in *; try discriminate; try lia.
    + injection Hx as <-. rewrite Forall_forall in Q. apply Q. eapply nth_error_In; eauto.
    + apply (IH i j); try assumption. lia.
Qed.

(** ** C37 *)
Lemma regionize_equal nobj nsec nreg junk work work' fibers regions regions' :
  (nsec <= nreg)%nat -> dims3 12 3 nsec work -> dims3 12 3 nsec work' -> dims2 18 nreg regions -> dims2 18 nreg regions' ->
  length fibers = 12%nat -> (forall fib, In fib fibers -> (nobj <= length fib)%nat) ->
  exists out rest static, regionize_hw d nobj nsec nreg junk work fibers regions = Ok (out, rest) /\
    regionize_ref d nobj nsec nreg 1 work' fibers regions' = Ok (out, rest, static).
Proof.
  intros H1 H2 H3 H4 H5 H6 H7. eexists _, _, _. split; [apply regionize_hw_R; assumption|].
  assert (E := regionize_ref_R d nobj nsec nreg 1 work' fibers regions'). rewrite Nat.div_1_r in E. apply E; assumption.
Qed.

Lemma regionize_ref_spec nobj nsec nreg nf work fibers regions :
  dims3 12 3 nsec work -> dims2 18 nreg regions -> length fibers = (nf * 12)%nat -> (forall fib, In fib fibers -> (nobj / nf <= length fib)%nat) ->
  exists out static, regionize_ref d nobj nsec nreg nf work fibers regions = Ok (out, map (skipn (nobj / nf)) fibers, static) /\ dims3 12 3 nsec static /\ dims2 18 nreg out /\
    forall ie ip, (ie < 3)%nat -> (ip < 6)%nat -> region_spec d nsec nreg (arrivals nf (nobj / nf) fibers) ie ip (nth (6 * ie + ip) out []).
Proof.
  intros H1 H2 H3 H4. eexists _, _. split; [apply regionize_ref_R; assumption|]. split; [apply W_dims|]. split.
  - split; [apply tab_length|]. intros a Ha. unfold tab in Ha. apply in_map_iff in Ha as (ir & <- & _). apply K_length.
  - intros ie ip He Hp. rewrite nth_tab by lia. replace ((6 * ie + ip) / 6)%nat with ie by lia. replace ((6 * ie + ip) mod 6)%nat with ip by lia. apply R_spec.
Qed.
Lemma regionize_hw_spec nobj nsec nreg junk work fibers regions :
  (nsec <= nreg)%nat -> dims3 12 3 nsec work -> dims2 18 nreg regions -> length fibers = 12%nat -> (forall fib, In fib fibers -> (nobj <= length fib)%nat) ->
  exists out, regionize_hw d nobj nsec nreg junk work fibers regions = Ok (out, map (skipn nobj) fibers) /\ dims2 18 nreg out /\
    forall ie ip, (ie < 3)%nat -> (ip < 6)%nat -> region_spec d nsec nreg (fun s => firstn nobj (nth s fibers [])) ie ip (nth (6 * ie + ip) out []).
Proof.
  intros H0 H1 H2 H3 H4. eexists. split; [apply regionize_hw_R; assumption|]. split.
  - split; [apply tab_length|]. intros a Ha. unfold tab in Ha. apply in_map_iff in Ha as (ir & <- & _). apply K_length.
  - intros ie ip He Hp. rewrite nth_tab by lia. replace ((6 * ie + ip) / 6)%nat with ie by lia. replace ((6 * ie + ip) mod 6)%nat with ip by lia.
    assert (S := R_spec d nsec nreg (arrivals 1 nobj fibers) ie ip). destruct S as (t0 & t1 & t2 & S). exists t0, t1, t2. rewrite !arrivals_one in S. exact S.
Qed.

(** ** C38 *)
Lemma shift_loop_total (c1 c2 : robj A -> bool) x n a : length a = n -> exists b, shift_loop c1 c2 x n a = Ok b /\ length b = n.
Proof. intros H. rewrite shift_loop_spec by assumption. eexists. split; [reflexivity|]. rewrite length_mapi. assumption. Qed.

Lemma foldM_total {S T} (P : S -> Prop) (f : S -> T -> res S) (l : list T) s : P s ->
  (forall s (x : T), In x l -> P s -> exists s', f s x = Ok s' /\ P s') -> exists s', foldM f l s = Ok s' /\ P s'.
Proof.
  revert s; induction l as [|x l IH]; intros s Hs H; cbn [foldM]; [eauto|]. destruct (H s x (or_introl eq_refl) Hs) as (s' & -> & Hs'). cbn [bind].
  apply IH; [assumption|]. intros; apply H; [right|]; assumption.
Qed.

Lemma merge_smart_bounds nsec nreg l1 s1 l2 s2 l3 s3 junk out :
  length l1 = nsec -> length l2 = nsec -> length l3 = nsec -> length out = nreg ->
  if (nsec <=? nreg)%nat then exists res, merge_smart d nsec nreg l1 s1 l2 s2 l3 s3 junk out = Ok res
  else merge_smart d nsec nreg l1 s1 l2 s2 l3 s3 junk out = UB OutOfBounds.
Proof.
  intros L1 L2 L3 Lo. destruct (Nat.leb_spec nsec nreg) as [H|H]; [|apply merge_smart_oob; assumption].
  unfold merge_smart. cbv zeta.
  assert (E1 : exists t, foldM (fun tmp i => do x <- rd l1 i; wr tmp i (if r_pt x >? 0 then add_phi s1 x else x)) (seq 0 nsec) (map junk (seq 0 nreg)) = Ok t /\ length t = nreg).
  { apply (foldM_total (fun t => length t = nreg)); [rewrite map_length, seq_length; reflexivity|]. intros t i Hi Ht. apply in_seq in Hi.
    rewrite (rd_Ok _ _ (rclear d)) by lia. cbn [bind]. rewrite wr_Ok by lia. eexists. split; [reflexivity|]. rewrite length_upd. assumption. }
  destruct E1 as (t1 & -> & T1). cbn [bind].
  assert (E2 : exists t, foldM (fun tmp i => wr tmp i (rclear d)) (seq nsec (nreg - nsec)) t1 = Ok t /\ length t = nreg).
  { apply (foldM_total (fun t => length t = nreg)); [assumption|]. intros t i Hi Ht. apply in_seq in Hi. rewrite wr_Ok by lia. eexists. split; [reflexivity|]. rewrite length_upd. assumption. }
  destruct E2 as (t2 & -> & T2). cbn [bind].
  assert (E3 : forall s (l t : list (robj A)), length l = nsec -> length t = nreg -> exists t', insert_list nreg s l nsec t = Ok t' /\ length t' = nreg).
  { intros s l t Ll Lt. apply (foldM_total (fun t => length t = nreg)); [assumption|]. intros u i Hi Hu. apply in_seq in Hi.
    rewrite (rd_Ok _ _ (rclear d)) by lia. cbn [bind]. apply shift_loop_total. assumption. }
  destruct (E3 s2 l2 t2) as (t3 & -> & T3); [assumption|assumption|]. cbn [bind].
  destruct (E3 s3 l3 t3) as (t4 & -> & T4); [assumption|assumption|]. cbn [bind].
  rewrite (copy_loop d) by assumption. eexists; reflexivity.
Qed.

Lemma regionize_hw_oob nobj nsec nreg junk work fibers regions :
  (nreg < nsec)%nat -> dims3 12 3 nsec work -> dims2 18 nreg regions -> length fibers = 12%nat -> (forall fib, In fib fibers -> (nobj <= length fib)%nat) ->
  regionize_hw d nobj nsec nreg junk work fibers regions = UB OutOfBounds.
Proof.
  intros H0 H1 [H2 H2'] H3 H4. unfold regionize_hw. rewrite deserialize_hw_W by assumption. cbn [bind]. unfold merge_loop.
  change N_OUT_REGIONS_ETA with 3%nat. change N_OUT_REGIONS_PHI with 6%nat. cbn [seq foldM Nat.mul Nat.add].
  change (rd IN_SECTOR_OF_REGION 0) with (Ok [0; 1; 2]%nat). cbn [bind]. unfold rd at 1 2 3. cbn [nth_error bind].
  unfold W. rewrite !(rd_tab 12) by lia. cbn [bind]. rewrite !(rd_tab 3) by lia. cbn [bind].
  change (rd PHI_SHIFT 0) with (Ok (-120)). change (rd PHI_SHIFT 1) with (Ok 0). change (rd PHI_SHIFT 2) with (Ok 120). cbn [bind].
  rewrite (rd_Ok regions 0 []) by lia. cbn [bind]. rewrite merge_smart_oob; [reflexivity|assumption|apply K_length].
Qed.

(** ** C39 *)
Lemma kept_in n l out o : kept d n l out -> In o out -> 0 < r_pt o -> In o l.
Proof.
  intros (top & T & ->) Ho P. apply in_app_or in Ho as [Ho|Ho]; [eapply top_n_in; eauto|]. apply repeat_spec in Ho. subst. cbn in P. lia.
Qed.

Lemma region_origin nsec nreg objs ie ip out o : (ie < 3)%nat -> (ip < 6)%nat -> region_spec d nsec nreg objs ie ip out -> In o out -> 0 < r_pt o ->
  exists j x, (j < 3)%nat /\ In x (objs (region_sector ip j)) /\ in_slice ie x = true /\ o = local_phi j (local_eta ie x).
Proof.
  intros He Hp (t0 & t1 & t2 & T0 & T1 & T2 & Ko) Ho P. apply (kept_in _ _ _ _ Ko) in Ho; [|assumption].
  assert (G : forall j t, (j < 3)%nat -> top_n r_pt false nsec (slice_cands ie (objs (region_sector ip j))) t -> In o (map (local_phi j) t) ->
    exists j x, (j < 3)%nat /\ In x (objs (region_sector ip j)) /\ in_slice ie x = true /\ o = local_phi j (local_eta ie x)).
  { intros j t Hj T Hin. apply in_map_iff in Hin as (z & <- & Hz). apply (top_n_in _ _ _ _ _ _ T) in Hz. unfold slice_cands in Hz. apply in_map_iff in Hz as (x & <- & Hx).
    apply filter_In in Hx as [Hx1 Hx2]. apply andb_true_iff in Hx2. exists j, x. tauto. }
  apply in_app_or in Ho as [Ho|Ho]; [apply (G 0%nat t0); auto; lia|]. apply in_app_or in Ho as [Ho|Ho]; [apply (G 1%nat t1); auto; lia|apply (G 2%nat t2); auto; lia].
Qed.

Lemma local_coordinates ip ie j x : (ip < 6)%nat -> (j < 3)%nat -> -392 <= r_phi x <= 391 ->
  region_phi ip (r_phi (local_phi j (local_eta ie x))) = sector_phi (region_sector ip j) (r_phi x) /\
  region_eta ie (r_eta (local_phi j (local_eta ie x))) = r_eta x.
Proof.
  intros Hp Hj Hx. unfold region_eta, region_phi, sector_phi, region_sector. cbn [r_phi r_eta local_phi local_eta]. split; [|lia].
  unfold wrapS. change (2 ^ (10 - 1)) with 512. change (2 ^ 10) with 1024.
  destruct ip as [|[|[|[|[|[|]]]]]]; try lia; destruct j as [|[|[|]]]; try lia.
Qed.

(** ** C40 *)
Lemma region_complete nsec nreg objs ie ip j out x : (ie < 3)%nat -> (ip < 6)%nat -> (j < 3)%nat -> region_spec d nsec nreg objs ie ip out ->
  In x (objs (region_sector ip j)) -> 0 < r_pt x -> in_slice ie x = true ->
  In (local_phi j (local_eta ie x)) out \/
  (nsec < length (filter (fun y => (r_pt x <=? r_pt y)%Z && in_slice ie y) (objs (region_sector ip j))))%nat \/
  (length out = nreg /\ forall o, In o out -> r_pt x <= r_pt o).
Proof.
  intros He Hp Hj (t0 & t1 & t2 & T0 & T1 & T2 & Ko) Hx P S.
  assert (HT : exists t, top_n r_pt false nsec (slice_cands ie (objs (region_sector ip j))) t /\
     (forall z, In z t -> In (local_phi j z) (map (local_phi 0) t0 ++ map (local_phi 1) t1 ++ map (local_phi 2) t2))).
  { destruct j as [|[|[|]]]; try lia; eexists; (split; [eassumption|]); intros z Hz; apply in_or_app.
    - left; apply in_map; assumption.
    - right; apply in_or_app; left; apply in_map; assumption.
    - right; apply in_or_app; right; apply in_map; assumption. }
  destruct HT as (t & T & HT).
  assert (Hc : In (local_eta ie x) (slice_cands ie (objs (region_sector ip j)))).
  { unfold slice_cands. apply in_map. apply filter_In. split; [assumption|]. rewrite S, andb_true_r. lia. }
  destruct (top_n_displaced _ _ _ _ _ T Hc) as [Ht|(_ & _ & Hn)].
  - apply HT in Ht. destruct Ko as (top & Tk & ->). destruct (top_n_displaced _ _ _ _ _ Tk Ht) as [Hi|(Hl & Hg & _)].
    + left. apply in_or_app; left; assumption.
    + right; right. rewrite Hl, Nat.sub_diag. cbn [repeat]. rewrite app_nil_r. split; [assumption|]. exact Hg.
  - right; left. eapply Nat.lt_le_trans; [exact Hn|]. clear. cbn [local_eta r_pt]. unfold slice_cands. generalize (objs (region_sector ip j)) as l.
    intros l. induction l as [|y l IH]; cbn [filter map length]; [lia|]. destruct (in_slice ie y), (Z.ltb_spec 0 (r_pt y)); cbn [andb map filter local_eta r_pt]; rewrite ?andb_true_r, ?andb_false_r;
      try (destruct (Z.leb_spec (r_pt x) (r_pt y))); cbn [length]; lia.
Qed.

Lemma region_cover s eta : (s < 12)%nat -> -342 <= eta <= 342 ->
  exists ie ip j, (ie < 3)%nat /\ (ip < 6)%nat /\ (j < 3)%nat /\ region_sector ip j = s /\ slice_lo ie <= eta <= slice_hi ie.
Proof.
  intros Hs He. assert (E : exists ie, (ie < 3)%nat /\ slice_lo ie <= eta <= slice_hi ie).
  { destruct (Z_le_gt_dec eta (-171)); [exists 0%nat|destruct (Z_le_gt_dec eta 171); [exists 1%nat|exists 2%nat]]; cbn; lia. }
  destruct E as (ie & E1 & E2). exists ie, (s / 2)%nat, (s mod 2)%nat. split; [assumption|]. split; [lia|]. split; [lia|]. split; [|assumption].
  unfold region_sector. replace (2 * (s / 2) + s mod 2)%nat with s by lia. apply Nat.mod_small. assumption.
Qed.

(** ** C41 *)
Lemma arrivals_chunk nf cnt (fibers fibers' : list (list (robj A))) s : map (firstn cnt) fibers = map (firstn cnt) fibers' -> arrivals nf cnt fibers s = arrivals nf cnt fibers' s.
Proof.
  intros H. unfold arrivals. assert (G : forall io, In io (seq 0 cnt) -> forall j, nth_error (nth j fibers []) io = nth_error (nth j fibers' []) io).
  { intros io Hio j. apply in_seq in Hio. assert (E : firstn cnt (nth j fibers []) = firstn cnt (nth j fibers' [])).
    { assert (Q := f_equal (fun l => nth j l []) H). cbn in Q. assert (Z : (@nil (robj A)) = firstn cnt []) by (destruct cnt; reflexivity).
      rewrite Z in Q at 1. rewrite map_nth in Q. rewrite Z in Q at 2. rewrite map_nth in Q. exact Q. }
    assert (Q := f_equal (fun l => nth_error l io) E). cbn in Q. rewrite !nth_error_firstn in Q. destruct (Nat.ltb_spec io cnt); [exact Q|lia]. }
  revert G. generalize (seq 0 cnt). intros l G. induction l as [|io l IH]; cbn [flat_map]; [reflexivity|].
  rewrite IH by (intros; apply G; right; assumption). f_equal. specialize (G io (or_introl eq_refl)). clear -G.
  induction (seq 0 nf) as [|f l IH]; cbn [flat_map]; [reflexivity|]. rewrite IH. rewrite G. reflexivity.
Qed.

Lemma regionize_hw_local nobj nsec nreg junk junk' work work' fibers fibers' regions regions' :
  (nsec <= nreg)%nat -> dims3 12 3 nsec work -> dims3 12 3 nsec work' -> dims2 18 nreg regions -> dims2 18 nreg regions' ->
  length fibers = 12%nat -> length fibers' = 12%nat -> (forall fib, In fib fibers -> (nobj <= length fib)%nat) -> (forall fib, In fib fibers' -> (nobj <= length fib)%nat) ->
  map (firstn nobj) fibers = map (firstn nobj) fibers' ->
  exists out, regionize_hw d nobj nsec nreg junk work fibers regions = Ok (out, map (skipn nobj) fibers) /\
              regionize_hw d nobj nsec nreg junk' work' fibers' regions' = Ok (out, map (skipn nobj) fibers').
Proof.
  intros. eexists. split; [apply regionize_hw_R; assumption|]. rewrite regionize_hw_R by assumption. f_equal. f_equal. apply tab_ext. intros ir _.
  unfold R. rewrite !(arrivals_chunk 1 nobj fibers fibers') by assumption. reflexivity.
Qed.

Lemma R_chunk nsec nreg nf cnt fibers fibers' ie ip : map (firstn cnt) fibers = map (firstn cnt) fibers' ->
  R d nsec nreg (arrivals nf cnt fibers) ie ip = R d nsec nreg (arrivals nf cnt fibers') ie ip.
Proof. intros H. unfold R. rewrite !(arrivals_chunk nf cnt fibers fibers') by assumption. reflexivity. Qed.

End region.

(** successive calls of anything that consumes [cnt] entries per fibre, leaves
    a well-formed static area and depends only on what it read *)
Section history.
Context {T : Type} (call : list (list (list T)) -> list (list T) -> list (list T) -> res (list (list T) * list (list T) * list (list (list T)))).
Context (NF cnt : nat) (okS : list (list (list T)) -> Prop) (okR : list (list T) -> Prop) (f : list (list T) -> list (list T)).
Hypothesis Hcall : forall static fibers regions, okS static -> okR regions -> length fibers = NF -> (forall fib, In fib fibers -> (cnt <= length fib)%nat) ->
  exists static', call static fibers regions = Ok (f fibers, map (skipn cnt) fibers, static') /\ okS static'.
Hypothesis Hf : forall fibers fibers', map (firstn cnt) fibers = map (firstn cnt) fibers' -> f fibers = f fibers'.

Lemma chunk_S k (fibers : list (list T)) : chunk cnt (S k) fibers = chunk cnt k (map (skipn cnt) fibers).
Proof.
  unfold chunk. rewrite map_map. apply map_ext. intros fib. f_equal. replace (S k * cnt)%nat with (k * cnt + cnt)%nat by lia.
  revert fib. generalize (k * cnt)%nat as a. clear. intros a. induction cnt as [|c IH]; intros fib.
  - rewrite Nat.add_0_r. destruct a; reflexivity.
  - rewrite Nat.add_succ_r. destruct fib as [|x fib]; [rewrite !skipn_nil; reflexivity|]. cbn [skipn]. apply IH.
Qed.

Lemma calls_spec regs : forall static fibers, okS static -> Forall okR regs -> length fibers = NF ->
  (forall fib, In fib fibers -> (length regs * cnt <= length fib)%nat) ->
  exists outs, calls call regs static fibers = Ok (outs, map (skipn (length regs * cnt)) fibers) /\ length outs = length regs /\
    forall k out, nth_error outs k = Some out -> forall static' regions', okS static' -> okR regions' ->
      exists s'', call static' (chunk cnt k fibers) regions' = Ok (out, map (fun _ => []) fibers, s'').
Proof.
  induction regs as [|r regs IH]; intros static fibers HS HR HF HL.
  - exists []. split; [cbn; f_equal; f_equal; rewrite <- (map_id fibers) at 1; reflexivity|]. split; [reflexivity|]. intros [|k] out Hk; discriminate.
  - cbn [calls]. apply Forall_cons_iff in HR as [HR1 HR2]. cbn [length] in HL.
    destruct (Hcall static fibers r) as (static1 & E & S1); try assumption; [intros fib Hfib; specialize (HL fib Hfib); lia|]. rewrite E. cbn [bind].
    destruct (IH static1 (map (skipn cnt) fibers)) as (outs & E2 & L2 & G2); try assumption.
    { rewrite map_length; assumption. }
    { intros fib Hfib. apply in_map_iff in Hfib as (fib0 & <- & H0). rewrite skipn_length. specialize (HL fib0 H0). lia. }
    rewrite E2. cbn [bind]. exists (f fibers :: outs). split.
    + f_equal. f_equal. rewrite map_map. apply map_ext. intros fib. cbn [length].
      assert (Q : forall a b (l : list T), skipn a (skipn b l) = skipn (b + a) l).
      { clear. intros a b; induction b as [|b IHb]; intros l; cbn [skipn Nat.add]; [reflexivity|]. destruct l; [apply skipn_nil|apply IHb]. }
      rewrite Q. f_equal.
    + split; [cbn; f_equal; assumption|]. intros [|k] out Hk static' regions' HS' HR'.
      * cbn in Hk. injection Hk as <-. destruct (Hcall static' (chunk cnt 0 fibers) regions') as (s'' & Ec & _); try assumption.
        -- unfold chunk. rewrite map_length; assumption.
        -- intros fib Hfib. unfold chunk in Hfib. apply in_map_iff in Hfib as (fib0 & <- & H0). cbn [Nat.mul skipn]. rewrite firstn_length. specialize (HL fib0 H0). lia.
        -- exists s''. rewrite Ec. f_equal. f_equal. f_equal.
           ++ apply Hf. unfold chunk. rewrite map_map. apply map_ext. intros fib. cbn [Nat.mul skipn]. rewrite firstn_firstn. f_equal. lia.
           ++ unfold chunk. rewrite map_map. apply map_ext. intros fib. cbn [Nat.mul skipn]. apply skipn_all2. rewrite firstn_length. lia.
      * cbn in Hk. rewrite chunk_S. destruct (G2 k out Hk static' regions' HS' HR') as (s'' & Ec). exists s''. rewrite Ec. f_equal. f_equal. f_equal.
        rewrite map_map. reflexivity.
Qed.
End history.

Section history_region.
Context {A : Type} (d : A).
Lemma regionize_ref_calls nobj nsec nreg nf regs static fibers :
  dims3 12 3 nsec static -> Forall (dims2 18 nreg) regs -> length fibers = (nf * 12)%nat ->
  (forall fib, In fib fibers -> (length regs * (nobj / nf) <= length fib)%nat) ->
  exists outs, calls (regionize_ref (A := A) d nobj nsec nreg nf) regs static fibers = Ok (outs, map (skipn (length regs * (nobj / nf))) fibers) /\ length outs = length regs /\
    forall k out, nth_error outs k = Some out -> forall static' regions', dims3 12 3 nsec static' -> dims2 18 nreg regions' ->
      exists s'', regionize_ref d nobj nsec nreg nf static' (chunk (nobj / nf) k fibers) regions' = Ok (out, map (fun _ => []) fibers, s'').
Proof.
  intros. apply (calls_spec _ (nf * 12) (nobj / nf) (dims3 12 3 nsec) (dims2 18 nreg)
     (fun fibers => tab 18 (fun ir => R d nsec nreg (arrivals nf (nobj / nf) fibers) (ir / 6) (ir mod 6)))); try assumption.
  - intros. eexists. split; [apply regionize_ref_R; assumption|apply W_dims].
  - intros fb fb' E. apply tab_ext. intros ir _. apply R_chunk. assumption.
Qed.
End history_region.
