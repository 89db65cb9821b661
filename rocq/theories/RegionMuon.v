(** The muon regionizer (C42). *)
From Coq Require Import Permutation Sorted.
From Verif Require Import Base BaseFacts Data PFHw SortFacts SpecSort RankFacts TabFacts Regionizer SpecRegion RegionFacts RegionMerge RegionLoops RegionProofs.

Section muon.
Context {A : Type} (d : A).
Implicit Types (x y o : robj A) (l p q a b c src dst : list (robj A)).
Notation clr := (rclear d).

Lemma push_in_K n l x : pos l -> push_in n x (K d n l) = Ok (K d n (l ++ if 0 <? r_pt x then [x] else [])).
Proof. intros P. unfold push_in. apply push_K; [assumption|reflexivity]. Qed.

(** ** merge_muon_in *)
Definition mu_shifted (s : Z) l : list (robj A) := map (add_phi s) (posf l).

Lemma mu_shifted_app s l l' : mu_shifted s (l ++ l') = mu_shifted s l ++ mu_shifted s l'.
Proof. unfold mu_shifted, posf. rewrite filter_app, map_app. reflexivity. Qed.
Lemma pos_mu_shifted s l : pos (mu_shifted s l).
Proof. apply pos_map_phi. apply Forall_forall. intros y Hy. unfold posf in Hy. apply filter_In in Hy. lia. Qed.

Definition mu_in (input : list (list (robj A))) (k m : nat) : list (robj A) :=
  flat_map (fun ics => if (ics / 3 =? m)%nat then mu_shifted (120 * (Z.of_nat (ics mod 3) - 1)) (nth ics input []) else []) (seq 0 k).

Lemma pos_mu_in input k m : pos (mu_in input k m).
Proof.
  unfold mu_in. generalize (seq 0 k). intros l. induction l as [|i l IH]; cbn [flat_map]; [constructor|]. apply Forall_app. split; [|assumption].
  destruct (i / 3 =? m)%nat; [apply pos_mu_shifted|constructor].
Qed.

Lemma merge_muon_in_K nmu input out : dims2 12 nmu input -> dims2 4 nmu out ->
  merge_muon_in d nmu input out = Ok (tab 4 (fun m => K d nmu (mu_in input 12 m))).
Proof.
  intros [I1 I2] [O1 O2]. unfold merge_muon_in. change N_IN_SECTORS with 12%nat.
  apply (foldM_states0 _ (fun k => tab 4 (fun m => K d nmu (mu_in input k m)))).
  - cbn [mu_in seq flat_map]. rewrite K_nil, tab_repeat. unfold clear_all. rewrite <- O1. clear O1 I1 I2. induction out as [|a out IH]; cbn [map length repeat]; [reflexivity|].
    f_equal; [|apply IH; intros; apply O2; right; assumption]. rewrite <- (O2 a (or_introl eq_refl)). clear. induction a; cbn; [reflexivity|]. f_equal; assumption.
  - reflexivity.
  - intros ics Hi. cbv zeta. set (is := (ics / 3)%nat). set (sh := 120 * (Z.of_nat (ics mod 3) - 1)).
    assert (Esh : rd PHI_SHIFT (ics mod 3) = Ok sh).
    { unfold sh, rd. assert (H : (ics mod 3 < 3)%nat) by lia. destruct (ics mod 3)%nat as [|[|[|]]]; [reflexivity|reflexivity|reflexivity|lia]. }
    assert (His : (is < 4)%nat) by (unfold is; lia).
    destruct (nth_error_lt input ics ltac:(lia)) as [row Er]. assert (Ern : nth ics input [] = row) by (apply nth_error_nth; assumption).
    assert (Lr : length row = nmu) by (apply I2; eapply nth_error_In; eauto).
    apply (foldM_states0 _ (fun io => tab 4 (fun m => K d nmu (mu_in input ics m ++ if (is =? m)%nat then mu_shifted sh (firstn io row) else [])))).
    + apply tab_ext. intros m _. destruct (is =? m)%nat; cbn; rewrite app_nil_r; reflexivity.
    + apply tab_ext. intros m _. f_equal. unfold mu_in. rewrite seq_app, flat_map_app. f_equal. cbn [seq flat_map Nat.add]. rewrite app_nil_r.
      fold is sh. rewrite Ern. destruct (is =? m)%nat; [|reflexivity]. rewrite firstn_all2 by lia. reflexivity.
    + intros io Hio. unfold rd at 1. rewrite Er. cbn [bind]. destruct (nth_error_lt row io ltac:(lia)) as [x Ex]. unfold rd at 1. rewrite Ex. cbn [bind].
      rewrite Esh. cbn [bind]. rewrite rd_tab by assumption. cbn [bind]. rewrite Nat.eqb_refl.
      rewrite push_in_K by (apply Forall_app; split; [apply pos_mu_in|apply pos_mu_shifted]). cbn [bind].
      rewrite wr_tab by assumption. f_equal. apply tab_ext. intros m _. rewrite (firstn_snoc _ _ _ Ex), mu_shifted_app.
      destruct (Nat.eqb_spec m is) as [->|N].
      * rewrite Nat.eqb_refl, app_assoc. f_equal. f_equal. unfold mu_shifted, posf. cbn [filter]. change (r_pt (add_phi sh x)) with (r_pt x). destruct (0 <? r_pt x); reflexivity.
      * destruct (Nat.eqb_spec is m); [congruence|reflexivity].
Qed.

Lemma mu_in_sectors input m : (m < 4)%nat -> mu_in input 12 m =
  shifted (-120) (nth (3 * m) input []) ++ shifted 0 (nth (3 * m + 1) input []) ++ shifted 120 (nth (3 * m + 2) input []).
Proof.
  intros Hm. unfold mu_in. destruct m as [|[|[|[|]]]]; try lia; cbn -[mu_shifted shifted nth]; rewrite ?app_nil_r; reflexivity.
Qed.

Lemma merge_muon_in_kept nmu input out : dims2 12 nmu input -> dims2 4 nmu out ->
  exists fibers, merge_muon_in d nmu input out = Ok fibers /\ dims2 4 nmu fibers /\
    forall m, (m < 4)%nat -> kept d nmu (shifted (-120) (nth (3 * m) input []) ++ shifted 0 (nth (3 * m + 1) input []) ++ shifted 120 (nth (3 * m + 2) input [])) (nth m fibers []).
Proof.
  intros HI HO. eexists. split; [apply merge_muon_in_K; assumption|]. split.
  - split; [apply tab_length|]. intros a Ha. unfold tab in Ha. apply in_map_iff in Ha as (ir & <- & _). apply K_length.
  - intros m Hm. rewrite nth_tab, mu_in_sectors by assumption. apply kept_K.
Qed.

(** ** regionize_muon_ref *)
Lemma push_muons_K nmu keep shift src q : length src = nmu -> pos q ->
  push_muons nmu keep shift src (K d nmu q) = Ok (K d nmu (q ++ map (add_phi shift) (filter (fun x => keep (r_phi x)) (posf src)))).
Proof.
  intros L P. unfold push_muons.
  apply (foldM_states0 _ (fun k => K d nmu (q ++ map (add_phi shift) (filter (fun x => keep (r_phi x)) (posf (firstn k src)))))).
  - cbn. rewrite app_nil_r. reflexivity.
  - rewrite firstn_all2 by lia. reflexivity.
  - intros k Hk. destruct (nth_error_lt src k ltac:(lia)) as [x Ex]. unfold rd. rewrite Ex. cbn [bind]. rewrite (firstn_snoc _ _ _ Ex).
    unfold posf. rewrite !filter_app, map_app, app_assoc. cbn [filter].
    assert (Pq : pos (q ++ map (add_phi shift) (filter (fun x => keep (r_phi x)) (filter (fun x => 0 <? r_pt x) (firstn k src))))).
    { apply Forall_app. split; [assumption|]. apply pos_map_phi. apply Forall_forall. intros y Hy. apply filter_In in Hy as [Hy _]. apply filter_In in Hy. lia. }
    destruct (keep (r_phi x)) eqn:Ek.
    + rewrite push_in_K by assumption. f_equal. f_equal. f_equal. change (r_pt (add_phi shift x)) with (r_pt x). destruct (0 <? r_pt x); cbn [filter]; rewrite ?Ek; reflexivity.
    + destruct (0 <? r_pt x); cbn [filter]; rewrite ?Ek; cbn [map]; rewrite app_nil_r; reflexivity.
Qed.

(** the muons kept in a slice *)
Definition mt (nmu : nat) (objs : nat -> list (robj A)) (ie m : nat) : list (robj A) := firstn nmu (rsort false r_pt (slice_cands ie (objs m))).

Lemma mt_facts nmu objs ie m : (length (mt nmu objs ie m) <= nmu)%nat /\ pos (mt nmu objs ie m) /\ desc r_pt (mt nmu objs ie m).
Proof.
  unfold mt. split; [rewrite firstn_length; lia|]. split.
  - apply Forall_forall. intros x Hx. assert (Hp : pos (rsort false r_pt (slice_cands ie (objs m)))) by (apply pos_rsort; rewrite <- selm_cands; apply pos_selm).
    unfold pos in Hp. rewrite Forall_forall in Hp. apply Hp. rewrite <- (firstn_skipn nmu). apply in_or_app. left; assumption.
  - apply desc_firstn. apply rsort_desc.
Qed.

(** candidates for a region *)
Definition mcands (nmu : nat) (objs : nat -> list (robj A)) (ie ip : nat) : list (robj A) :=
  let a := mt nmu objs ie (2 * ip / 3) in let b := mt nmu objs ie ((2 * ip / 3 + 1) mod 4) in
  match (ip mod 3)%nat with
  | O => a
  | S O => map (add_phi (-240)) (filter (fun x => r_phi x >? 60) a) ++ map (add_phi 120) (filter (fun x => r_phi x <=? 60) b)
  | _ => map (add_phi (-120)) (filter (fun x => r_phi x >? -60) a) ++ map (add_phi 240) (filter (fun x => r_phi x <=? -60) b)
  end.

Lemma pos_filter (f : robj A -> bool) l : pos l -> pos (filter f l).
Proof. unfold pos. rewrite !Forall_forall. intros H x Hx. apply filter_In in Hx. apply H. tauto. Qed.

Lemma muon_region_K nmu objs ie ip : (ie < 3)%nat -> (ip < 6)%nat ->
  muon_region nmu (W d 4 nmu objs) ie ip (repeat clr nmu) = Ok (K d nmu (mcands nmu objs ie ip)).
Proof.
  intros He Hp. unfold muon_region, mcands. change N_MUON_SECTORS with 4%nat.
  assert (Ha : (2 * ip / 3 < 4)%nat) by lia. assert (Hb : ((2 * ip / 3 + 1) mod 4 < 4)%nat) by lia.
  set (ia := (2 * ip / 3)%nat) in *. set (ib := ((ia + 1) mod 4)%nat) in *.
  assert (EK : forall m, K d nmu (flat_map (selm ie) (objs m)) = slots d nmu (mt nmu objs ie m)).
  { intros m. rewrite selm_cands, K_eq. reflexivity. }
  assert (ER : forall m, (m < 4)%nat -> (do w <- rd (W d 4 nmu objs) m; rd w ie) = Ok (slots d nmu (mt nmu objs ie m))).
  { intros m Hm. unfold W. rewrite rd_tab by assumption. cbn [bind]. rewrite rd_tab by assumption. rewrite EK. reflexivity. }
  assert (EP : forall m, posf (slots d nmu (mt nmu objs ie m)) = mt nmu objs ie m).
  { intros m. apply filter_slots. apply mt_facts. }
  assert (LS : forall m, length (slots d nmu (mt nmu objs ie m)) = nmu) by (intros m; apply slots_length; apply mt_facts).
  assert (RA : forall (B : Type) (k : list (robj A) -> res B) m, (m < 4)%nat -> (do w <- rd (W d 4 nmu objs) m; do a <- rd w ie; k a) = k (slots d nmu (mt nmu objs ie m))).
  { intros B k m Hm. specialize (ER m Hm). destruct (rd (W d 4 nmu objs) m) as [w|]; cbn [bind] in *; [|discriminate]. rewrite ER. reflexivity. }
  destruct (ip mod 3)%nat as [|[|]].
  - rewrite RA by assumption. rewrite (K_slots d nmu) by apply mt_facts.
    apply (copy_loop d); [apply LS|apply repeat_length].
  - rewrite RA by assumption. rewrite <- K_nil. rewrite push_muons_K by (try constructor; apply LS). cbn [bind app].
    rewrite RA by assumption. rewrite EP.
    rewrite push_muons_K; [|apply LS|apply pos_map_phi; apply pos_filter; apply mt_facts]. rewrite EP. reflexivity.
  - rewrite RA by assumption. rewrite <- K_nil. rewrite push_muons_K by (try constructor; apply LS). cbn [bind app].
    rewrite RA by assumption. rewrite EP.
    rewrite push_muons_K; [|apply LS|apply pos_map_phi; apply pos_filter; apply mt_facts]. rewrite EP. reflexivity.
Qed.

Theorem regionize_muon_K nmu work fibers regions :
  dims3 4 3 nmu work -> dims2 18 nmu regions -> length fibers = 4%nat -> (forall fib, In fib fibers -> (nmu <= length fib)%nat) ->
  regionize_muon_ref d nmu work fibers regions
  = Ok (tab 18 (fun ir => K d nmu (mcands nmu (arrivals 1 nmu fibers) (ir / 6) (ir mod 6))), map (skipn nmu) fibers, W d 4 nmu (arrivals 1 nmu fibers)).
Proof.
  intros H1 [H2 H2'] H3 H4. unfold regionize_muon_ref. rewrite deserialize_muon_W by assumption. cbn [bind].
  change N_OUT_REGIONS_ETA with 3%nat. change N_OUT_REGIONS_PHI with 6%nat. set (objs := arrivals 1 nmu fibers).
  assert (EC : clear_all d regions = tab 18 (fun _ => repeat clr nmu)).
  { rewrite tab_repeat. unfold clear_all. rewrite <- H2. clear H2. induction regions as [|a out IH]; cbn [map length repeat]; [reflexivity|].
    f_equal; [|apply IH; intros; apply H2'; right; assumption]. rewrite <- (H2' a (or_introl eq_refl)). clear. induction a; cbn; [reflexivity|]. f_equal; assumption. }
  rewrite EC. set (st := fun k => tab 18 (fun ir => if (ir <? k)%nat then K d nmu (mcands nmu objs (ir / 6) (ir mod 6)) else repeat clr nmu)).
  assert (EL : foldM (fun regions ie => foldM (fun regions ip =>
        let ir := (6 * ie + ip)%nat in do r <- rd regions ir; do r <- muon_region nmu (W d 4 nmu objs) ie ip r; wr regions ir r) (seq 0 6) regions) (seq 0 3) (tab 18 (fun _ => repeat clr nmu)) = Ok (st 18%nat)).
  { apply (foldM_states0 _ (fun ie => st (6 * ie)%nat)); [reflexivity|reflexivity|]. intros ie Hie.
    apply (foldM_states0 _ (fun ip => st (6 * ie + ip)%nat)); [f_equal; lia|f_equal; lia|]. intros ip Hip. cbv zeta.
    assert (Hir : (6 * ie + ip < 18)%nat) by lia. unfold st at 1. rewrite rd_tab by assumption. cbn [bind]. rewrite Nat.ltb_irrefl.
    rewrite muon_region_K by assumption. cbn [bind]. unfold st. rewrite wr_tab by assumption. f_equal. apply tab_ext. intros ir _.
    destruct (Nat.eqb_spec ir (6 * ie + ip)) as [->|N].
    - destruct (Nat.ltb_spec (6 * ie + ip) (6 * ie + (ip + 1))); [|lia].
      replace ((6 * ie + ip) / 6)%nat with ie by lia. replace ((6 * ie + ip) mod 6)%nat with ip by lia. reflexivity.
    - natcases. }
  match goal with |- (do _ <- ?u; _) = _ => replace u with (Ok (st 18%nat)) by (symmetry; exact EL) end. cbn [bind].
  reflexivity.
Qed.

Lemma regionize_muon_spec nmu work fibers regions :
  dims3 4 3 nmu work -> dims2 18 nmu regions -> length fibers = 4%nat -> (forall fib, In fib fibers -> (nmu <= length fib)%nat) ->
  exists out static, regionize_muon_ref d nmu work fibers regions = Ok (out, map (skipn nmu) fibers, static) /\ dims2 18 nmu out /\
    forall ie ip, (ie < 3)%nat -> (ip < 6)%nat -> sorted_slots d nmu (nth (6 * ie + ip) out []) /\
      nth (6 * ie + ip) out [] = K d nmu (mcands nmu (arrivals 1 nmu fibers) ie ip).
Proof.
  intros H1 H2 H3 H4. eexists _, _. split; [apply regionize_muon_K; assumption|]. split.
  - split; [apply tab_length|]. intros a Ha. unfold tab in Ha. apply in_map_iff in Ha as (ir & <- & _). apply K_length.
  - intros ie ip He Hp. rewrite nth_tab by lia. replace ((6 * ie + ip) / 6)%nat with ie by lia. replace ((6 * ie + ip) mod 6)%nat with ip by lia.
    split; [|reflexivity]. eapply kept_sorted_slots; [|apply kept_K].
    assert (P : pos (mcands nmu (arrivals 1 nmu fibers) ie ip)).
    { unfold mcands. destruct (ip mod 3)%nat as [|[|]]; [apply mt_facts| |]; apply Forall_app; split; apply pos_map_phi, pos_filter; apply mt_facts. }
    unfold pos in P. rewrite Forall_forall in P. exact P.
Qed.

(** a muon in the nominal range of its sector *)
Definition nominal x : Prop := -180 < r_phi x <= 180.

Lemma wrapS10_small v : -512 <= v <= 511 -> wrapS 10 v = v.
Proof. intros H. unfold wrapS. change (2 ^ (10 - 1)) with 512. change (2 ^ 10) with 1024. lia. Qed.

Lemma mt_in nmu objs ie m x : In x (mt nmu objs ie m) -> exists y, In y (objs m) /\ in_slice ie y = true /\ 0 < r_pt y /\ x = local_eta ie y.
Proof.
  intros H. assert (Hc : In x (slice_cands ie (objs m))). { eapply top_n_in; [apply top_n_rsort|exact H]. }
  unfold slice_cands in Hc. apply in_map_iff in Hc as (y & <- & Hy). apply filter_In in Hy as [Hy1 Hy2]. apply andb_true_iff in Hy2 as [Hy2 Hy3].
  exists y. repeat split; try assumption. lia.
Qed.

(** origin of a region muon *)
Lemma mcands_origin nmu objs ie ip o : (ie < 3)%nat -> (ip < 6)%nat -> (forall m x, (m < 4)%nat -> In x (objs m) -> 0 < r_pt x -> -180 < r_phi x <= 180) ->
  In o (mcands nmu objs ie ip) ->
  exists m x, (m < 4)%nat /\ In x (objs m) /\ in_slice ie x = true /\ r_pt o = r_pt x /\ r_rest o = r_rest x /\ region_eta ie (r_eta o) = r_eta x /\
    r_phi o = muon_local ip m (r_phi x) /\ region_phi ip (r_phi o) = muon_phi m (r_phi x) /\ -180 < r_phi o <= 180.
Proof.
  intros He Hp Hn Ho. unfold mcands in Ho.
  assert (G : forall m x s (keep : Z -> bool), (m < 4)%nat -> In x (filter (fun x => keep (r_phi x)) (mt nmu objs ie m)) ->
    (forall phi, -180 < phi <= 180 -> keep phi = true -> wrapS 10 (phi + s) = muon_local ip m phi /\ region_phi ip (wrapS 10 (phi + s)) = muon_phi m phi /\ -180 < wrapS 10 (phi + s) <= 180) ->
    o = add_phi s x -> exists m x, (m < 4)%nat /\ In x (objs m) /\ in_slice ie x = true /\ r_pt o = r_pt x /\ r_rest o = r_rest x /\ region_eta ie (r_eta o) = r_eta x /\
    r_phi o = muon_local ip m (r_phi x) /\ region_phi ip (r_phi o) = muon_phi m (r_phi x) /\ -180 < r_phi o <= 180).
  { intros m x s keep Hm Hx HG ->. apply filter_In in Hx as [Hx Hk]. apply mt_in in Hx as (y & Hy & Hs & Py & ->). exists m, y.
    specialize (HG (r_phi y) (Hn m y Hm Hy Py) Hk). cbn [add_phi local_eta r_pt r_rest r_eta r_phi]. repeat split; try assumption; try tauto. unfold region_eta. lia. }
  assert (Ha : (2 * ip / 3 < 4)%nat) by lia. assert (Hb : ((2 * ip / 3 + 1) mod 4 < 4)%nat) by lia.
  destruct ip as [|[|[|[|[|[|]]]]]]; try lia.
  1, 4: change (In o (mt nmu objs ie 0)) in Ho || change (In o (mt nmu objs ie 2)) in Ho.
  1, 2: match type of Ho with In _ (mt _ _ _ ?m) => apply mt_in in Ho as (y & Hy & Hs & Py & ->); exists m, y end.
  1, 2: match type of Hy with In _ (?f ?m) => pose proof (Hn m y ltac:(lia) Hy Py) as HN end; cbn [local_eta r_pt r_rest r_eta r_phi]; repeat split; try assumption; try (unfold region_eta; lia);
     unfold muon_local, region_phi, muon_phi, sector_phi; try lia; match goal with |- context [?a <=? 720] => destruct (Z.leb_spec a 720) end; lia.
  all: cbn [Nat.modulo Nat.divmod fst snd Nat.sub] in Ho; apply in_app_or in Ho as [Ho|Ho]; apply in_map_iff in Ho as (x & Eo & Hx); symmetry in Eo.
  all: match type of Hx with In _ (filter (fun x => ?k) (mt _ _ _ ?m)) => let m' := eval vm_compute in m in change m with m' in Hx end.
  1: apply (G 0%nat x (-240) (fun v => v >? 60)); try assumption; try lia.
  2: apply (G 1%nat x 120 (fun v => v <=? 60)); try assumption; try lia.
  3: apply (G 1%nat x (-120) (fun v => v >? -60)); try assumption; try lia.
  4: apply (G 2%nat x 240 (fun v => v <=? -60)); try assumption; try lia.
  5: apply (G 2%nat x (-240) (fun v => v >? 60)); try assumption; try lia.
  6: apply (G 3%nat x 120 (fun v => v <=? 60)); try assumption; try lia.
  7: apply (G 3%nat x (-120) (fun v => v >? -60)); try assumption; try lia.
  8: apply (G 0%nat x 240 (fun v => v <=? -60)); try assumption; try lia.
  all: intros phi Hphi Hk; rewrite wrapS10_small by lia; unfold muon_local, region_phi, muon_phi, sector_phi; repeat split; try lia;
       match goal with |- context [?a <=? 720] => destruct (Z.leb_spec a 720) end; lia.
Qed.

(** completeness *)
Lemma mt_complete nmu objs ie m x : (length (objs m) <= nmu)%nat -> In x (objs m) -> 0 < r_pt x -> in_slice ie x = true -> In (local_eta ie x) (mt nmu objs ie m).
Proof.
  intros L Hx P S. unfold mt. rewrite firstn_all2.
  - eapply Permutation_in; [symmetry; apply rsort_perm|]. unfold slice_cands. apply in_map. apply filter_In. split; [assumption|]. rewrite S, andb_true_r. lia.
  - rewrite (Permutation_length (rsort_perm false r_pt (slice_cands ie (objs m)))). unfold slice_cands. rewrite map_length.
    eapply Nat.le_trans; [|exact L]. clear. induction (objs m) as [|y l IH]; cbn; [lia|]. destruct (_ && _); cbn; lia.
Qed.

Lemma mcands_complete nmu objs ie ip m x : (ie < 3)%nat -> (ip < 6)%nat -> (m < 4)%nat -> (length (objs m) <= nmu)%nat -> In x (objs m) -> 0 < r_pt x -> in_slice ie x = true ->
  -180 < r_phi x <= 180 -> -180 < muon_local ip m (r_phi x) <= 180 ->
  In (mkR (r_pt x) (r_eta x - slice_centre ie) (muon_local ip m (r_phi x)) (r_rest x)) (mcands nmu objs ie ip).
Proof.
  intros He Hp Hm L Hx P S Hn Hw. pose proof (mt_complete nmu objs ie m x L Hx P S) as HM.
  assert (G : forall s (keep : Z -> bool) l, l = mt nmu objs ie m -> keep (r_phi x) = true -> wrapS 10 (r_phi x + s) = muon_local ip m (r_phi x) ->
    In (mkR (r_pt x) (r_eta x - slice_centre ie) (muon_local ip m (r_phi x)) (r_rest x)) (map (add_phi s) (filter (fun x => keep (r_phi x)) l))).
  { intros s keep l -> Hk E. rewrite <- E. apply (in_map (add_phi s) _ (local_eta ie x)). apply filter_In. split; [assumption|]. exact Hk. }
  assert (G0 : forall l, l = mt nmu objs ie m -> r_phi x = muon_local ip m (r_phi x) -> In (mkR (r_pt x) (r_eta x - slice_centre ie) (muon_local ip m (r_phi x)) (r_rest x)) l).
  { intros l -> E. rewrite <- E. exact HM. }
  clear HM. unfold mcands.
  destruct ip as [|[|[|[|[|[|]]]]]]; try lia; destruct m as [|[|[|[|]]]]; try lia; cbn [Nat.modulo Nat.divmod fst snd Nat.sub];
    unfold muon_local in *;
    match type of Hw with context [?a <=? 720] => destruct (Z.leb_spec a 720) end; try (exfalso; lia).
  all: first [ apply G0; [reflexivity|lia]
             | apply in_or_app; left; (apply (G (-240) (fun v => v >? 60)) || apply (G (-120) (fun v => v >? -60))); [reflexivity|lia|rewrite wrapS10_small by lia; lia]
             | apply in_or_app; right; (apply (G 120 (fun v => v <=? 60)) || apply (G 240 (fun v => v <=? -60))); [reflexivity|lia|rewrite wrapS10_small by lia; lia] ].
Qed.

Lemma muon_fibre_length cnt (fibers : list (list (robj A))) s : (length (arrivals 1 cnt fibers s) <= cnt)%nat.
Proof. rewrite arrivals_one, firstn_length. lia. Qed.
End muon.
