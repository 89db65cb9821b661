(** The loops of the regionizer: deserialisation into slices and merging. *)
From Coq Require Import Permutation Sorted.
From Verif Require Import Base BaseFacts PFHw SortFacts SpecSort RankFacts TabFacts Regionizer SpecRegion RegionFacts RegionMerge.

Section loops.
Context {A : Type} (d : A).
Implicit Types (x y o : robj A) (l p q a b c m out : list (robj A)).
Notation clr := (rclear d).

(** what an arriving object contributes to a slice *)
Definition selm (ie : nat) x : list (robj A) := if (0 <? r_pt x) && in_slice ie x then [local_eta ie x] else [].

Lemma selm_cands ie l : flat_map (selm ie) l = slice_cands ie l.
Proof.
  unfold slice_cands. induction l as [|x l IH]; cbn [flat_map filter]; [reflexivity|]. unfold selm at 1.
  destruct ((0 <? r_pt x) && in_slice ie x); cbn [app map]; rewrite IH; reflexivity.
Qed.

Lemma pos_selm ie l : pos (flat_map (selm ie) l).
Proof.
  rewrite selm_cands. apply Forall_forall. intros x Hx. apply in_map_iff in Hx as (y & <- & Hy). apply filter_In in Hy as [_ Hy].
  cbn. destruct (Z.ltb_spec 0 (r_pt y)); [assumption|discriminate].
Qed.

Lemma push_sector_K n l x ie emin emax esh : pos l -> (ie < 3)%nat ->
  rd ETA_MIN ie = Ok emin -> rd ETA_MAX ie = Ok emax -> rd ETA_SHIFT ie = Ok esh ->
  push_in_sector_ref n x (K d n l) emin emax esh = Ok (K d n (l ++ selm ie x)).
Proof.
  intros P Hie E1 E2 E3. unfold push_in_sector_ref.
  assert (C : emin = slice_lo ie /\ emax = slice_hi ie /\ esh = - slice_centre ie).
  { unfold rd in E1, E2, E3. destruct ie as [|[|[|]]]; cbn [nth_error ETA_MIN ETA_MAX ETA_SHIFT] in E1, E2, E3; try lia; inversion E1; inversion E2; inversion E3; repeat split. }
  destruct C as (-> & -> & ->). clear E1 E2 E3. unfold selm, in_slice.
  destruct ((slice_lo ie <=? r_eta x) && (r_eta x <=? slice_hi ie)) eqn:E.
  - rewrite push_K by (assumption || reflexivity). rewrite andb_true_r. f_equal. f_equal. f_equal.
    assert (EL : add_eta (- slice_centre ie) x = local_eta ie x).
    { unfold add_eta, local_eta. f_equal. replace (r_eta x + - slice_centre ie) with (r_eta x - slice_centre ie) by lia.
      unfold wrapS. change (2 ^ (10 - 1)) with 512. change (2 ^ 10) with 1024.
      destruct ie as [|[|[|]]]; cbn [slice_lo slice_hi slice_centre] in *; lia. }
    rewrite EL. reflexivity.
  - rewrite andb_false_r, app_nil_r. reflexivity.
Qed.

(** work area with the slices of the objects [objs s] *)
Definition W (NS n : nat) (objs : nat -> list (robj A)) : list (list (list (robj A))) :=
  tab NS (fun s => tab 3 (fun ie => K d n (flat_map (selm ie) (objs s)))).

Lemma W_ext NS n f g : (forall s, (s < NS)%nat -> f s = g s) -> W NS n f = W NS n g.
Proof. intros H. apply tab_ext. intros s Hs. apply tab_ext. intros ie _. rewrite H by assumption. reflexivity. Qed.

Lemma push_etas_W NS n s x objs : (s < NS)%nat ->
  push_etas (push_in_sector_ref n) x s (W NS n objs) = Ok (W NS n (fun s' => if (s' =? s)%nat then objs s' ++ [x] else objs s')).
Proof.
  intros Hs. unfold push_etas.
  apply (foldM_states0 _ (fun e => tab NS (fun s' => tab 3 (fun ie => K d n (flat_map (selm ie) (objs s') ++ if (s' =? s)%nat && (ie <? e)%nat then selm ie x else []))))).
  - apply tab_ext. intros s' _. apply tab_ext. intros ie _. rewrite andb_false_r, app_nil_r. reflexivity.
  - apply tab_ext. intros s' _. apply tab_ext. intros ie Hie. destruct (Nat.eqb_spec s' s); cbn [andb].
    + change N_OUT_REGIONS_ETA with 3%nat. destruct (Nat.ltb_spec ie 3); [|lia]. rewrite flat_map_app. cbn [flat_map]. rewrite app_nil_r. reflexivity.
    + rewrite app_nil_r. reflexivity.
  - intros e He. change N_OUT_REGIONS_ETA with 3%nat in He. rewrite rd_tab by assumption. cbn [bind]. rewrite rd_tab by assumption. cbn [bind].
    rewrite (rd_Ok ETA_MIN e 0), (rd_Ok ETA_MAX e 0), (rd_Ok ETA_SHIFT e 0) by (cbn; lia). cbn [bind].
    rewrite Nat.eqb_refl. cbn [andb]. rewrite Nat.ltb_irrefl, app_nil_r.
    rewrite (push_sector_K n _ x e); [|apply pos_selm|assumption|apply rd_Ok; cbn; lia|apply rd_Ok; cbn; lia|apply rd_Ok; cbn; lia].
    cbn [bind]. rewrite wr_tab by assumption. cbn [bind]. rewrite wr_tab by assumption. f_equal. apply tab_ext. intros s' _.
    destruct (Nat.eqb_spec s' s) as [->|N]; cbn [andb]; [|reflexivity]. apply tab_ext. intros ie _.
    destruct (Nat.eqb_spec ie e) as [->|N]; natcases.
Qed.

(** the generic reading loop *)
Definition deser (NS nf cnt n : nat) (fibers : list (list (robj A))) (work : list (list (list (robj A)))) :=
  foldM (fun st _ =>
    foldM (fun st is =>
      foldM (fun '(fibers, work) f =>
        do (x, fibers) <- sread fibers (nf * is + f);
        do work <- push_etas (push_in_sector_ref n) x is work;
        Ok (fibers, work)) (seq 0 nf) st) (seq 0 NS) st) (seq 0 cnt) (fibers, work).

Definition entry (fibers : list (list (robj A))) (nf io s f : nat) : list (robj A) :=
  match nth_error (nth (nf * s + f) fibers []) io with Some x => [x] | None => [] end.

Lemma arrivals_S nf io fibers s : arrivals nf (io + 1) fibers s = arrivals nf io fibers s ++ flat_map (entry fibers nf io s) (seq 0 nf).
Proof. unfold arrivals. rewrite seq_app, flat_map_app. f_equal. cbn [seq flat_map Nat.add]. rewrite app_nil_r. reflexivity. Qed.

Lemma skipn_nth_error {B} (l : list B) i : (i < length l)%nat -> exists x : B, nth_error l i = Some x /\ skipn i l = x :: skipn (i + 1) l.
Proof.
  revert i; induction l as [|y l IH]; intros [|i] H; cbn in H; try lia.
  - exists y. split; reflexivity.
  - destruct (IH i ltac:(lia)) as (x & E1 & E2). exists x. split; [exact E1|exact E2].
Qed.

Lemma deser_spec NS nf cnt n fibers :
  length fibers = (nf * NS)%nat -> (forall fib, In fib fibers -> (cnt <= length fib)%nat) ->
  deser NS nf cnt n fibers (W NS n (fun _ => [])) = Ok (map (skipn cnt) fibers, W NS n (arrivals nf cnt fibers)).
Proof.
  intros HF HL. set (NF := (nf * NS)%nat) in *. set (fb := fun j => nth j fibers []).
  assert (HL' : forall j, (j < NF)%nat -> (cnt <= length (fb j))%nat).
  { intros j Hj. apply HL. apply nth_In. lia. }
  unfold deser.
  apply (foldM_states0 _ (fun io => (tab NF (fun j => skipn io (fb j)), W NS n (arrivals nf io fibers)))).
  - f_equal. rewrite (list_tab fibers []) at 1. rewrite HF. reflexivity.
  - f_equal. rewrite (list_tab fibers []) at 1. rewrite HF, map_tab. reflexivity.
  - intros io Hio.
    apply (foldM_states0 _ (fun k => (tab NF (fun j => skipn (if (j <? nf * k)%nat then io + 1 else io) (fb j)),
                                      W NS n (fun s => arrivals nf (if (s <? k)%nat then io + 1 else io) fibers s)))).
    + apply (f_equal2 pair); [apply tab_ext; intros j _; rewrite Nat.mul_0_r|apply W_ext; intros s _]; reflexivity.
    + apply (f_equal2 pair); [apply tab_ext; intros j Hj; destruct (Nat.ltb_spec j (nf * NS)); [reflexivity|unfold NF in Hj; lia]|apply W_ext; intros s Hs; natcases].
    + intros k Hk.
      apply (foldM_states0 _ (fun f => (tab NF (fun j => skipn (if (j <? nf * k + f)%nat then io + 1 else io) (fb j)),
                                        W NS n (fun s => if (s =? k)%nat then arrivals nf io fibers s ++ flat_map (entry fibers nf io s) (seq 0 f)
                                                         else arrivals nf (if (s <? k)%nat then io + 1 else io) fibers s)))).
      * apply (f_equal2 pair); [apply tab_ext; intros j _; rewrite Nat.add_0_r; reflexivity|].
        apply W_ext; intros s _. cbn [seq flat_map]. rewrite app_nil_r. destruct (Nat.eqb_spec s k); natcases.
      * apply (f_equal2 pair); [apply tab_ext; intros j _; replace (nf * (k + 1))%nat with (nf * k + nf)%nat by lia; reflexivity|].
        apply W_ext; intros s _. destruct (Nat.eqb_spec s k) as [->|N].
        -- destruct (Nat.ltb_spec k (k + 1)); [|lia]. apply arrivals_S.
        -- natcases.
      * intros f Hf. assert (Hj : (nf * k + f < NF)%nat) by (unfold NF; nia).
        unfold sread. rewrite rd_tab by assumption. cbn [bind]. rewrite Nat.ltb_irrefl.
        specialize (HL' _ Hj). destruct (skipn_nth_error (fb (nf * k + f)%nat) io ltac:(lia)) as (x & Ex & ->).
        rewrite wr_tab by assumption. cbn [bind]. rewrite push_etas_W by assumption. cbn [bind]. f_equal. f_equal.
        -- apply tab_ext. intros j _. destruct (Nat.eqb_spec j (nf * k + f)) as [->|N]; natcases.
        -- apply W_ext. intros s _. destruct (Nat.eqb_spec s k) as [->|N]; [|reflexivity].
           rewrite seq_app, flat_map_app, <- app_assoc. f_equal. f_equal. cbn [seq flat_map Nat.add]. rewrite app_nil_r. unfold entry.
           fold (fb (nf * k + f)%nat). rewrite Ex. reflexivity.
Qed.

Lemma foldM_ext {S T} (f g : S -> T -> res S) (l : list T) (s : S) : (forall s (x : T), In x l -> f s x = g s x) -> foldM f l s = foldM g l s.
Proof.
  revert s; induction l as [|x l IH]; intros s H; cbn [foldM]; [reflexivity|]. rewrite H by (left; reflexivity).
  destruct (g s x); cbn [bind]; [|reflexivity]. apply IH. intros; apply H; right; assumption.
Qed.

Lemma deser1 NS cnt n fibers work :
  foldM (fun st (_ : nat) => foldM (fun '(fibers, work) is =>
      do (x, fibers) <- sread fibers is;
      do work <- push_etas (push_in_sector_ref n) x is work;
      Ok (fibers, work)) (seq 0 NS) st) (seq 0 cnt) (fibers, work) = deser NS 1 cnt n fibers work.
Proof.
  unfold deser. apply foldM_ext. intros st io _. apply foldM_ext. intros [fs w] is _. cbn [seq foldM].
  replace (1 * is + 0)%nat with is by lia. destruct (sread fs is) as [[x fs']|]; cbn [bind]; [|reflexivity].
  destruct (push_etas _ x is w); reflexivity.
Qed.

Lemma clear_work_W NS n work : dims3 NS 3 n work -> clear_work d work = W NS n (fun _ => []).
Proof.
  intros [H1 H2]. unfold clear_work, W. rewrite tab_repeat. rewrite <- H1. clear H1. induction work as [|r work IH]; cbn [map length repeat]; [reflexivity|].
  f_equal; [|apply IH; intros; apply H2; right; assumption]. destruct (H2 r (or_introl eq_refl)) as [H3 H4]. unfold clear_all.
  cbn [flat_map]. rewrite tab_repeat. rewrite <- H3. clear -H4. induction r as [|a r IH]; cbn [map length repeat]; [reflexivity|].
  f_equal; [|apply IH; intros; apply H4; right; assumption]. rewrite K_nil. rewrite <- (H4 a (or_introl eq_refl)).
  clear. induction a; cbn; [reflexivity|]. f_equal; assumption.
Qed.

Lemma deserialize_hw_W nobj n fibers work : dims3 12 3 n work -> length fibers = 12%nat ->
  (forall fib, In fib fibers -> (nobj <= length fib)%nat) ->
  deserialize_ptsort_eta d nobj n fibers work = Ok (map (skipn nobj) fibers, W 12 n (arrivals 1 nobj fibers)).
Proof.
  intros HW HF HL. unfold deserialize_ptsort_eta. rewrite (clear_work_W 12 n) by assumption.
  change (push_in_sector_eta (A := A) n) with (push_in_sector_ref (A := A) n). rewrite deser1. apply deser_spec; [rewrite HF; reflexivity|assumption].
Qed.

Lemma deserialize_ref_W nobj n nf fibers work : dims3 12 3 n work -> length fibers = (nf * 12)%nat ->
  (forall fib, In fib fibers -> (nobj / nf <= length fib)%nat) ->
  deserialize_ref d nobj n nf fibers work = Ok (map (skipn (nobj / nf)) fibers, W 12 n (arrivals nf (nobj / nf) fibers)).
Proof.
  intros HW HF HL. unfold deserialize_ref. rewrite (clear_work_W 12 n) by assumption. apply deser_spec; assumption.
Qed.

Lemma deserialize_muon_W nmu fibers work : dims3 4 3 nmu work -> length fibers = 4%nat ->
  (forall fib, In fib fibers -> (nmu <= length fib)%nat) ->
  deserialize_muon d nmu fibers work = Ok (map (skipn nmu) fibers, W 4 nmu (arrivals 1 nmu fibers)).
Proof.
  intros HW HF HL. unfold deserialize_muon. rewrite (clear_work_W 4 nmu) by assumption. rewrite deser1. apply deser_spec; [rewrite HF; reflexivity|assumption].
Qed.

Lemma W_dims NS n objs : dims3 NS 3 n (W NS n objs).
Proof.
  split; [apply tab_length|]. intros r Hr. unfold W, tab in Hr. apply in_map_iff in Hr as (s & <- & _). split; [apply map_length|].
  intros a Ha. apply in_map_iff in Ha as (ie & <- & _). apply K_length.
Qed.

Lemma W_kept NS n objs s ie : (s < NS)%nat -> (ie < 3)%nat -> kept d n (slice_cands ie (objs s)) (nth ie (nth s (W NS n objs) []) []).
Proof. intros Hs Hie. unfold W. rewrite nth_tab by assumption. rewrite nth_tab by assumption. rewrite selm_cands. apply kept_K. Qed.

(** ** merging into regions *)
Definition R (nsec nreg : nat) (objs : nat -> list (robj A)) (ie ip : nat) : list (robj A) :=
  let t j := firstn nsec (rsort false r_pt (slice_cands ie (objs (region_sector ip j)))) in
  K d nreg (map (local_phi 0) (t 0%nat) ++ map (local_phi 1) (t 1%nat) ++ map (local_phi 2) (t 2%nat)).

Lemma R_spec nsec nreg objs ie ip : region_spec d nsec nreg objs ie ip (R nsec nreg objs ie ip).
Proof.
  unfold R. eexists _, _, _. split; [apply top_n_rsort|]. split; [apply top_n_rsort|]. split; [apply top_n_rsort|]. apply kept_K.
Qed.

Definition merges nsec nreg (merge : list (robj A) -> Z -> list (robj A) -> Z -> list (robj A) -> Z -> nat -> list (robj A) -> res (list (robj A))) : Prop :=
  forall p1 p2 p3 s1 s2 s3 ir r, length r = nreg ->
    (length p1 <= nsec)%nat -> (length p2 <= nsec)%nat -> (length p3 <= nsec)%nat -> pos p1 -> pos p2 -> pos p3 -> desc r_pt p1 -> desc r_pt p2 -> desc r_pt p3 ->
    merge (slots d nsec p1) s1 (slots d nsec p2) s2 (slots d nsec p3) s3 ir r = Ok (K d nreg (map (add_phi s1) p1 ++ map (add_phi s2) p2 ++ map (add_phi s3) p3)).

Lemma merge_loop_spec merge nsec nreg objs regions : merges nsec nreg merge -> dims2 18 nreg regions ->
  merge_loop merge (W 12 nsec objs) regions = Ok (tab 18 (fun ir => R nsec nreg objs (ir / 6) (ir mod 6))).
Proof.
  intros HM [HR1 HR2]. unfold merge_loop. change N_OUT_REGIONS_ETA with 3%nat. change N_OUT_REGIONS_PHI with 6%nat.
  set (st := fun k => tab 18 (fun ir => if (ir <? k)%nat then R nsec nreg objs (ir / 6) (ir mod 6) else nth ir regions [])).
  apply (foldM_states0 _ (fun ie => st (6 * ie)%nat)).
  - unfold st. rewrite (list_tab regions []) at 1. rewrite HR1. reflexivity.
  - apply tab_ext. intros ir Hir. destruct (Nat.ltb_spec ir (6 * 3)); [reflexivity|lia].
  - intros ie Hie. apply (foldM_states0 _ (fun ip => st (6 * ie + ip)%nat)).
    + f_equal. lia.
    + f_equal. lia.
    + intros ip Hip.
      assert (ES : exists s0 s1 s2, rd IN_SECTOR_OF_REGION ip = Ok [s0; s1; s2] /\ s0 = region_sector ip 0 /\ s1 = region_sector ip 1 /\ s2 = region_sector ip 2 /\
                   (s0 < 12 /\ s1 < 12 /\ s2 < 12)%nat).
      { destruct ip as [|[|[|[|[|[|]]]]]]; try lia; (eexists _, _, _; split; [reflexivity|]); vm_compute; repeat split; lia. }
      destruct ES as (s0 & s1 & s2 & -> & E0 & E1 & E2 & B0 & B1 & B2). cbn [bind].
      unfold rd at 1 2 3. cbn [nth_error bind].
      unfold W. rewrite !(rd_tab 12) by assumption. cbn [bind]. rewrite !(rd_tab 3) by assumption. cbn [bind].
      unfold PHI_SHIFT. unfold rd at 1 2 3. cbn [nth_error bind].
      assert (Hir : (6 * ie + ip < 18)%nat) by lia. unfold st at 1. rewrite rd_tab by assumption. cbn [bind]. rewrite Nat.ltb_irrefl.
      rewrite !selm_cands, !(K_eq d nsec).
      set (t := fun s => firstn nsec (rsort false r_pt (slice_cands ie (objs s)))). fold (t s0) (t s1) (t s2).
      assert (Ht : forall s, (length (t s) <= nsec)%nat /\ pos (t s) /\ desc r_pt (t s)).
      { intros s. unfold t. split; [rewrite firstn_length; lia|]. split.
        - apply Forall_forall. intros x Hx. assert (Hp : pos (rsort false r_pt (slice_cands ie (objs s)))) by (apply pos_rsort; rewrite <- selm_cands; apply pos_selm).
          unfold pos in Hp. rewrite Forall_forall in Hp. apply Hp. rewrite <- (firstn_skipn nsec). apply in_or_app. left; assumption.
        - apply desc_firstn. apply rsort_desc. }
      change (t s0 ++ repeat clr (nsec - length (t s0))) with (slots d nsec (t s0)).
      change (t s1 ++ repeat clr (nsec - length (t s1))) with (slots d nsec (t s1)).
      change (t s2 ++ repeat clr (nsec - length (t s2))) with (slots d nsec (t s2)).
      rewrite HM; try apply Ht; [|apply HR2; apply nth_In; lia].
      cbn [bind]. unfold st. rewrite wr_tab by assumption. f_equal. apply tab_ext. intros ir _.
      destruct (Nat.eqb_spec ir (6 * ie + ip)) as [->|N].
      * destruct (Nat.ltb_spec (6 * ie + ip) (6 * ie + (ip + 1))); [|lia].
        replace ((6 * ie + ip) / 6)%nat with ie by lia. replace ((6 * ie + ip) mod 6)%nat with ip by lia.
        unfold R. rewrite <- E0, <- E1, <- E2. reflexivity.
      * natcases.
Qed.

Lemma merges_smart nsec nreg junk : (nsec <= nreg)%nat ->
  merges nsec nreg (fun l0 (p0 : Z) l1 (p1 : Z) l2 (p2 : Z) ir r => merge_smart d nsec nreg l0 p0 l1 p1 l2 p2 (junk ir) r).
Proof. intros H p1 p2 p3 s1 s2 s3 ir r **. apply merge_smart_K; assumption. Qed.
Lemma merges_ref nsec nreg : merges nsec nreg (fun l0 (p0 : Z) l1 (p1 : Z) l2 (p2 : Z) _ r => merge_sectors_ref d nsec nreg l0 p0 l1 p1 l2 p2 r).
Proof. intros p1 p2 p3 s1 s2 s3 ir r **. apply merge_ref_K; assumption. Qed.

Theorem regionize_hw_R nobj nsec nreg junk work fibers regions :
  (nsec <= nreg)%nat -> dims3 12 3 nsec work -> dims2 18 nreg regions -> length fibers = 12%nat -> (forall fib, In fib fibers -> (nobj <= length fib)%nat) ->
  regionize_hw d nobj nsec nreg junk work fibers regions
  = Ok (tab 18 (fun ir => R nsec nreg (arrivals 1 nobj fibers) (ir / 6) (ir mod 6)), map (skipn nobj) fibers).
Proof.
  intros H1 H2 H3 H4 H5. unfold regionize_hw. rewrite deserialize_hw_W by assumption. cbn [bind].
  rewrite (merge_loop_spec _ nsec nreg) by (try assumption; apply merges_smart; assumption). reflexivity.
Qed.

Theorem regionize_ref_R nobj nsec nreg nf work fibers regions :
  dims3 12 3 nsec work -> dims2 18 nreg regions -> length fibers = (nf * 12)%nat -> (forall fib, In fib fibers -> (nobj / nf <= length fib)%nat) ->
  regionize_ref d nobj nsec nreg nf work fibers regions
  = Ok (tab 18 (fun ir => R nsec nreg (arrivals nf (nobj / nf) fibers) (ir / 6) (ir mod 6)), map (skipn (nobj / nf)) fibers, W 12 nsec (arrivals nf (nobj / nf) fibers)).
Proof.
  intros H1 H2 H3 H4. unfold regionize_ref. rewrite deserialize_ref_W by assumption. cbn [bind].
  rewrite (merge_loop_spec _ nsec nreg); [reflexivity|apply merges_ref|].
  destruct H2 as [H2 H2']. split; [unfold clear_all; rewrite map_length; assumption|]. intros a Ha. unfold clear_all in Ha. apply in_map_iff in Ha as (b & <- & Hb).
  rewrite map_length. apply H2'. assumption.
Qed.
End loops.
