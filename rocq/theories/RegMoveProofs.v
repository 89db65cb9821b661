(** Proofs of how the regions respond to a rotated or mirrored detector and to
    a different order of arrival. *)
From Coq Require Import Permutation Sorted.
From Verif Require Import Base BaseFacts PFHw SortFacts SpecSort RankFacts TabFacts Regionizer SpecRegion RegionFacts RegionLoops RegionMuon RegionProofs SpecRegMove.

Section move.
Context {A : Type} (d : A).
Implicit Types (x y o : robj A) (l p q a objs : list (robj A)) (fibers out : list (list (robj A))).

Lemma gives_R nobj nsec nreg nf fibers : fibres_ok nobj nf fibers ->
  gives d nobj nsec nreg nf fibers (tab 18 (fun ir => R d nsec nreg (arrivals nf (nobj / nf) fibers) (ir / 6) (ir mod 6))).
Proof.
  intros [L E]. split.
  - intros work regions W0 R0. eexists _, _. apply regionize_ref_R; assumption.
  - intros -> Le junk work regions W0 R0. rewrite Nat.div_1_r in *. eexists. apply regionize_hw_R; assumption.
Qed.
Lemma gives_unique nobj nsec nreg nf fibers out out' : gives d nobj nsec nreg nf fibers out -> gives d nobj nsec nreg nf fibers out' -> out = out'.
Proof.
  intros [G _] [G' _].
  assert (W0 : dims3 12 3 nsec (repeat (repeat (repeat (rclear d) nsec) 3) 12)).
  { split; [apply repeat_length|]. intros a Ha. apply repeat_spec in Ha. subst. split; [apply repeat_length|]. intros b Hb. apply repeat_spec in Hb. subst. apply repeat_length. }
  assert (R0 : dims2 18 nreg (repeat (repeat (rclear d) nreg) 18)).
  { split; [apply repeat_length|]. intros b Hb. apply repeat_spec in Hb. subst. apply repeat_length. }
  destruct (G _ _ W0 R0) as (r & s & E). destruct (G' _ _ W0 R0) as (r' & s' & E'). rewrite E in E'. injection E' as -> _ _. reflexivity.
Qed.
Lemma region_R nobj nsec nreg nf fibers out : fibres_ok nobj nf fibers -> gives d nobj nsec nreg nf fibers out ->
  forall ie ip, (ie < 3)%nat -> (ip < 6)%nat -> region out ie ip = R d nsec nreg (arrivals nf (nobj / nf) fibers) ie ip.
Proof.
  intros O G ie ip He Hp. rewrite (gives_unique _ _ _ _ _ _ _ G (gives_R _ nsec nreg _ _ O)). unfold region. rewrite nth_tab by lia.
  replace ((6 * ie + ip) / 6)%nat with ie by lia. replace ((6 * ie + ip) mod 6)%nat with ip by lia. reflexivity.
Qed.

Lemma gives_exists nobj nsec nreg nf fibers : fibres_ok nobj nf fibers -> exists out, gives d nobj nsec nreg nf fibers out.
Proof. intros O. eexists. apply gives_R. exact O. Qed.

(** ** rotation *)
Lemma arrivals_turned nf cnt fibers fibers' k s : (0 < nf)%nat -> length fibers = (nf * 12)%nat -> turned (nf * k) fibers fibers' -> (s < 12)%nat ->
  arrivals nf cnt fibers' s = arrivals nf cnt fibers ((s + k) mod 12).
Proof.
  intros P L [_ T] Hs. unfold arrivals. apply flat_map_ext. intros io.
  rewrite !flat_map_concat_map. f_equal. apply map_ext_in. intros f Hf. apply in_seq in Hf. rewrite T by (rewrite L; nia).
  rewrite L. replace ((nf * s + f + nf * k) mod (nf * 12))%nat with (nf * ((s + k) mod 12) + f)%nat; [reflexivity|].
  apply (Nat.mod_unique _ _ ((s + k) / 12)); [|].
  - assert ((s + k) mod 12 < 12)%nat by (apply Nat.mod_upper_bound; lia). nia.
  - pose proof (Nat.div_mod (s + k) 12 ltac:(lia)) as D. nia.
Qed.

Lemma R_ext nsec nreg (objs objs' : nat -> list (robj A)) ie ip ie' ip' :
  (forall j, (j < 3)%nat -> slice_cands ie (objs (region_sector ip j)) = slice_cands ie' (objs' (region_sector ip' j))) ->
  R d nsec nreg objs ie ip = R d nsec nreg objs' ie' ip'.
Proof. intros H. unfold R. rewrite (H 0%nat), (H 1%nat), (H 2%nat) by lia. reflexivity. Qed.

Lemma c91_rotation nobj nsec nreg nf fibers fibers' out out' k : (0 < nf)%nat ->
  fibres_ok nobj nf fibers -> fibres_ok nobj nf fibers' -> turned (nf * (2 * k)) fibers fibers' ->
  gives d nobj nsec nreg nf fibers out -> gives d nobj nsec nreg nf fibers' out' ->
  forall ie ip, (ie < 3)%nat -> (ip < 6)%nat -> region out' ie ip = region out ie ((ip + k) mod 6).
Proof.
  intros P O O' T G G' ie ip He Hp. assert (Hq : ((ip + k) mod 6 < 6)%nat) by (apply Nat.mod_upper_bound; lia).
  rewrite (region_R _ _ _ _ _ _ O G ie _ He Hq), (region_R _ _ _ _ _ _ O' G' ie ip He Hp). apply R_ext. intros j Hj. f_equal.
  assert (Hs : (region_sector ip j < 12)%nat) by (unfold region_sector; apply Nat.mod_upper_bound; lia).
  rewrite (arrivals_turned nf (nobj / nf) fibers fibers' (2 * k) (region_sector ip j) P (proj1 O) T Hs).
  f_equal. unfold region_sector. lia.
Qed.

(** ** mirror *)
Lemma in_slice_mirrored ie x : (ie < 3)%nat -> in_slice ie (mirrored x) = in_slice (2 - ie) x.
Proof. intros H. unfold in_slice, mirrored. cbn [r_eta]. destruct ie as [|[|[|]]]; try lia; cbn [slice_lo slice_hi Nat.sub]; apply eq_true_iff_eq; rewrite !andb_true_iff; lia. Qed.
Lemma cands_mirrored ie objs : (ie < 3)%nat -> slice_cands ie (map mirrored objs) = map mirrored (slice_cands (2 - ie) objs).
Proof.
  intros H. unfold slice_cands. rewrite map_map. induction objs as [|x objs IH]; [reflexivity|]. cbn [map filter].
  rewrite (in_slice_mirrored ie x H). change (r_pt (mirrored x)) with (r_pt x). destruct (_ && _); cbn [map]; rewrite IH; [|reflexivity]. f_equal.
  unfold local_eta, mirrored. cbn [r_pt r_eta r_phi r_rest]. f_equal. destruct ie as [|[|[|]]]; try lia; cbn [slice_centre Nat.sub]; lia.
Qed.
Lemma K_mirrored n l : K d n (map mirrored l) = map mirrored (K d n l).
Proof.
  unfold K. rewrite (rsort_map false mirrored r_pt r_pt l) by reflexivity.
  assert (E : repeat (rclear d) n = map mirrored (repeat (rclear d) n)) by (induction n as [|n IH]; cbn; [reflexivity|f_equal; exact IH]).
  rewrite E at 1. rewrite <- map_app, firstn_map. reflexivity.
Qed.
Lemma arrivals_map (f : robj A -> robj A) nf cnt (fibers : list (list (robj A))) s : arrivals nf cnt (map (map f) fibers) s = map f (arrivals nf cnt fibers s).
Proof.
  unfold arrivals. induction (seq 0 cnt) as [|io l IH]; [reflexivity|]. cbn [flat_map]. rewrite map_app, IH. f_equal. clear IH l.
  induction (seq 0 nf) as [|g m IHm]; [reflexivity|]. cbn [flat_map]. rewrite map_app, IHm. f_equal.
  assert (E : nth (nf * s + g) (map (map f) fibers) [] = map f (nth (nf * s + g) fibers [])) by (rewrite <- (map_nth (map f)); reflexivity).
  rewrite E. clear. generalize (nth (nf * s + g) fibers []) as u. intros u. revert io. induction u as [|x u IH]; intros [|io]; cbn; try reflexivity. apply IH.
Qed.
Lemma R_mirrored nsec nreg (objs objs' : nat -> list (robj A)) ie ip : (ie < 3)%nat -> (forall s, objs' s = map mirrored (objs s)) ->
  R d nsec nreg objs' ie ip = map mirrored (R d nsec nreg objs (2 - ie) ip).
Proof.
  intros H E. unfold R. cbv zeta. rewrite <- K_mirrored. f_equal. rewrite !map_app.
  assert (J : forall j k, map (local_phi j) (firstn nsec (rsort false r_pt (slice_cands ie (objs' k)))) =
    map mirrored (map (local_phi j) (firstn nsec (rsort false r_pt (slice_cands (2 - ie) (objs k)))))).
  { intros j k. rewrite E, cands_mirrored by exact H. rewrite (rsort_map false mirrored r_pt r_pt) by reflexivity. rewrite firstn_map, !map_map. reflexivity. }
  rewrite !J. reflexivity.
Qed.
Lemma c91_mirror nobj nsec nreg nf fibers out out' :
  fibres_ok nobj nf fibers -> fibres_ok nobj nf (map (map mirrored) fibers) ->
  gives d nobj nsec nreg nf fibers out -> gives d nobj nsec nreg nf (map (map mirrored) fibers) out' ->
  forall ie ip, (ie < 3)%nat -> (ip < 6)%nat -> region out' ie ip = map mirrored (region out (2 - ie) ip).
Proof.
  intros O O' G G' ie ip He Hp. rewrite (region_R _ _ _ _ _ _ O G (2 - ie)%nat ip ltac:(lia) Hp), (region_R _ _ _ _ _ _ O' G' ie ip He Hp).
  apply R_mirrored; [exact He|]. intros s. apply arrivals_map.
Qed.

(** ** locality *)
Lemma c91_local nobj nsec nreg nf fibers fibers' out out' ie ip :
  fibres_ok nobj nf fibers -> fibres_ok nobj nf fibers' -> (ie < 3)%nat -> (ip < 6)%nat ->
  gives d nobj nsec nreg nf fibers out -> gives d nobj nsec nreg nf fibers' out' ->
  (forall j, (j < 3)%nat -> present ie (arrivals nf (nobj / nf) fibers (region_sector ip j)) = present ie (arrivals nf (nobj / nf) fibers' (region_sector ip j))) ->
  region out ie ip = region out' ie ip.
Proof.
  intros O O' He Hp G G' H. rewrite (region_R _ _ _ _ _ _ O G ie ip He Hp), (region_R _ _ _ _ _ _ O' G' ie ip He Hp). apply R_ext.
  intros j Hj. unfold slice_cands. f_equal. apply H. exact Hj.
Qed.

(** ** order of arrival *)
Lemma desc_pts l : desc r_pt l -> StronglySorted Z.ge (map r_pt l).
Proof.
  induction 1 as [|x l D IH Q]; cbn [map]; constructor; [exact IH|]. rewrite Forall_map. eapply Forall_impl; [|exact Q]. cbn. intros y Hy. lia.
Qed.
Lemma sorted_perm (u v : list Z) : StronglySorted Z.ge u -> StronglySorted Z.ge v -> Permutation u v -> u = v.
Proof.
  intros Hu. revert v. induction Hu as [|x u Hu IH Q]; intros v Hv P.
  - apply Permutation_nil in P. congruence.
  - destruct Hv as [|y v Hv Q']; [apply Permutation_sym, Permutation_nil_cons in P; contradiction|].
    rewrite Forall_forall in Q, Q'.
    assert (x = y) as ->.
    { assert (I1 : In x (y :: v)) by (eapply Permutation_in; [exact P|left; reflexivity]).
      assert (I2 : In y (x :: u)) by (eapply Permutation_in; [apply Permutation_sym; exact P|left; reflexivity]).
      destruct I1 as [->|I1]; [reflexivity|]. destruct I2 as [->|I2]; [reflexivity|]. specialize (Q' _ I1). specialize (Q _ I2). lia. }
    f_equal. apply IH; [exact Hv|]. eapply Permutation_cons_inv. exact P.
Qed.
Lemma rsort_pts l l' : Permutation (map r_pt l) (map r_pt l') -> map r_pt (rsort false r_pt l) = map r_pt (rsort false r_pt l').
Proof.
  intros P. apply sorted_perm; [apply desc_pts, rsort_desc|apply desc_pts, rsort_desc|].
  etransitivity; [apply Permutation_map, rsort_perm|]. etransitivity; [exact P|]. symmetry. apply Permutation_map, rsort_perm.
Qed.
Lemma K_pts n l l' : Permutation (map r_pt l) (map r_pt l') -> map r_pt (K d n l) = map r_pt (K d n l').
Proof. intros P. unfold K. rewrite <- !firstn_map, !map_app, (rsort_pts l l' P). reflexivity. Qed.
Lemma cands_perm ie objs objs' : Permutation objs objs' -> Permutation (slice_cands ie objs) (slice_cands ie objs').
Proof.
  intros P. unfold slice_cands. apply Permutation_map. induction P; cbn [filter].
  - constructor.
  - destruct (_ && _); [constructor|]; exact IHP.
  - destruct ((0 <? r_pt y) && in_slice ie y), ((0 <? r_pt x) && in_slice ie x); try apply Permutation_refl. apply perm_swap.
  - etransitivity; eassumption.
Qed.
Lemma c91_order_pts nobj nsec nreg nf fibers fibers' out out' ie ip :
  fibres_ok nobj nf fibers -> fibres_ok nobj nf fibers' -> (ie < 3)%nat -> (ip < 6)%nat ->
  gives d nobj nsec nreg nf fibers out -> gives d nobj nsec nreg nf fibers' out' ->
  (forall j, (j < 3)%nat -> Permutation (present ie (arrivals nf (nobj / nf) fibers (region_sector ip j))) (present ie (arrivals nf (nobj / nf) fibers' (region_sector ip j)))) ->
  map r_pt (region out ie ip) = map r_pt (region out' ie ip).
Proof.
  intros O O' He Hp G G' H. rewrite (region_R _ _ _ _ _ _ O G ie ip He Hp), (region_R _ _ _ _ _ _ O' G' ie ip He Hp). unfold R. cbv zeta. apply K_pts.
  assert (J : forall j, (j < 3)%nat -> map r_pt (map (local_phi j) (firstn nsec (rsort false r_pt (slice_cands ie (arrivals nf (nobj / nf) fibers (region_sector ip j)))))) =
    map r_pt (map (local_phi j) (firstn nsec (rsort false r_pt (slice_cands ie (arrivals nf (nobj / nf) fibers' (region_sector ip j))))))).
  { intros j Hj. rewrite !map_map.
    change (fun x : robj A => r_pt (local_phi j x)) with (@r_pt A). rewrite <- !firstn_map. f_equal. apply rsort_pts. apply Permutation_map.
    unfold slice_cands. apply Permutation_map. apply H. exact Hj. }
  rewrite !map_app, (J 0%nat), (J 1%nat), (J 2%nat) by lia. apply Permutation_refl.
Qed.
(** without ties nothing else is left *)
Lemma NoDup_pt_inj l x y : NoDup (map r_pt l) -> In x l -> In y l -> r_pt x = r_pt y -> x = y.
Proof.
  induction l as [|z l IH]; [intros _ []|]. cbn [map]. intros N. inversion_clear N as [|? ? N1 N2]. intros [->|Hx] [->|Hy] E; try reflexivity.
  - exfalso. apply N1. rewrite E. apply in_map. exact Hy.
  - exfalso. apply N1. rewrite <- E. apply in_map. exact Hx.
  - apply IH; assumption.
Qed.
Lemma pts_inj l u v : NoDup (map r_pt l) -> incl u l -> incl v l -> map r_pt u = map r_pt v -> u = v.
Proof.
  intros N. revert v. induction u as [|x u IH]; intros [|y v] Iu Iv E; try discriminate; [reflexivity|]. cbn [map] in E. injection E as E1 E2. f_equal.
  - apply (NoDup_pt_inj l); [exact N|apply Iu; left; reflexivity|apply Iv; left; reflexivity|exact E1].
  - apply IH; [intros z Hz; apply Iu; right; exact Hz|intros z Hz; apply Iv; right; exact Hz|exact E2].
Qed.
Lemma rsort_untied l l' : NoDup (map r_pt l) -> Permutation l l' -> rsort false r_pt l = rsort false r_pt l'.
Proof.
  intros N P. apply (pts_inj l).
  - exact N.
  - intros x Hx. eapply Permutation_in; [apply rsort_perm|exact Hx].
  - intros x Hx. eapply Permutation_in; [apply Permutation_sym; exact P|]. eapply Permutation_in; [apply rsort_perm|exact Hx].
  - apply rsort_pts. apply Permutation_map. exact P.
Qed.
Lemma c91_order nobj nsec nreg nf fibers fibers' out out' ie ip :
  fibres_ok nobj nf fibers -> fibres_ok nobj nf fibers' -> (ie < 3)%nat -> (ip < 6)%nat ->
  gives d nobj nsec nreg nf fibers out -> gives d nobj nsec nreg nf fibers' out' ->
  (forall j, (j < 3)%nat -> Permutation (present ie (arrivals nf (nobj / nf) fibers (region_sector ip j))) (present ie (arrivals nf (nobj / nf) fibers' (region_sector ip j))) /\
     NoDup (map r_pt (present ie (arrivals nf (nobj / nf) fibers (region_sector ip j))))) ->
  region out ie ip = region out' ie ip.
Proof.
  intros O O' He Hp G G' H. rewrite (region_R _ _ _ _ _ _ O G ie ip He Hp), (region_R _ _ _ _ _ _ O' G' ie ip He Hp). unfold R. cbv zeta.
  assert (J : forall j, (j < 3)%nat -> rsort false r_pt (slice_cands ie (arrivals nf (nobj / nf) fibers (region_sector ip j))) =
    rsort false r_pt (slice_cands ie (arrivals nf (nobj / nf) fibers' (region_sector ip j)))).
  { intros j Hj. destruct (H j Hj) as [P N]. apply rsort_untied; [|unfold slice_cands; apply Permutation_map; exact P].
    unfold slice_cands. rewrite map_map. exact N. }
  rewrite (J 0%nat), (J 1%nat), (J 2%nat) by lia. reflexivity.
Qed.

(** ** muons *)
Lemma gives_M nmu fibers : mu_ok nmu fibers ->
  gives_muons d nmu fibers (tab 18 (fun ir => K d nmu (mcands nmu (arrivals 1 nmu fibers) (ir / 6) (ir mod 6)))).
Proof. intros [L E] work regions W0 R0. eexists _, _. apply regionize_muon_K; assumption. Qed.
Lemma muons_unique nmu fibers out out' : gives_muons d nmu fibers out -> gives_muons d nmu fibers out' -> out = out'.
Proof.
  intros G G'.
  assert (W0 : dims3 4 3 nmu (repeat (repeat (repeat (rclear d) nmu) 3) 4)).
  { split; [apply repeat_length|]. intros a Ha. apply repeat_spec in Ha. subst. split; [apply repeat_length|]. intros b Hb. apply repeat_spec in Hb. subst. apply repeat_length. }
  assert (R0 : dims2 18 nmu (repeat (repeat (rclear d) nmu) 18)).
  { split; [apply repeat_length|]. intros b Hb. apply repeat_spec in Hb. subst. apply repeat_length. }
  destruct (G _ _ W0 R0) as (r & s & E). destruct (G' _ _ W0 R0) as (r' & s' & E'). rewrite E in E'. injection E' as -> _ _. reflexivity.
Qed.
Lemma muons_exist nmu fibers : mu_ok nmu fibers -> exists out, gives_muons d nmu fibers out.
Proof. intros O. eexists. apply gives_M. exact O. Qed.
Lemma region_M nmu fibers out : mu_ok nmu fibers -> gives_muons d nmu fibers out ->
  forall ie ip, (ie < 3)%nat -> (ip < 6)%nat -> region out ie ip = K d nmu (mcands nmu (arrivals 1 nmu fibers) ie ip).
Proof.
  intros O G ie ip He Hp. rewrite (muons_unique _ _ _ _ G (gives_M _ _ O)).
  unfold region. rewrite nth_tab by lia. replace ((6 * ie + ip) / 6)%nat with ie by lia. replace ((6 * ie + ip) mod 6)%nat with ip by lia. reflexivity.
Qed.
Lemma c91_muon_rotation nmu fibers fibers' out out' : mu_ok nmu fibers -> mu_ok nmu fibers' -> turned 2 fibers fibers' ->
  gives_muons d nmu fibers out -> gives_muons d nmu fibers' out' ->
  forall ie ip, (ie < 3)%nat -> (ip < 6)%nat -> region out' ie ip = region out ie ((ip + 3) mod 6).
Proof.
  intros O O' [_ T] G G' ie ip He Hp. rewrite (region_M _ _ _ O G ie ((ip + 3) mod 6)%nat He ltac:(lia)), (region_M _ _ _ O' G' ie ip He Hp). f_equal.
  assert (M : forall m, (m < 4)%nat -> mt nmu (arrivals 1 nmu fibers') ie m = mt nmu (arrivals 1 nmu fibers) ie ((m + 2) mod 4)).
  { intros m Hm. unfold mt. rewrite !arrivals_one, T by (rewrite (proj1 O); lia). rewrite (proj1 O). reflexivity. }
  unfold mcands. cbv zeta. rewrite !M by lia.
  destruct ip as [|[|[|[|[|[|]]]]]]; try lia; reflexivity.
Qed.
Lemma mt_mirrored nmu (objs objs' : nat -> list (robj A)) ie m : (ie < 3)%nat -> (forall s, objs' s = map mirrored (objs s)) ->
  mt nmu objs' ie m = map mirrored (mt nmu objs (2 - ie) m).
Proof. intros H E. unfold mt. rewrite E, cands_mirrored by exact H. rewrite (rsort_map false mirrored r_pt r_pt) by reflexivity. rewrite firstn_map. reflexivity. Qed.
Lemma filter_mirrored (f : Z -> bool) l : filter (fun x => f (r_phi x)) (map mirrored l) = map mirrored (filter (fun x => f (r_phi x)) l).
Proof. induction l as [|x l IH]; [reflexivity|]. cbn [map filter]. change (r_phi (mirrored x)) with (r_phi x). destruct (f (r_phi x)); cbn [map]; rewrite IH; reflexivity. Qed.
Lemma c91_muon_mirror nmu fibers out out' : mu_ok nmu fibers -> mu_ok nmu (map (map mirrored) fibers) ->
  gives_muons d nmu fibers out -> gives_muons d nmu (map (map mirrored) fibers) out' ->
  forall ie ip, (ie < 3)%nat -> (ip < 6)%nat -> region out' ie ip = map mirrored (region out (2 - ie) ip).
Proof.
  intros O O' G G' ie ip He Hp. rewrite (region_M _ _ _ O G (2 - ie)%nat ip ltac:(lia) Hp), (region_M _ _ _ O' G' ie ip He Hp). rewrite <- K_mirrored. f_equal.
  unfold mcands. cbv zeta. rewrite !(mt_mirrored nmu (arrivals 1 nmu fibers) (arrivals 1 nmu (map (map mirrored) fibers)) ie) by (try exact He; intros s; apply arrivals_map).
  assert (S : forall s l, map (add_phi s) (map mirrored l) = map mirrored (map (add_phi s) l)) by (intros; rewrite !map_map; reflexivity).
  destruct (ip mod 3)%nat as [|[|]]; [reflexivity| |].
  - rewrite (filter_mirrored (fun z => z >? 60)), (filter_mirrored (fun z => z <=? 60)), !S, <- map_app. reflexivity.
  - rewrite (filter_mirrored (fun z => z >? -60)), (filter_mirrored (fun z => z <=? -60)), !S, <- map_app. reflexivity.
Qed.
End move.
