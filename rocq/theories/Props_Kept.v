(** C99: no soft track and no isolated cluster is lost between the fibres and the
    candidates unless there is no room for it. *)
From Verif Require Import Base BaseFacts Data PFHw PFRef SpecPF SpecLink Regionizer SpecRegion RegTest Witness SpecChain ChainProofs ChainKept Props_Chain.

(** A track below the cut on unlinked tracks (40, or 80 if its quality is tight)
    is a charged candidate of every region its sector and its eta belong to.
    The only other outcomes are that more than 9 tracks of the sector and slice
    are at least as hard, or that every slot of the region holds such a track. *)
Theorem C99_track : forall c e had em tk mu ie ip j f mem o t, (NSELCALO c <= NCALO c)%nat -> complete c e -> in_range e -> had_reference c e had -> other_regions c e em tk mu ->
  (ie < 3)%nat -> (ip < 6)%nat -> (j < 3)%nat -> (f < 2)%nat ->
  let r := (6 * ie + ip)%nat in let s := region_sector ip j in
  In t (firstn 10 (nth (2 * s + f) (ev_tk e) [])) -> 0 < t_pt t < (if t_tight t then 80 else 40) -> slice_lo ie <= t_eta t <= slice_hi ie -> -392 <= t_phi t <= 391 ->
  pfalgo3_full mem (NSELCALO c) (nth r em []) (nth r had []) (nth r tk []) (nth r mu []) = Ok o \/
  pfalgo3_full_ref mem (NSELCALO c) (nth r em []) (nth r had []) (nth r tk []) (nth r mu []) = Ok o ->
  (exists x, In x (o_ch o) /\ is_track ie ip s t x) \/
  (9 < length (as_hard e s ie t))%nat \/ (forall u, In u (nth r tk []) -> t_pt t <= t_pt u).
Proof. exact c99_soft. Qed.
Print Assumptions C99_track.

(** An EM cluster without a track of the region near it is a photon of exactly
    its transverse momentum, or there is no room. *)
Theorem C99_photon : forall c e had em tk mu ie ip j mem o u, (NSELCALO c <= NCALO c)%nat -> complete c e -> in_range e -> had_reference c e had -> other_regions c e em tk mu ->
  (ie < 3)%nat -> (ip < 6)%nat -> (j < 3)%nat ->
  let r := (6 * ie + ip)%nat in let s := region_sector ip j in
  In u (firstn 12 (nth s (ev_em e) [])) -> 0 < e_pt u -> slice_lo ie <= e_eta u <= slice_hi ie -> -392 <= e_phi u <= 391 -> em_alone ie j u (nth r tk []) ->
  pfalgo3_full mem (NSELCALO c) (nth r em []) (nth r had []) (nth r tk []) (nth r mu []) = Ok o \/
  pfalgo3_full_ref mem (NSELCALO c) (nth r em []) (nth r had []) (nth r tk []) (nth r mu []) = Ok o ->
  (exists x, In x (o_pho o) /\ is_photon ie ip s u x) \/
  (7 < length (em_as_hard e s ie u))%nat \/ (forall v, In v (nth r em []) -> e_pt u <= e_pt v).
Proof. exact c99_photon. Qed.
Print Assumptions C99_photon.

(** A hadronic cluster without a track or an EM cluster near it is a neutral
    hadron of exactly its transverse momentum, or there is no room on the way in
    or among the [NSELCALO] neutral candidates. *)
Theorem C99_neutral : forall c e had em tk mu ie ip j mem o u, (NSELCALO c <= NCALO c)%nat -> complete c e -> in_range e -> had_reference c e had -> other_regions c e em tk mu ->
  (ie < 3)%nat -> (ip < 6)%nat -> (j < 3)%nat ->
  let r := (6 * ie + ip)%nat in let s := region_sector ip j in
  In u (firstn 15 (nth s (ev_had e) [])) -> 0 < h_pt u -> h_isem u = false \/ 0 < h_empt u -> slice_lo ie <= h_eta u <= slice_hi ie -> -392 <= h_phi u <= 391 -> had_alone ie j u (nth r tk []) (nth r em []) ->
  pfalgo3_full mem (NSELCALO c) (nth r em []) (nth r had []) (nth r tk []) (nth r mu []) = Ok o \/
  pfalgo3_full_ref mem (NSELCALO c) (nth r em []) (nth r had []) (nth r tk []) (nth r mu []) = Ok o ->
  (exists x, In x (o_ne o) /\ is_neutral ie ip s u x) \/
  (7 < length (had_as_hard e s ie u))%nat \/ (forall v, In v (nth r had []) -> h_pt u <= h_pt v) \/ (length (o_ne o) = NSELCALO c /\ forall y, In y (o_ne o) -> h_pt u <= n_pt y).
Proof. exact c99_neutral. Qed.
Print Assumptions C99_neutral.

(** the event of C98 with one more hadronic cluster, away from everything *)
Definition kx_track := mkTk 30 2 (-20) 50 (-4) true.
Definition kx_photon := mkEm 60 5 40 8.
Definition kx_neutral := mkHad 90 100 60 0 false.
Definition kx_event : event := mkEvent (hot 12 15 1 had0 [mkHad 200 10 10 50 false; mkHad (-5) 0 0 0 false; kx_neutral]) (ev_em cx_event) (ev_tk cx_event) (ev_mu cx_event).
Definition kx_had := match regionize_hadcalo_ref cfg_TESTMP7 had_d (cx_work had_d 12 3 7) (map (map r_of_had) (ev_had kx_event)) (cx_regs had_d 15) with Ok (o, _, _) => map (map had_of_r) o | _ => [] end.
Lemma kx_runs : (NSELCALO cfg_TESTMP7 <= NCALO cfg_TESTMP7)%nat /\ complete cfg_TESTMP7 kx_event /\ in_range kx_event /\ had_reference cfg_TESTMP7 kx_event kx_had /\ other_regions cfg_TESTMP7 kx_event cx_em cx_tk cx_mu.
Proof.
  destruct C98_hyp as (_ & N & (_ & C) & (_ & R) & _ & _ & O). split; [exact N|]. split; [split; [apply hot_fibres; cbn; lia|exact C]|]. split; [split; [|exact R]|split; [|exact O]].
  - cbn [ev_had kx_event]. apply hot_every; [|repeat apply Forall_cons; [..|apply Forall_nil]]; unfold had_ok, inS; cbn; lia.
  - exists (cx_work had_d 12 3 7), (cx_regs had_d 15). eexists _, _, _. split; [apply dims3_blank|]. split; [apply dims2_blank|]. split; [vm_compute; reflexivity|]. vm_compute; reflexivity.
Qed.
Lemma far {T} (f g : T -> Z) n l : forallb (fun t => (f t =? 0) || (n <=? g t)) l = true -> forall t, In t l -> 0 < f t -> n <= g t.
Proof. intros H t Ht P. rewrite forallb_forall in H. specialize (H t Ht). destruct (Z.eqb_spec (f t) 0); [lia|]. cbn in H. apply Z.leb_le in H. exact H. Qed.
Lemma kx_alone : em_alone 1 1 kx_photon (nth 6 cx_tk []) /\ had_alone 1 1 kx_neutral (nth 6 cx_tk []) (nth 6 cx_em []).
Proof.
  split; [exact (far t_pt (fun t => dist2 (t_eta t) (t_phi t) (e_eta kx_photon - slice_centre 1) (e_phi kx_photon + 120 * (Z.of_nat 1 - 1))) 84 (nth 6 cx_tk []) ltac:(vm_compute; reflexivity))|].
  split; [exact (far t_pt (fun t => dist2 (t_eta t) (t_phi t) (h_eta kx_neutral - slice_centre 1) (h_phi kx_neutral + 120 * (Z.of_nat 1 - 1))) 756 (nth 6 cx_tk []) ltac:(vm_compute; reflexivity))|exact (far e_pt (fun t => dist2 (e_eta t) (e_phi t) (h_eta kx_neutral - slice_centre 1) (h_phi kx_neutral + 120 * (Z.of_nat 1 - 1))) 525 (nth 6 cx_em []) ltac:(vm_compute; reflexivity))].
Qed.
Lemma kx_hw : exists o, pfalgo3_full mem0 10 (nth 6 cx_em []) (nth 6 kx_had []) (nth 6 cx_tk []) (nth 6 cx_mu []) = Ok o /\
  map c_pt (firstn 3 (o_ch o)) = [100; 30; 0] /\ map n_pt (firstn 2 (o_pho o)) = [60; 0] /\ map n_pt (firstn 3 (o_ne o)) = [100; 90; 0].
Proof. eexists. split; [vm_compute; reflexivity|]. split; [vm_compute; reflexivity|]. split; vm_compute; reflexivity. Qed.
Example C99_hyp : ((NSELCALO cfg_TESTMP7 <= NCALO cfg_TESTMP7)%nat /\ complete cfg_TESTMP7 kx_event /\ in_range kx_event /\ had_reference cfg_TESTMP7 kx_event kx_had /\ other_regions cfg_TESTMP7 kx_event cx_em cx_tk cx_mu) /\
  In kx_track (firstn 10 (nth (2 * region_sector 0 1 + 0) (ev_tk kx_event) [])) /\ In kx_photon (firstn 12 (nth (region_sector 0 1) (ev_em kx_event) [])) /\ In kx_neutral (firstn 15 (nth (region_sector 0 1) (ev_had kx_event) [])) /\
  (em_alone 1 1 kx_photon (nth 6 cx_tk []) /\ had_alone 1 1 kx_neutral (nth 6 cx_tk []) (nth 6 cx_em [])) /\
  (exists o, pfalgo3_full mem0 10 (nth 6 cx_em []) (nth 6 kx_had []) (nth 6 cx_tk []) (nth 6 cx_mu []) = Ok o /\
    map c_pt (firstn 3 (o_ch o)) = [100; 30; 0] /\ map n_pt (firstn 2 (o_pho o)) = [60; 0] /\ map n_pt (firstn 3 (o_ne o)) = [100; 90; 0]) /\
  as_hard kx_event 1 1 kx_track = [mkTk 100 10 11 9 3 true; kx_track] /\ em_as_hard kx_event 1 1 kx_photon = [kx_photon] /\ had_as_hard kx_event 1 1 kx_neutral = [mkHad 200 10 10 50 false; kx_neutral].
Proof.
  split; [exact kx_runs|]. split; [cbn; tauto|]. split; [cbn; tauto|]. split; [cbn; tauto|]. split; [exact kx_alone|]. split; [exact kx_hw|].
  split; [vm_compute; reflexivity|]. split; vm_compute; reflexivity.
Qed.

(** The cut matters: a harder track alone in the detector is dropped. *)
Definition hx_track := mkTk 80 10 1 2 3 true.
Definition hx_event : event := mkEvent (hot 12 15 1 had0 []) (hot 12 12 1 em0 []) (hot 24 10 2 tk0 [hx_track]) (hot 4 2 0 mu0 []).
Definition hx_tk := match regionize_track_ref cfg_TESTMP7 tk_d (cx_work tk_d 12 3 9) (map (map r_of_tk) (ev_tk hx_event)) (cx_regs tk_d 15) with Ok (o, _, _) => map (map tk_of_r) o | _ => [] end.
Lemma hx_runs : complete cfg_TESTMP7 hx_event /\ in_range hx_event /\ had_reference cfg_TESTMP7 hx_event gx_had /\ other_regions cfg_TESTMP7 hx_event gx_em hx_tk gx_mu.
Proof.
  destruct gx_runs as ((C1 & C2 & _ & C4) & (R1 & R2 & _ & R4) & H & (E & _ & M)). split; [|split; [|split; [|split; [|split]]]].
  - split; [exact C1|]. split; [exact C2|]. split; [apply hot_fibres; cbn; lia|exact C4].
  - split; [exact R1|]. split; [exact R2|]. split; [|exact R4]. cbn [ev_tk hx_event]. apply hot_every; [|repeat apply Forall_cons; [..|apply Forall_nil]]; unfold tk_ok, inS; cbn; lia.
  - exact H.
  - exact E.
  - exists (cx_work tk_d 12 3 9), (cx_regs tk_d 15). eexists _, _, _. split; [apply dims3_blank|]. split; [apply dims2_blank|]. split; [vm_compute; reflexivity|]. vm_compute; reflexivity.
  - exact M.
Qed.
Lemma hx_lost : exists o, pfalgo3_full mem0 10 (nth 6 gx_em []) (nth 6 gx_had []) (nth 6 hx_tk []) (nth 6 gx_mu []) = Ok o /\ forallb (fun x => c_pt x =? 0) (o_ch o) = true.
Proof. eexists. split; [vm_compute; reflexivity|]. vm_compute; reflexivity. Qed.
Theorem C99_hard_track_refuted : exists c e had em tk mu mem o t, (NSELCALO c <= NCALO c)%nat /\ complete c e /\ in_range e /\ had_reference c e had /\ other_regions c e em tk mu /\
  In t (firstn 10 (nth 2 (ev_tk e) [])) /\ t_pt t = 80 /\ slice_lo 1 <= t_eta t <= slice_hi 1 /\ length (as_hard e 1 1 t) = 1%nat /\ In tk0 (nth 6 tk []) /\
  pfalgo3_full mem (NSELCALO c) (nth 6 em []) (nth 6 had []) (nth 6 tk []) (nth 6 mu []) = Ok o /\ forall x, In x (o_ch o) -> c_pt x = 0.
Proof.
  destruct hx_runs as (C & R & H & O). destruct hx_lost as (o & E & Z). exists cfg_TESTMP7, hx_event, gx_had, gx_em, hx_tk, gx_mu, mem0, o, hx_track.
  split; [cbn; lia|]. split; [exact C|]. split; [exact R|]. split; [exact H|]. split; [exact O|]. split; [cbn; tauto|]. split; [reflexivity|]. split; [cbn; lia|]. split; [vm_compute; reflexivity|].
  split; [vm_compute; tauto|]. split; [exact E|]. intros x Hx. rewrite forallb_forall in Z. apply Z.eqb_eq. exact (Z x Hx).
Qed.
Print Assumptions C99_hard_track_refuted.

(** So does the condition on the electromagnetic part: a cluster flagged EM-like
    without an electromagnetic part disappears although nothing is near it. *)
Definition ix_had := mkHad 90 100 60 0 true.
Definition ix_event : event := mkEvent (hot 12 15 1 had0 [ix_had]) (hot 12 12 1 em0 []) (hot 24 10 2 tk0 [hx_track]) (hot 4 2 0 mu0 []).
Definition ix_hads := match regionize_hadcalo_ref cfg_TESTMP7 had_d (cx_work had_d 12 3 7) (map (map r_of_had) (ev_had ix_event)) (cx_regs had_d 15) with Ok (o, _, _) => map (map had_of_r) o | _ => [] end.
Lemma ix_runs : complete cfg_TESTMP7 ix_event /\ in_range ix_event /\ had_reference cfg_TESTMP7 ix_event ix_hads /\ other_regions cfg_TESTMP7 ix_event gx_em hx_tk gx_mu.
Proof.
  destruct hx_runs as ((_ & C) & (_ & R) & _ & O). split; [split; [apply hot_fibres; cbn; lia|exact C]|]. split; [split; [|exact R]|split; [|exact O]].
  - cbn [ev_had ix_event]. apply hot_every; [|repeat apply Forall_cons; [..|apply Forall_nil]]; unfold had_ok, inS; cbn; lia.
  - exists (cx_work had_d 12 3 7), (cx_regs had_d 15). eexists _, _, _. split; [apply dims3_blank|]. split; [apply dims2_blank|]. split; [vm_compute; reflexivity|]. vm_compute; reflexivity.
Qed.
Lemma ix_lost : exists o, pfalgo3_full mem0 10 (nth 6 gx_em []) (nth 6 ix_hads []) (nth 6 hx_tk []) (nth 6 gx_mu []) = Ok o /\ forallb (fun x => n_pt x =? 0) (o_ne o ++ o_pho o) = true.
Proof. eexists. split; [vm_compute; reflexivity|]. vm_compute; reflexivity. Qed.
Lemma ix_alone : had_alone 1 1 ix_had (nth 6 hx_tk []) (nth 6 gx_em []).
Proof. split; [exact (far t_pt (fun t => dist2 (t_eta t) (t_phi t) (h_eta ix_had - slice_centre 1) (h_phi ix_had + 120 * (Z.of_nat 1 - 1))) 756 (nth 6 hx_tk []) ltac:(vm_compute; reflexivity))|exact (far e_pt (fun t => dist2 (e_eta t) (e_phi t) (h_eta ix_had - slice_centre 1) (h_phi ix_had + 120 * (Z.of_nat 1 - 1))) 525 (nth 6 gx_em []) ltac:(vm_compute; reflexivity))]. Qed.
Theorem C99_em_like_refuted : exists c e had em tk mu mem o u, (NSELCALO c <= NCALO c)%nat /\ complete c e /\ in_range e /\ had_reference c e had /\ other_regions c e em tk mu /\
  In u (firstn 15 (nth 1 (ev_had e) [])) /\ 0 < h_pt u /\ slice_lo 1 <= h_eta u <= slice_hi 1 /\ had_alone 1 1 u (nth 6 tk []) (nth 6 em []) /\ In had0 (nth 6 had []) /\
  pfalgo3_full mem (NSELCALO c) (nth 6 em []) (nth 6 had []) (nth 6 tk []) (nth 6 mu []) = Ok o /\ forall x, In x (o_ne o ++ o_pho o) -> n_pt x = 0.
Proof.
  destruct ix_runs as (C & R & H & O). destruct ix_lost as (o & E & Z). exists cfg_TESTMP7, ix_event, ix_hads, gx_em, hx_tk, gx_mu, mem0, o, ix_had.
  split; [cbn; lia|]. split; [exact C|]. split; [exact R|]. split; [exact H|]. split; [exact O|]. split; [cbn; tauto|]. split; [reflexivity|]. split; [cbn; lia|]. split; [exact ix_alone|].
  split; [vm_compute; tauto|]. split; [exact E|]. intros x Hx. rewrite forallb_forall in Z. apply Z.eqb_eq. exact (Z x Hx).
Qed.
Print Assumptions C99_em_like_refuted.
