(** C98: from the fibres to the candidates. *)
From Verif Require Import Base BaseFacts Data PFHw PFRef SpecPF SpecPFRef SpecPFWrap SpecOut SpecLink TestUtils Puppi SpecPuppi Regionizer SpecRegion RegTest Encoding SpecEnc Witness SpecChain ChainProofs ChainNeutral.

(** The regionizers return for every event, and the firmware one fills the
    regions as the reference does. *)
Theorem C98_runs : forall c e, (7 <= NCALO c)%nat -> complete c e ->
  exists had em tk mu, had_firmware c e had /\ had_reference c e had /\ other_regions c e em tk mu.
Proof. exact c98_runs. Qed.
Print Assumptions C98_runs.

(** What they write is a legal input of particle flow: arrays of the declared
    sizes, fields in range, no negative transverse momentum although the fibres
    may carry one, and a track slot without transverse momentum is a cleared one. *)
Theorem C98_legal : forall c e had em tk mu r, complete c e -> in_range e -> had_reference c e had -> other_regions c e em tk mu -> (r < 18)%nat ->
  phys (nth r em []) (nth r had []) (nth r tk []) (nth r mu []) /\
  length (nth r em []) = NEMCALO c /\ length (nth r had []) = NCALO c /\ length (nth r tk []) = NTRACK c /\ length (nth r mu []) = NMU c /\
  Forall (fun t => t_pt t = 0 -> t = tk0) (nth r tk []).
Proof. exact c98_legal. Qed.
Print Assumptions C98_legal.

(** On a region particle flow runs to the end or an [int] overflows; nothing
    else can go wrong (no index out of range, no uninitialised value read). *)
Theorem C98_defined : forall c e had em tk mu r mem mem', complete c e -> in_range e -> had_reference c e had -> other_regions c e em tk mu -> (r < 18)%nat -> (NSELCALO c <= NCALO c)%nat ->
  ((exists o, pfalgo3_full mem (NSELCALO c) (nth r em []) (nth r had []) (nth r tk []) (nth r mu []) = Ok o) \/
   pfalgo3_full mem (NSELCALO c) (nth r em []) (nth r had []) (nth r tk []) (nth r mu []) = UB SignedOverflow) /\
  ((exists o, pfalgo3_full_ref mem' (NSELCALO c) (nth r em []) (nth r had []) (nth r tk []) (nth r mu []) = Ok o) \/
   pfalgo3_full_ref mem' (NSELCALO c) (nth r em []) (nth r had []) (nth r tk []) (nth r mu []) = UB SignedOverflow).
Proof. exact c98_defined. Qed.
Print Assumptions C98_defined.

(** Firmware regionizer and firmware particle flow on one side, the references
    on the other: the candidates of a region agree, unless one of the three
    differences known for particle flow occurs in it.  The fourth one of C01, a
    track slot without transverse momentum but with an error, does not survive
    the regionizer. *)
Theorem C98_chain : forall c e had had' em tk mu r mem mem' ref, (7 <= NCALO c)%nat -> (NSELCALO c <= NCALO c)%nat -> complete c e -> in_range e ->
  had_firmware c e had -> had_reference c e had' -> other_regions c e em tk mu -> (r < 18)%nat ->
  ~ NegativeSum (nth r em []) (nth r had' []) (nth r tk []) (nth r mu []) ->
  ~ KeepConflict_w (nth r em []) (nth r had' []) (nth r tk []) (nth r mu []) ->
  ~ ErrOneConflict (nth r em []) (nth r had' []) (nth r tk []) (nth r mu []) ->
  pfalgo3_full_ref mem' (NSELCALO c) (nth r em []) (nth r had' []) (nth r tk []) (nth r mu []) = Ok ref ->
  exists o, pfalgo3_full mem (NSELCALO c) (nth r em []) (nth r had []) (nth r tk []) (nth r mu []) = Ok o /\ agree ref o.
Proof. exact c98_chain. Qed.
Print Assumptions C98_chain.

(** ... and so do the weighted neutral candidates after PUPPI (photons first,
    then neutral hadrons, as simple_pfpuppi_test.cpp:65-74 arranges them). *)
Theorem C98_puppi : forall c e had had' em tk mu r mem mem' ref tab z o, (7 <= NCALO c)%nat -> (NSELCALO c <= NCALO c)%nat -> complete c e -> in_range e ->
  had_firmware c e had -> had_reference c e had' -> other_regions c e em tk mu -> (r < 18)%nat -> (forall i, ne_ok (junk_tmp mem i)) ->
  ~ NegativeSum (nth r em []) (nth r had' []) (nth r tk []) (nth r mu []) ->
  ~ KeepConflict_w (nth r em []) (nth r had' []) (nth r tk []) (nth r mu []) ->
  ~ ErrOneConflict (nth r em []) (nth r had' []) (nth r tk []) (nth r mu []) ->
  pfalgo3_full_ref mem' (NSELCALO c) (nth r em []) (nth r had' []) (nth r tk []) (nth r mu []) = Ok ref ->
  pfalgo3_full mem (NSELCALO c) (nth r em []) (nth r had []) (nth r tk []) (nth r mu []) = Ok o ->
  table_ok tab -> (forall n, In n (o_pho o ++ o_ne o) -> alpha_sum z (o_ch o) n < 2147483648) ->
  exists a b, simple_puppi_hw tab (o_ch o) (o_pho o ++ o_ne o) z = Ok a /\ simple_puppi_ref tab (o_ch ref) (o_pho ref ++ o_ne ref) z = Ok b /\ Forall2 same_weighted a b.
Proof. exact c98_puppi. Qed.
Print Assumptions C98_puppi.

(** In between the words of the MP7 links may be put: for the configurations of
    data.h every region fits on the 144 words, and what is decoded at the end is
    what particle flow gives on the region itself, or the same failure. *)
Theorem C98_links : forall c e had em tk mu r mem data out0 oldpho oldne, In c [cfg_TESTMP7; cfg_TESTCTP7; cfg_default] -> complete c e -> in_range e ->
  had_reference c e had -> other_regions c e em tk mu -> (r < 18)%nat -> (forall i, ne_ok (junk_tmp mem i)) ->
  length data = MP7_NCHANN -> length out0 = MP7_NCHANN -> length oldpho = NEMCALO c -> length oldne = NSELCALO c ->
  exists w, mp7wrapped_pack_in MP7_NCHANN (nth r em []) (nth r had []) (nth r tk []) (nth r mu []) data = Ok w /\
  match pfalgo3_full mem (NSELCALO c) (nth r em []) (nth r had []) (nth r tk []) (nth r mu []) with
  | Ok o => exists d, mp7wrapped_pfalgo3_full MP7_NCHANN (NEMCALO c) (NCALO c) (NTRACK c) (NMU c) (NSELCALO c) mem w out0 = Ok d /\
              mp7wrapped_unpack_out MP7_NCHANN (NTRACK c) (NMU c) d oldpho oldne = Ok (o_ch o, zip_puppi oldpho (o_pho o), zip_puppi oldne (o_ne o), o_mu o)
  | UB k => mp7wrapped_pfalgo3_full MP7_NCHANN (NEMCALO c) (NCALO c) (NTRACK c) (NMU c) (NSELCALO c) mem w out0 = UB k
  end.
Proof. exact c98_links. Qed.
Print Assumptions C98_links.

(** Every charged candidate, muons included, is a track that arrived on a fibre:
    same transverse momentum, same z0, same direction in the detector. *)
Theorem C98_charged : forall c e had em tk mu ie ip mem o x, (NSELCALO c <= NCALO c)%nat -> complete c e -> in_range e -> everywhere (fun t => -392 <= t_phi t <= 391) (ev_tk e) ->
  had_reference c e had -> other_regions c e em tk mu -> (ie < 3)%nat -> (ip < 6)%nat ->
  let r := (6 * ie + ip)%nat in
  pfalgo3_full mem (NSELCALO c) (nth r em []) (nth r had []) (nth r tk []) (nth r mu []) = Ok o \/
  pfalgo3_full_ref mem (NSELCALO c) (nth r em []) (nth r had []) (nth r tk []) (nth r mu []) = Ok o ->
  In x (o_ch o ++ o_mu o) -> c_pt x <> 0 -> 0 < c_pt x /\ from_track e ie ip x.
Proof. exact c98_charged. Qed.
Print Assumptions C98_charged.

(** A neutral hadron points where a hadronic cluster points that arrived on a
    fibre, whatever wraps around; a photon where an EM cluster does, with at most
    its transverse momentum, if the tracks of the region sum up to a 16-bit number. *)
Theorem C98_neutral : forall c e had em tk mu ie ip mem o, (NSELCALO c <= NCALO c)%nat -> complete c e -> in_range e ->
  everywhere (fun h => -392 <= h_phi h <= 391) (ev_had e) -> everywhere (fun x => -392 <= e_phi x <= 391) (ev_em e) ->
  had_reference c e had -> other_regions c e em tk mu -> (ie < 3)%nat -> (ip < 6)%nat ->
  let r := (6 * ie + ip)%nat in
  pfalgo3_full mem (NSELCALO c) (nth r em []) (nth r had []) (nth r tk []) (nth r mu []) = Ok o ->
  (forall x, In x (o_ne o) -> n_pt x <> 0 -> from_had e ie ip x) /\
  (sumZ (map t_pt (nth r tk [])) <= 32767 -> forall x, In x (o_pho o) -> n_pt x <> 0 -> 0 < n_pt x /\ from_em e ie ip x).
Proof. exact c98_neutral. Qed.
Print Assumptions C98_neutral.

(** an event with a track near a hadronic cluster and an EM cluster, and slots
    with a negative transverse momentum or an error without a track *)
Definition hot {T} (n len at_ : nat) (z : T) (l : list T) : list (list T) :=
  map (fun i => if (i =? at_)%nat then l ++ repeat z (len - length l) else repeat z len) (seq 0 n).
Lemma hot_fibres T n k a (z : T) l : (length l <= k)%nat -> fibres n k (hot n k a z l).
Proof.
  intros L. split; [unfold hot; rewrite map_length; apply seq_length|]. intros f Hf. unfold hot in Hf. apply in_map_iff in Hf as (i & <- & _).
  destruct (i =? a)%nat; rewrite ?app_length, repeat_length; lia.
Qed.
Lemma hot_every T (P : T -> Prop) n k a (z : T) l : P z -> Forall P l -> everywhere P (hot n k a z l).
Proof.
  intros Pz Pl. apply Forall_forall. intros f Hf. unfold hot in Hf. apply in_map_iff in Hf as (i & <- & _).
  assert (Forall P (repeat z k) /\ Forall P (repeat z (k - length l))) as [R1 R2] by (split; apply Forall_forall; intros x Hx; apply repeat_spec in Hx; subst; exact Pz).
  destruct (i =? a)%nat; [apply Forall_app; split; assumption|exact R1].
Qed.
Definition cx_event : event := mkEvent
  (hot 12 15 1 had0 [mkHad 200 10 10 50 false; mkHad (-5) 0 0 0 false])
  (hot 12 12 1 em0 [mkEm 60 5 40 8])
  (hot 24 10 2 tk0 [mkTk 100 10 11 9 3 true; mkTk 0 7 10 10 0 false; mkTk 30 2 (-20) 50 (-4) true])
  (hot 4 2 0 mu0 [mkMu 32 0 (-20) 52]).
Definition cx_work {A} (d : A) n m k := repeat (repeat (repeat (rclear d) k) m) n.
Definition cx_regs {A} (d : A) k := repeat (repeat (rclear d) k) 18.
Definition cx_had := match regionize_hadcalo_ref cfg_TESTMP7 had_d (cx_work had_d 12 3 7) (map (map r_of_had) (ev_had cx_event)) (cx_regs had_d 15) with Ok (o, _, _) => map (map had_of_r) o | _ => [] end.
Definition cx_em := match regionize_emcalo_ref cfg_TESTMP7 0 (cx_work 0 12 3 7) (map (map r_of_em) (ev_em cx_event)) (cx_regs 0 15) with Ok (o, _, _) => map (map em_of_r) o | _ => [] end.
Definition cx_tk := match regionize_track_ref cfg_TESTMP7 tk_d (cx_work tk_d 12 3 9) (map (map r_of_tk) (ev_tk cx_event)) (cx_regs tk_d 15) with Ok (o, _, _) => map (map tk_of_r) o | _ => [] end.
Definition cx_mu := match regionize_muon_ref 0 2 (cx_work 0 4 3 2) (map (map r_of_mu) (ev_mu cx_event)) (cx_regs 0 2) with Ok (o, _, _) => map (map mu_of_r) o | _ => [] end.
Example C98_hyp : (7 <= NCALO cfg_TESTMP7)%nat /\ (NSELCALO cfg_TESTMP7 <= NCALO cfg_TESTMP7)%nat /\ complete cfg_TESTMP7 cx_event /\ in_range cx_event /\
  had_firmware cfg_TESTMP7 cx_event cx_had /\ had_reference cfg_TESTMP7 cx_event cx_had /\ other_regions cfg_TESTMP7 cx_event cx_em cx_tk cx_mu.
Proof.
  assert (D2 : forall A (d : A) n k, dims2 n k (repeat (repeat (rclear d) k) n)) by (intros; apply dims2_blank).
  assert (D3 : forall A (d : A) n m k, dims3 n m k (cx_work d n m k)) by (intros; apply dims3_blank).
  split; [cbn; lia|]. split; [cbn; lia|]. split; [|split; [|split; [|split; [|split; [|split]]]]].
  - split; [apply hot_fibres; cbn; lia|]. split; [apply hot_fibres; cbn; lia|]. split; apply hot_fibres; cbn; lia.
  - unfold in_range. cbn [ev_had ev_em ev_tk ev_mu cx_event].
    split; [apply hot_every; [|repeat apply Forall_cons; [..|apply Forall_nil]]; unfold had_ok, inS; cbn; lia|].
    split; [apply hot_every; [|repeat apply Forall_cons; [..|apply Forall_nil]]; unfold em_ok, inS; cbn; lia|].
    split; [apply hot_every; [|repeat apply Forall_cons; [..|apply Forall_nil]]; unfold tk_ok, inS; cbn; lia|].
    apply hot_every; [|repeat apply Forall_cons; [..|apply Forall_nil]]; unfold mu_ok, inS; cbn; lia.
  - exists (fun _ _ => rclear had_d), (cx_work had_d 12 3 7), (cx_regs had_d 15). eexists _, _. split; [apply D3|]. split; [apply D2|]. split; [vm_compute; reflexivity|]. vm_compute; reflexivity.
  - exists (cx_work had_d 12 3 7), (cx_regs had_d 15). eexists _, _, _. split; [apply D3|]. split; [apply D2|]. split; [vm_compute; reflexivity|]. vm_compute; reflexivity.
  - exists (cx_work 0 12 3 7), (cx_regs 0 15). eexists _, _, _. split; [apply D3|]. split; [apply D2|]. split; [vm_compute; reflexivity|]. vm_compute; reflexivity.
  - exists (cx_work tk_d 12 3 9), (cx_regs tk_d 15). eexists _, _, _. split; [apply D3|]. split; [apply D2|]. split; [vm_compute; reflexivity|]. vm_compute; reflexivity.
  - exists (cx_work 0 4 3 2), (cx_regs 0 2). eexists _, _, _. split; [apply D3|]. split; [apply D2|]. split; [vm_compute; reflexivity|]. vm_compute; reflexivity.
Qed.
Lemma cx_positive : ~ NegativeSum (nth 6 cx_em []) (nth 6 cx_had []) (nth 6 cx_tk []) (nth 6 cx_mu []).
Proof.
  assert (S : forall sel, 0 <= SpecPFWrap.w16 (sum_where sel t_pt (nth 6 cx_tk []))).
    { intros sel. pose proof (MapiFacts.sum_where_le sel t_pt (nth 6 cx_tk [])) as B. assert (X : forallb (fun t => 0 <=? t_pt t) (nth 6 cx_tk []) = true) by (vm_compute; reflexivity).
      rewrite forallb_forall in X. specialize (B (fun t Ht => proj1 (Z.leb_le _ _) (X t Ht))). assert (T : sumZ (map t_pt (nth 6 cx_tk [])) = 130) by (vm_compute; reflexivity). rewrite T in B.
      unfold SpecPFWrap.w16. rewrite wrapS_id by (unfold inS; lia). lia. }
    intros [(k & e & _ & H)|(h & c & _ & H)]; apply Z.lt_nge in H; apply H; clear H; [unfold em_tksum_w, em_tksum|unfold had_tksum_w]; apply S.
Qed.
Lemma cx_keep : ~ KeepConflict_w (nth 6 cx_em []) (nth 6 cx_had []) (nth 6 cx_tk []) (nth 6 cx_mu []).
Proof.
  intros (h & c & k & e & E & H & _). apply nth_error_In in E. assert (X : forallb (fun c => negb (h_isem c)) (nth 6 cx_had []) = true) by (vm_compute; reflexivity).
    rewrite forallb_forall in X. specialize (X c E). rewrite H in X. discriminate.
Qed.
Lemma cx_one : ~ ErrOneConflict (nth 6 cx_em []) (nth 6 cx_had []) (nth 6 cx_tk []) (nth 6 cx_mu []).
Proof.
  intros (i & t & h & c & E & H & _). apply nth_error_In in E. assert (X : forallb (fun t => negb (t_pterr t =? 1)) (nth 6 cx_tk []) = true) by (vm_compute; reflexivity).
    rewrite forallb_forall in X. specialize (X t E). rewrite H in X. discriminate.
Qed.
Lemma cx_ref : exists ref, pfalgo3_full_ref mem0 10 (nth 6 cx_em []) (nth 6 cx_had []) (nth 6 cx_tk []) (nth 6 cx_mu []) = Ok ref /\ map c_pt (firstn 3 (o_ch ref)) = [100; 30; 0] /\ map c_id (firstn 2 (o_ch ref)) = [PID_Charged; PID_Muon] /\
  map n_pt (firstn 2 (o_pho ref)) = [60; 0] /\ map n_pt (firstn 2 (o_ne ref)) = [100; 0].
Proof.
  eexists. split; [vm_compute; reflexivity|]. split; [vm_compute; reflexivity|]. split; [vm_compute; reflexivity|]. split; vm_compute; reflexivity.
Qed.
Lemma cx_junk : forall i, ne_ok (junk_tmp mem0 i).
Proof. intros i. cbn. unfold ne_ok, inS, inU. cbn. lia. Qed.
Lemma cx_hw : exists o, pfalgo3_full mem0 10 (nth 6 cx_em []) (nth 6 cx_had []) (nth 6 cx_tk []) (nth 6 cx_mu []) = Ok o /\ forallb (fun n => alpha_sum 0 (o_ch o) n <? 2147483648) (o_pho o ++ o_ne o) = true.
Proof. eexists. split; [vm_compute; reflexivity|]. vm_compute; reflexivity. Qed.
(** none of the three differences occurs in its central region, and there are a
    muon, a charged hadron, a photon and a neutral hadron *)
Example C98_hyp_region : ~ NegativeSum (nth 6 cx_em []) (nth 6 cx_had []) (nth 6 cx_tk []) (nth 6 cx_mu []) /\
  ~ KeepConflict_w (nth 6 cx_em []) (nth 6 cx_had []) (nth 6 cx_tk []) (nth 6 cx_mu []) /\
  ~ ErrOneConflict (nth 6 cx_em []) (nth 6 cx_had []) (nth 6 cx_tk []) (nth 6 cx_mu []) /\
  (exists ref, pfalgo3_full_ref mem0 10 (nth 6 cx_em []) (nth 6 cx_had []) (nth 6 cx_tk []) (nth 6 cx_mu []) = Ok ref /\ map c_pt (firstn 3 (o_ch ref)) = [100; 30; 0] /\ map c_id (firstn 2 (o_ch ref)) = [PID_Charged; PID_Muon] /\
  map n_pt (firstn 2 (o_pho ref)) = [60; 0] /\ map n_pt (firstn 2 (o_ne ref)) = [100; 0]) /\
  (forall i, ne_ok (junk_tmp mem0 i)) /\
  exists o, pfalgo3_full mem0 10 (nth 6 cx_em []) (nth 6 cx_had []) (nth 6 cx_tk []) (nth 6 cx_mu []) = Ok o /\ forallb (fun n => alpha_sum 0 (o_ch o) n <? 2147483648) (o_pho o ++ o_ne o) = true.
Proof. exact (conj cx_positive (conj cx_keep (conj cx_one (conj cx_ref (conj cx_junk cx_hw))))). Qed.

Example C98_hyp_origin : everywhere (fun t => -392 <= t_phi t <= 391) (ev_tk cx_event) /\ everywhere (fun h => -392 <= h_phi h <= 391) (ev_had cx_event) /\
  everywhere (fun x => -392 <= e_phi x <= 391) (ev_em cx_event) /\ sumZ (map t_pt (nth 6 cx_tk [])) <= 32767.
Proof.
  split; [apply hot_every; [|repeat apply Forall_cons; [..|apply Forall_nil]]; cbn; lia|]. split; [apply hot_every; [|repeat apply Forall_cons; [..|apply Forall_nil]]; cbn; lia|].
  split; [apply hot_every; [|repeat apply Forall_cons; [..|apply Forall_nil]]; cbn; lia|]. vm_compute. discriminate.
Qed.

(** Without the bound on the sum a photon may appear although no EM cluster
    arrived at all: the tracks at the centre of the region are linked to the
    cleared slots of the EM array, and their sum wraps around. *)
Definition gx_event : event := mkEvent (hot 12 15 1 had0 []) (hot 12 12 1 em0 []) (hot 24 10 2 tk0 [mkTk 20000 10 1 2 3 true; mkTk 20000 10 (-1) 0 3 true]) (hot 4 2 0 mu0 []).
Definition gx_tk := match regionize_track_ref cfg_TESTMP7 tk_d (cx_work tk_d 12 3 9) (map (map r_of_tk) (ev_tk gx_event)) (cx_regs tk_d 15) with Ok (o, _, _) => map (map tk_of_r) o | _ => [] end.
Definition gx_had := repeat (repeat had0 15) 18.
Definition gx_em := repeat (repeat em0 15) 18.
Definition gx_mu := repeat (repeat mu0 2) 18.
Lemma gx_runs : complete cfg_TESTMP7 gx_event /\ in_range gx_event /\ had_reference cfg_TESTMP7 gx_event gx_had /\ other_regions cfg_TESTMP7 gx_event gx_em gx_tk gx_mu.
Proof.
  assert (D2 : forall A (d : A) n k, dims2 n k (repeat (repeat (rclear d) k) n)) by (intros; apply dims2_blank).
  assert (D3 : forall A (d : A) n m k, dims3 n m k (cx_work d n m k)) by (intros; apply dims3_blank).
  split; [|split; [|split; [|split; [|split]]]].
  - split; [apply hot_fibres; cbn; lia|]. split; [apply hot_fibres; cbn; lia|]. split; apply hot_fibres; cbn; lia.
  - unfold in_range. cbn [ev_had ev_em ev_tk ev_mu gx_event].
    split; [apply hot_every; [|apply Forall_nil]; unfold had_ok, inS; cbn; lia|].
    split; [apply hot_every; [|apply Forall_nil]; unfold em_ok, inS; cbn; lia|].
    split; [apply hot_every; [|repeat apply Forall_cons; [..|apply Forall_nil]]; unfold tk_ok, inS; cbn; lia|].
    apply hot_every; [|apply Forall_nil]; unfold mu_ok, inS; cbn; lia.
  - exists (cx_work had_d 12 3 7), (cx_regs had_d 15). eexists _, _, _. split; [apply D3|]. split; [apply D2|]. split; [vm_compute; reflexivity|]. vm_compute; reflexivity.
  - exists (cx_work 0 12 3 7), (cx_regs 0 15). eexists _, _, _. split; [apply D3|]. split; [apply D2|]. split; [vm_compute; reflexivity|]. vm_compute; reflexivity.
  - exists (cx_work tk_d 12 3 9), (cx_regs tk_d 15). eexists _, _, _. split; [apply D3|]. split; [apply D2|]. split; [vm_compute; reflexivity|]. vm_compute; reflexivity.
  - exists (cx_work 0 4 3 2), (cx_regs 0 2). eexists _, _, _. split; [apply D3|]. split; [apply D2|]. split; [vm_compute; reflexivity|]. vm_compute; reflexivity.
Qed.
Lemma gx_photon : exists o, pfalgo3_full mem0 10 (nth 6 gx_em []) (nth 6 gx_had []) (nth 6 gx_tk []) (nth 6 gx_mu []) = Ok o /\ map n_pt (firstn 2 (o_pho o)) = [25536; 0].
Proof. eexists. split; [vm_compute; reflexivity|]. vm_compute; reflexivity. Qed.
Theorem C98_photon_from_nothing_refuted : exists c e had em tk mu r mem o x, (NSELCALO c <= NCALO c)%nat /\ complete c e /\ in_range e /\
  had_reference c e had /\ other_regions c e em tk mu /\ (r < 18)%nat /\
  pfalgo3_full mem (NSELCALO c) (nth r em []) (nth r had []) (nth r tk []) (nth r mu []) = Ok o /\
  everywhere (fun u => u = em0) (ev_em e) /\ In x (o_pho o) /\ 0 < n_pt x.
Proof.
  destruct gx_runs as (C & R & H & O). destruct gx_photon as (o & E & P). destruct (o_pho o) as [|x l] eqn:Eo; [discriminate|].
  exists cfg_TESTMP7, gx_event, gx_had, gx_em, gx_tk, gx_mu, 6%nat, mem0, o, x. split; [cbn; lia|]. split; [exact C|]. split; [exact R|]. split; [exact H|]. split; [exact O|]. split; [lia|].
  split; [exact E|]. split; [apply hot_every; [reflexivity|apply Forall_nil]|]. rewrite Eo. split; [left; reflexivity|]. cbn [firstn map] in P. injection P as P _. lia.
Qed.
Print Assumptions C98_photon_from_nothing_refuted.
