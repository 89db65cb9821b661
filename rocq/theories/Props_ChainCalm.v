(** C98 for calm events: a condition on the fibres under which the firmware and
    the reference agree on every region. *)
From Verif Require Import Base BaseFacts Data PFHw PFRef SpecPF SpecOut TestUtils Puppi SpecPuppi Regionizer SpecRegion RegTest Witness SpecChain ChainProofs SpecChainEnergy ChainEnergy ChainCalm Props_Chain Props_ChainEnergy Props_Puppi.

(** If the tracks and EM clusters of every three neighbouring sectors sum up to
    numbers of sixteen bits, their errors are small, no track has an error of 1 and
    no hadronic cluster is flagged EM-like, then both chains run to the end on every
    region and their candidates agree, whatever is in memory. *)
Theorem C98_calm : forall c e had had' em tk mu r mem mem', (7 <= NCALO c)%nat -> (NSELCALO c <= NCALO c)%nat -> complete c e -> in_range e -> calm e -> plain e ->
  had_firmware c e had -> had_reference c e had' -> other_regions c e em tk mu -> (r < 18)%nat ->
  exists ref o, pfalgo3_full_ref mem' (NSELCALO c) (nth r em []) (nth r had' []) (nth r tk []) (nth r mu []) = Ok ref /\
    pfalgo3_full mem (NSELCALO c) (nth r em []) (nth r had []) (nth r tk []) (nth r mu []) = Ok o /\ agree ref o.
Proof. exact c98_calm. Qed.
Print Assumptions C98_calm.

(** ... and after PUPPI the weighted neutral candidates agree too, if the tracks of
    three neighbouring sectors sum up to at most 1448: the sums of PUPPI then fit. *)
Theorem C98_calm_puppi : forall c e had had' em tk mu r mem mem' tab z, (7 <= NCALO c)%nat -> (NSELCALO c <= NCALO c)%nat -> complete c e -> in_range e -> calm e -> plain e -> quiet e ->
  had_firmware c e had -> had_reference c e had' -> other_regions c e em tk mu -> (r < 18)%nat -> (forall i, ne_ok (junk_tmp mem i)) -> table_ok tab ->
  exists ref o a b, pfalgo3_full_ref mem' (NSELCALO c) (nth r em []) (nth r had' []) (nth r tk []) (nth r mu []) = Ok ref /\
    pfalgo3_full mem (NSELCALO c) (nth r em []) (nth r had []) (nth r tk []) (nth r mu []) = Ok o /\ agree ref o /\
    simple_puppi_hw tab (o_ch o) (o_pho o ++ o_ne o) z = Ok a /\ simple_puppi_ref tab (o_ch ref) (o_pho ref ++ o_ne ref) z = Ok b /\ Forall2 same_weighted a b.
Proof. exact c98_calm_puppi. Qed.
Print Assumptions C98_calm_puppi.

(** the event of C98 (see C98_hyp, C101_hyp_calm) *)
Lemma cx_quiet : forallb (fun ip => near_sum t_pt t_pt (sector_tracks cx_event) ip <=? 1448) (seq 0 6) = true.
Proof. vm_compute. reflexivity. Qed.
Example C98_hyp_calm : calm cx_event /\ quiet cx_event /\ plain cx_event.
Proof.
  split; [exact C101_hyp_calm|]. split; [intros ip Hp; pose proof cx_quiet as F; rewrite forallb_forall in F; apply Z.leb_le, F, in_seq; lia|]. split; apply hot_every; try (repeat apply Forall_cons; [..|apply Forall_nil]); cbn; try lia; reflexivity.
Qed.

(** C101 behind PUPPI: on a calm event the weighted neutral candidates of all
    regions together have no more transverse momentum than the clusters that
    arrived, whatever the vertex and the table. *)
Theorem C101_weighted : forall c e had em tk mu outs tab z ws, (NSELCALO c <= NCALO c)%nat -> complete c e -> in_range e -> calm e -> had_reference c e had -> other_regions c e em tk mu ->
  all_regions (hw_run c em had tk mu) outs -> table_ok tab -> Forall2 (fun o w => simple_puppi_hw tab (o_ch o) (o_pho o ++ o_ne o) z = Ok w) outs ws ->
  0 <= sumZ (map (fun w => sumZ (map n_puppi w)) ws) <= em_arriving e + had_arriving e.
Proof. exact c101_weighted. Qed.
Print Assumptions C101_weighted.

(** the event of C98 with the table of C20: some of the 160 units are kept *)
Definition weigh18 : list (list PFNe) :=
  map (fun o => match simple_puppi_hw px_tab (o_ch o) (o_pho o ++ o_ne o) 0 with Ok w => w | UB _ => [] end) (run18 cx_em cx_had cx_tk cx_mu).
Lemma cx_weighs : forallb (fun o => match simple_puppi_hw px_tab (o_ch o) (o_pho o ++ o_ne o) 0 with Ok _ => true | UB _ => false end) (run18 cx_em cx_had cx_tk cx_mu) = true.
Proof. vm_compute. reflexivity. Qed.
Lemma cx_kept : 0 <? sumZ (map (fun w => sumZ (map n_puppi w)) weigh18) = true.
Proof. vm_compute. reflexivity. Qed.
Example C101_hyp_weighted : Forall2 (fun o w => simple_puppi_hw px_tab (o_ch o) (o_pho o ++ o_ne o) 0 = Ok w) (run18 cx_em cx_had cx_tk cx_mu) weigh18 /\ 0 < sumZ (map (fun w => sumZ (map n_puppi w)) weigh18).
Proof.
  split; [|apply Z.ltb_lt; exact cx_kept]. pose proof cx_weighs as F. unfold weigh18. revert F. generalize (run18 cx_em cx_had cx_tk cx_mu) as l. induction l as [|o l IH]; intros F; [constructor|].
  cbn [forallb] in F. apply andb_prop in F as [F0 F]. cbn [map]. constructor; [|exact (IH F)]. destruct (simple_puppi_hw _ _ _ _); [reflexivity|discriminate].
Qed.

(** The condition on EM-like hadronic clusters matters (the witness of
    C01_keep_flag_refuted on the fibres of one sector). *)
Definition kx_event : event := mkEvent (hot 12 15 1 had0 kw_had) (hot 12 12 1 em0 kw_em) (hot 24 10 2 tk0 kw_tk) (hot 4 2 0 mu0 []).
Definition kx_had := match regionize_hadcalo_ref cfg_TESTMP7 had_d (cx_work had_d 12 3 7) (map (map r_of_had) (ev_had kx_event)) (cx_regs had_d 15) with Ok (o, _, _) => map (map had_of_r) o | _ => [] end.
Definition kx_em := match regionize_emcalo_ref cfg_TESTMP7 0 (cx_work 0 12 3 7) (map (map r_of_em) (ev_em kx_event)) (cx_regs 0 15) with Ok (o, _, _) => map (map em_of_r) o | _ => [] end.
Definition kx_tk := match regionize_track_ref cfg_TESTMP7 tk_d (cx_work tk_d 12 3 9) (map (map r_of_tk) (ev_tk kx_event)) (cx_regs tk_d 15) with Ok (o, _, _) => map (map tk_of_r) o | _ => [] end.
Lemma kx_runs : complete cfg_TESTMP7 kx_event /\ in_range kx_event /\ had_firmware cfg_TESTMP7 kx_event kx_had /\ had_reference cfg_TESTMP7 kx_event kx_had /\ other_regions cfg_TESTMP7 kx_event kx_em kx_tk gx_mu.
Proof.
  assert (D2 : forall A (d : A) n k, dims2 n k (repeat (repeat (rclear d) k) n)) by (intros; apply dims2_blank).
  assert (D3 : forall A (d : A) n m k, dims3 n m k (cx_work d n m k)) by (intros; apply dims3_blank).
  split; [|split; [|split; [|split; [|split; [|split]]]]].
  - split; [apply hot_fibres; cbn; lia|]. split; [apply hot_fibres; cbn; lia|]. split; apply hot_fibres; cbn; lia.
  - unfold in_range. cbn [ev_had ev_em ev_tk ev_mu kx_event].
    split; [apply hot_every; [|repeat apply Forall_cons; [..|apply Forall_nil]]; unfold had_ok, inS; cbn; lia|].
    split; [apply hot_every; [|repeat apply Forall_cons; [..|apply Forall_nil]]; unfold em_ok, inS; cbn; lia|].
    split; [apply hot_every; [|repeat apply Forall_cons; [..|apply Forall_nil]]; unfold tk_ok, inS; cbn; lia|].
    apply hot_every; [|apply Forall_nil]; unfold mu_ok, inS; cbn; lia.
  - exists (fun _ _ => rclear had_d), (cx_work had_d 12 3 7), (cx_regs had_d 15). eexists _, _. split; [apply D3|]. split; [apply D2|]. split; [vm_compute; reflexivity|]. vm_compute; reflexivity.
  - exists (cx_work had_d 12 3 7), (cx_regs had_d 15). eexists _, _, _. split; [apply D3|]. split; [apply D2|]. split; [vm_compute; reflexivity|]. vm_compute; reflexivity.
  - exists (cx_work 0 12 3 7), (cx_regs 0 15). eexists _, _, _. split; [apply D3|]. split; [apply D2|]. split; [vm_compute; reflexivity|]. vm_compute; reflexivity.
  - exists (cx_work tk_d 12 3 9), (cx_regs tk_d 15). eexists _, _, _. split; [apply D3|]. split; [apply D2|]. split; [vm_compute; reflexivity|]. vm_compute; reflexivity.
  - destruct gx_runs as (_ & _ & _ & (_ & _ & M)). exact M.
Qed.
Lemma kx_near : forallb (fun ip => (near_sum t_pt t_pt (sector_tracks kx_event) ip <=? 32767) && (near_sum t_pt (fun t => t_pterr t * t_pterr t) (sector_tracks kx_event) ip <=? 1431655765) &&
  (near_sum e_pt e_pt (fun s => firstn 12 (nth s (ev_em kx_event) [])) ip <=? 32767)) (seq 0 6) = true.
Proof. vm_compute. reflexivity. Qed.
Lemma kx_calm : calm kx_event /\ everywhere (fun t => t_pterr t <> 1) (ev_tk kx_event).
Proof.
  split; [split|].
  - intros ip Hp. pose proof kx_near as F. rewrite forallb_forall in F. specialize (F ip ltac:(apply in_seq; lia)). repeat (apply andb_prop in F as [F ?]). repeat match goal with h : (_ <=? _) = true |- _ => apply Z.leb_le in h end. repeat split; assumption.
  - apply hot_every; [cbn; lia|repeat apply Forall_cons; [..|apply Forall_nil]; cbn; lia].
  - apply hot_every; [cbn; lia|repeat apply Forall_cons; [..|apply Forall_nil]; cbn; lia].
Qed.
Definition kx_diff : bool :=
  match pfalgo3_full mem0 10 (nth 6 kx_em []) (nth 6 kx_had []) (nth 6 kx_tk []) (nth 6 gx_mu []), pfalgo3_full_ref mem0 10 (nth 6 kx_em []) (nth 6 kx_had []) (nth 6 kx_tk []) (nth 6 gx_mu []) with
  | Ok o, Ok r => match o_ne r, o_ne o with a :: _, b :: _ => negb (pf_equals_ne a b) | _, _ => false end
  | _, _ => false
  end.
Lemma kx_differs : kx_diff = true.
Proof. vm_compute. reflexivity. Qed.
Theorem C98_em_like_refuted : exists c e had em tk mu r mem o ref, (7 <= NCALO c)%nat /\ (NSELCALO c <= NCALO c)%nat /\ complete c e /\ in_range e /\ calm e /\ everywhere (fun t => t_pterr t <> 1) (ev_tk e) /\
  had_firmware c e had /\ had_reference c e had /\ other_regions c e em tk mu /\ (r < 18)%nat /\
  pfalgo3_full mem (NSELCALO c) (nth r em []) (nth r had []) (nth r tk []) (nth r mu []) = Ok o /\
  pfalgo3_full_ref mem (NSELCALO c) (nth r em []) (nth r had []) (nth r tk []) (nth r mu []) = Ok ref /\ ~ agree ref o.
Proof.
  destruct kx_runs as (C & R & HF & H & O). destruct kx_calm as [K1 K2]. pose proof kx_differs as D. unfold kx_diff in D.
  destruct (pfalgo3_full mem0 10 (nth 6 kx_em []) (nth 6 kx_had []) (nth 6 kx_tk []) (nth 6 gx_mu [])) as [o|] eqn:E1; [|discriminate].
  destruct (pfalgo3_full_ref mem0 10 (nth 6 kx_em []) (nth 6 kx_had []) (nth 6 kx_tk []) (nth 6 gx_mu [])) as [ref|] eqn:E2; [|discriminate].
  exists cfg_TESTMP7, kx_event, kx_had, kx_em, kx_tk, gx_mu, 6%nat, mem0, o, ref. split; [cbn; lia|]. split; [cbn; lia|]. split; [exact C|]. split; [exact R|]. split; [exact K1|]. split; [exact K2|]. split; [exact HF|].
  split; [exact H|]. split; [exact O|]. split; [lia|]. split; [exact E1|]. split; [exact E2|]. intros (_ & _ & A & _). destruct A as [|a b la lb X _]; [discriminate|]. rewrite X in D. discriminate.
Qed.
Print Assumptions C98_em_like_refuted.
