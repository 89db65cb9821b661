(** C101: the candidates of all regions have no more energy than arrived. *)
From Verif Require Import Base BaseFacts Data PFHw PFRef SpecPF PFWrap Regionizer SpecRegion RegTest Witness SpecChain ChainProofs SpecChainEnergy ChainEnergy ChainCalm Props_Chain.

(** Charged candidates: whatever wraps around, the regions together have no more
    transverse momentum than the tracks on the fibres, each counted once for
    every region it belongs to. *)
Theorem C101_charged : forall c e had em tk mu outs, (NSELCALO c <= NCALO c)%nat -> complete c e -> in_range e -> had_reference c e had -> other_regions c e em tk mu ->
  all_regions (fun r o => hw_run c em had tk mu r o \/ ref_run c em had tk mu r o) outs -> found_ch outs <= tk_arriving e.
Proof. exact c101_charged. Qed.
Print Assumptions C101_charged.

(** ... and exactly that, if every track is below the cut for tracks without a
    cluster and there is room for all of them. *)
Theorem C101_charged_exact : forall c e had em tk mu outs, (NSELCALO c <= NCALO c)%nat -> complete c e -> in_range e -> had_reference c e had -> other_regions c e em tk mu ->
  everywhere soft (ev_tk e) -> (forall ie ip, (ie < 3)%nat -> (ip < 6)%nat -> room c e ie ip) ->
  all_regions (fun r o => hw_run c em had tk mu r o \/ ref_run c em had tk mu r o) outs -> found_ch outs = tk_arriving e.
Proof. exact c101_exact. Qed.
Print Assumptions C101_charged_exact.

(** Photons and neutral hadrons: the same with the EM and the hadronic clusters,
    if no sum exceeds its type. *)
Theorem C101_neutral : forall c e had em tk mu outs, (NSELCALO c <= NCALO c)%nat -> complete c e -> in_range e -> had_reference c e had -> other_regions c e em tk mu ->
  all_regions (fun r o => hw_run_fit c em had tk mu r o \/ ref_run_fit c em had tk mu r o) outs -> found_pho outs <= em_arriving e /\ found_ne outs <= had_arriving e.
Proof. exact c101_neutral. Qed.
Print Assumptions C101_neutral.

(** That no sum exceeds its type can be seen on the fibres: if the tracks and the
    EM clusters of every three neighbouring sectors sum up to numbers of sixteen
    bits and their errors are small, both particle flows run to the end on every
    region, whatever is in memory ... *)
Theorem C101_calm_defined : forall c e had em tk mu r mem, (NSELCALO c <= NCALO c)%nat -> complete c e -> in_range e -> calm e -> had_reference c e had -> other_regions c e em tk mu -> (r < 18)%nat ->
  (exists o, pfalgo3_full mem (NSELCALO c) (nth r em []) (nth r had []) (nth r tk []) (nth r mu []) = Ok o /\ hw_run_fit c em had tk mu r o) /\
  (exists o, pfalgo3_full_ref mem (NSELCALO c) (nth r em []) (nth r had []) (nth r tk []) (nth r mu []) = Ok o /\ ref_run_fit c em had tk mu r o).
Proof. exact c101_calm. Qed.
Print Assumptions C101_calm_defined.
(** ... and keep the budget. *)
Theorem C101_calm : forall c e had em tk mu outs, (NSELCALO c <= NCALO c)%nat -> complete c e -> in_range e -> calm e -> had_reference c e had -> other_regions c e em tk mu ->
  all_regions (fun r o => hw_run c em had tk mu r o \/ ref_run c em had tk mu r o) outs -> found_pho outs <= em_arriving e /\ found_ne outs <= had_arriving e.
Proof. exact c101_calm_budget. Qed.
Print Assumptions C101_calm.

(** the event of C98 through all eighteen regions *)
Definition out0 : pfout := mkOut [] [] [] [].
Definition run18 (em : list (list EmCalo)) had tk mu : list pfout :=
  map (fun r => match pfalgo3_full mem0 10 (nth r em []) (nth r had []) (nth r tk []) (nth r mu []) with Ok o => o | UB _ => out0 end) (seq 0 18).
Definition defined18 (em : list (list EmCalo)) had tk mu : bool :=
  forallb (fun r => match pfalgo3_full mem0 10 (nth r em []) (nth r had []) (nth r tk []) (nth r mu []) with Ok _ => true | UB _ => false end) (seq 0 18).
Lemma run18_ok em had tk mu : defined18 em had tk mu = true -> all_regions (hw_run cfg_TESTMP7 em had tk mu) (run18 em had tk mu).
Proof.
  intros D. split; [reflexivity|]. intros r o E. unfold run18 in E. rewrite nth_error_map in E. destruct (nth_error (seq 0 18) r) as [r'|] eqn:S; [|discriminate]. injection E as <-.
  assert (L : (r < 18)%nat) by (rewrite <- (seq_length 18 0); apply nth_error_Some; congruence). apply nth_error_nth with (d := 0%nat) in S. rewrite seq_nth in S by exact L. cbn in S. subst r'.
  unfold defined18 in D. rewrite forallb_forall in D. specialize (D r ltac:(apply in_seq; lia)). exists mem0. change (NSELCALO cfg_TESTMP7) with 10%nat. destruct (pfalgo3_full _ _ _ _ _ _); [reflexivity|discriminate].
Qed.
Definition fit18 (em : list (list EmCalo)) (tk : list (list Tk)) : bool :=
  forallb (fun r => (sumZ (map t_pt (nth r tk [])) <=? 32767) && (sumZ (map (fun t => t_pterr t * t_pterr t) (nth r tk [])) <=? 1431655765) &&
    (sumZ (map e_pt (nth r em [])) <=? 32767) && forallb (fun e => e_pterr e <=? 23170) (nth r em [])) (seq 0 18).
Lemma fit18_ok c e had em tk mu r : complete c e -> in_range e -> had_reference c e had -> other_regions c e em tk mu -> fit18 em tk = true -> (r < 18)%nat ->
  sums_fit (nth r em []) (nth r had []) (nth r tk []) (nth r mu []) (Some 131071) false.
Proof.
  intros C R H O F L. destruct (c98_legal c e had em tk mu r C R H O L) as (P & _). apply no_overflow_fits; [exact P|]. unfold fit18 in F. rewrite forallb_forall in F. specialize (F r ltac:(apply in_seq; lia)).
  repeat (apply andb_prop in F as [F ?]). repeat match goal with h : (_ <=? _) = true |- _ => apply Z.leb_le in h end. split; [assumption|]. split; [assumption|]. split; [assumption|].
  apply Forall_forall. intros x Hx. match goal with h : forallb _ _ = true |- _ => rewrite forallb_forall in h; apply Z.leb_le; exact (h x Hx) end.
Qed.
Lemma cx_defined : defined18 cx_em cx_had cx_tk cx_mu = true.
Proof. vm_compute. reflexivity. Qed.
Lemma cx_fit : fit18 cx_em cx_tk = true.
Proof. vm_compute. reflexivity. Qed.
Example C101_hyp : (NSELCALO cfg_TESTMP7 <= NCALO cfg_TESTMP7)%nat /\ complete cfg_TESTMP7 cx_event /\ in_range cx_event /\ had_reference cfg_TESTMP7 cx_event cx_had /\ other_regions cfg_TESTMP7 cx_event cx_em cx_tk cx_mu /\
  all_regions (hw_run_fit cfg_TESTMP7 cx_em cx_had cx_tk cx_mu) (run18 cx_em cx_had cx_tk cx_mu).
Proof.
  destruct C98_hyp as (_ & N & C & R & _ & H & O). split; [exact N|]. split; [exact C|]. split; [exact R|]. split; [exact H|]. split; [exact O|].
  destruct (run18_ok _ _ _ _ cx_defined) as [L A]. split; [exact L|]. intros r o E. split; [exact (A r o E)|].
  apply (fit18_ok cfg_TESTMP7 cx_event); [exact C|exact R|exact H|exact O|exact cx_fit|]. rewrite <- L. apply nth_error_Some. congruence.
Qed.
Lemma cx_near : forallb (fun ip => (near_sum t_pt t_pt (sector_tracks cx_event) ip <=? 32767) && (near_sum t_pt (fun t => t_pterr t * t_pterr t) (sector_tracks cx_event) ip <=? 1431655765) &&
  (near_sum e_pt e_pt (fun s => firstn 12 (nth s (ev_em cx_event) [])) ip <=? 32767)) (seq 0 6) = true.
Proof. vm_compute. reflexivity. Qed.
Lemma cx_errs : forallb (forallb (fun x => e_pterr x <=? 23170)) (ev_em cx_event) = true.
Proof. vm_compute. reflexivity. Qed.
Example C101_hyp_calm : calm cx_event.
Proof.
  split.
  - intros ip Hp. pose proof cx_near as F. rewrite forallb_forall in F. specialize (F ip ltac:(apply in_seq; lia)). repeat (apply andb_prop in F as [F ?]). repeat match goal with h : (_ <=? _) = true |- _ => apply Z.leb_le in h end. repeat split; assumption.
  - apply Forall_forall. intros f Hf. apply Forall_forall. intros x Hx. pose proof cx_errs as F. rewrite forallb_forall in F. specialize (F f Hf). rewrite forallb_forall in F. apply Z.leb_le. exact (F x Hx).
Qed.
(** the charged budget is met exactly, and there are photons and neutrals *)
Example C101_hyp_values : let outs := run18 cx_em cx_had cx_tk cx_mu in
  found_ch outs = 130 /\ tk_arriving cx_event = 130 /\ found_pho outs = 60 /\ em_arriving cx_event = 60 /\ found_ne outs = 100 /\ had_arriving cx_event = 200.
Proof. vm_compute. repeat split. Qed.

(** an event of soft tracks in an even sector and in the overlap of two slices:
    45 units arrive, 150 are expected and found *)
Definition sx_event : event := mkEvent (ev_had gx_event) (ev_em gx_event) (hot 24 10 4 tk0 [mkTk 30 10 100 2 3 true; mkTk 15 10 (-1) 0 3 false]) (ev_mu gx_event).
Definition sx_tk := match regionize_track_ref cfg_TESTMP7 tk_d (cx_work tk_d 12 3 9) (map (map r_of_tk) (ev_tk sx_event)) (cx_regs tk_d 15) with Ok (o, _, _) => map (map tk_of_r) o | _ => [] end.
Lemma sx_runs : complete cfg_TESTMP7 sx_event /\ in_range sx_event /\ had_reference cfg_TESTMP7 sx_event gx_had /\ other_regions cfg_TESTMP7 sx_event gx_em sx_tk gx_mu.
Proof.
  destruct gx_runs as ((C1 & C2 & _ & C4) & (R1 & R2 & _ & R4) & H & (E & _ & M)). split; [|split; [|split; [|split; [|split]]]].
  - split; [exact C1|]. split; [exact C2|]. split; [apply hot_fibres; cbn; lia|exact C4].
  - split; [exact R1|]. split; [exact R2|]. split; [|exact R4]. cbn [ev_tk sx_event]. apply hot_every; [|repeat apply Forall_cons; [..|apply Forall_nil]]; unfold tk_ok, inS; cbn; lia.
  - exact H.
  - exact E.
  - exists (cx_work tk_d 12 3 9), (cx_regs tk_d 15). eexists _, _, _. split; [apply dims3_blank|]. split; [apply dims2_blank|]. split; [vm_compute; reflexivity|]. vm_compute; reflexivity.
  - exact M.
Qed.
Lemma sx_defined : defined18 gx_em gx_had sx_tk gx_mu = true.
Proof. vm_compute. reflexivity. Qed.
Lemma sx_room : forall ie ip, (ie < 3)%nat -> (ip < 6)%nat -> room cfg_TESTMP7 sx_event ie ip.
Proof.
  assert (X : forall s, (s < 12)%nat -> forall ie, (tracks_in sx_event s ie <= 2)%nat).
  { intros s Hs ie. unfold tracks_in. do 12 (destruct s as [|s]; [cbn; repeat match goal with |- context [if ?b then _ else _] => destruct b end; cbn; lia|]). lia. }
  intros ie ip He Hp. assert (S : forall j, (region_sector ip j < 12)%nat) by (intros j; apply Nat.mod_upper_bound; lia). split; [intros j _; specialize (X _ (S j) ie); lia|].
  pose proof (X _ (S 0%nat) ie). pose proof (X _ (S 1%nat) ie). pose proof (X _ (S 2%nat) ie). cbn [NTRACK cfg_TESTMP7]. lia.
Qed.
Example C101_hyp_exact : (complete cfg_TESTMP7 sx_event /\ in_range sx_event /\ had_reference cfg_TESTMP7 sx_event gx_had /\ other_regions cfg_TESTMP7 sx_event gx_em sx_tk gx_mu) /\
  everywhere soft (ev_tk sx_event) /\ (forall ie ip, (ie < 3)%nat -> (ip < 6)%nat -> room cfg_TESTMP7 sx_event ie ip) /\
  all_regions (hw_run cfg_TESTMP7 gx_em gx_had sx_tk gx_mu) (run18 gx_em gx_had sx_tk gx_mu) /\ tk_arriving sx_event = 150.
Proof.
  split; [exact sx_runs|]. split; [apply hot_every; [|repeat apply Forall_cons; [..|apply Forall_nil]]; unfold soft; cbn; lia|]. split; [exact sx_room|]. split; [exact (run18_ok _ _ _ _ sx_defined)|]. vm_compute. reflexivity.
Qed.

(** The condition on the sums matters: photons out of nothing (C98). *)
Lemma gx_defined : defined18 gx_em gx_had gx_tk gx_mu = true.
Proof. vm_compute. reflexivity. Qed.
Theorem C101_wrapped_refuted : exists c e had em tk mu outs, (NSELCALO c <= NCALO c)%nat /\ complete c e /\ in_range e /\ had_reference c e had /\ other_regions c e em tk mu /\
  all_regions (hw_run c em had tk mu) outs /\ em_arriving e = 0 /\ had_arriving e = 0 /\ 0 < found_pho outs.
Proof.
  destruct gx_runs as (C & R & H & O). exists cfg_TESTMP7, gx_event, gx_had, gx_em, gx_tk, gx_mu, (run18 gx_em gx_had gx_tk gx_mu).
  split; [cbn; lia|]. split; [exact C|]. split; [exact R|]. split; [exact H|]. split; [exact O|]. split; [exact (run18_ok _ _ _ _ gx_defined)|].
  split; [vm_compute; reflexivity|]. split; [vm_compute; reflexivity|]. vm_compute. reflexivity.
Qed.
Print Assumptions C101_wrapped_refuted.
