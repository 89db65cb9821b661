(** C01, C03-C09, C11, C14, C15, C52: properties of the particle-flow algorithm. *)
From Verif Require Import Base Data PFHw PFRef TestUtils SpecLink SpecPF SpecOut SpecSort
  PFProofs PFTotal PFWrap SpecInert PFInert Witness WitnessProofs.

(** The hypothesis of most theorems below: the sums formed for one cluster fit
    their types ([sums_fit]).  It follows from bounds on the inputs alone. *)
Theorem C11_no_overflow_fits : forall em had track mu cap kv,
  phys em had track mu -> no_overflow em track -> sums_fit em had track mu cap kv.
Proof. exact no_overflow_fits. Qed.
Print Assumptions C11_no_overflow_fits.

(** ** C01: firmware = reference.
    Full statement: for every [phys] input, [agree r o].  It is false: see the
    three refutations.  What is proved: agreement outside those three cases
    (16-bit overflow of the sums of one cluster, track error 1, keep conflict), for inputs whose
    empty track slots carry no error. *)
Theorem C01_hw_eq_ref_partial : forall em had track mu mem1 mem2 nsel,
  phys em had track mu -> sums_fit em had track mu (Some 131071) false -> clean_empty track ->
  Forall (fun t => t_pterr t <> 1) track -> ~ KeepConflict em had track mu -> (nsel <= length had)%nat ->
  exists o r, pfalgo3_full mem1 nsel em had track mu = Ok o /\
              pfalgo3_full_ref mem2 nsel em had track mu = Ok r /\ agree r o.
Proof.
  exact (fun em had track mu mem1 mem2 nsel HP HO HC H1 HK Hn => hw_ref_agree em had track mu true HP HO HC H1 (or_intror HK) mem1 mem2 nsel Hn).
Qed.
Print Assumptions C01_hw_eq_ref_partial.
Example C01_hw_eq_ref_hyp : phys ev_em ev_had ev_tk ev_mu /\ sums_fit ev_em ev_had ev_tk ev_mu (Some 131071) false /\ clean_empty ev_tk /\
  Forall (fun t => t_pterr t <> 1) ev_tk /\ ~ KeepConflict ev_em ev_had ev_tk ev_mu /\ (2 <= length ev_had)%nat /\
  pfalgo3_full mem0 2 ev_em ev_had ev_tk ev_mu = Ok ev_out.
Proof. exact (conj ev_phys (conj ev_fit (conj ev_clean (conj ev_err (conj ev_no_conflict (conj (le_S _ _ (le_n 2)) ev_run)))))). Qed.

(** the sums of each cluster may fit although those of all tracks and clusters do not *)
Example sums_fit_beyond_no_overflow : phys lg_em lg_had lg_tk [] /\ sums_fit lg_em lg_had lg_tk [] (Some 131071) false /\
  ~ no_overflow lg_em lg_tk /\ exists out, pfalgo3_full mem0 3 lg_em lg_had lg_tk [] = Ok out /\ map c_pt (o_ch out) = map t_pt lg_tk.
Proof. split; [exact lg_phys|]. split; [exact lg_fit|]. split; [exact lg_not_no_overflow|]. eexists. split; vm_compute; reflexivity. Qed.

(** the same without the keep-conflict hypothesis, for the reference with its
    line 168 changed to [keep = false] (as in the firmware, line 240) *)
Theorem C01_hw_eq_ref_without_keep_partial : forall em had track mu mem1 mem2 nsel,
  phys em had track mu -> sums_fit em had track mu (Some 131071) false -> clean_empty track ->
  Forall (fun t => t_pterr t <> 1) track -> (nsel <= length had)%nat ->
  exists o r, pfalgo3_full mem1 nsel em had track mu = Ok o /\
              pfalgo3_full_ref_gen false mem2 nsel em had track mu = Ok r /\ agree r o.
Proof.
  exact (fun em had track mu mem1 mem2 nsel HP HO HC H1 Hn => hw_ref_agree em had track mu false HP HO HC H1 (or_introl eq_refl) mem1 mem2 nsel Hn).
Qed.
Print Assumptions C01_hw_eq_ref_without_keep_partial.
Example C01_hw_eq_ref_without_keep_hyp : phys kw_em kw_had kw_tk [] /\ sums_fit kw_em kw_had kw_tk [] (Some 131071) false /\ clean_empty kw_tk /\
  Forall (fun t => t_pterr t <> 1) kw_tk /\ (1 <= length kw_had)%nat.
Proof. split; [concrete|]. split; [apply no_overflow_fits; concrete|]. split; [concrete; discriminate|]. split; [concrete; discriminate|]. cbn; lia. Qed.

Theorem C01_keep_flag_refuted : exists em had track mu mem nsel o r,
  phys em had track mu /\ no_overflow em track /\ clean_empty track /\ Forall (fun t => t_pterr t <> 1) track /\
  (nsel <= length had)%nat /\
  pfalgo3_full mem nsel em had track mu = Ok o /\ pfalgo3_full_ref mem nsel em had track mu = Ok r /\ ~ agree r o.
Proof. exact kw_refutes. Qed.
Print Assumptions C01_keep_flag_refuted.

Theorem C01_track_error_one_refuted : exists em had track mu mem nsel o r,
  phys em had track mu /\ no_overflow em track /\ clean_empty track /\ ~ KeepConflict em had track mu /\
  (nsel <= length had)%nat /\
  pfalgo3_full mem nsel em had track mu = Ok o /\ pfalgo3_full_ref mem nsel em had track mu = Ok r /\ ~ agree r o.
Proof. exact e1_refutes. Qed.
Print Assumptions C01_track_error_one_refuted.

Theorem C01_sum_overflow_refuted : exists em had track mu mem nsel o r,
  phys em had track mu /\ clean_empty track /\ Forall (fun t => t_pterr t <> 1) track /\ ~ KeepConflict em had track mu /\
  (nsel <= length had)%nat /\
  pfalgo3_full mem nsel em had track mu = Ok o /\ pfalgo3_full_ref mem nsel em had track mu = Ok r /\ ~ agree r o.
Proof. exact ov_refutes. Qed.
Print Assumptions C01_sum_overflow_refuted.

(** All theorems below that assume a run [pfalgo3_full ... = Ok out] on the
    domain [phys]/[sums_fit] are about this kind of event: *)
Example run_hyp : phys ev_em ev_had ev_tk ev_mu /\ sums_fit ev_em ev_had ev_tk ev_mu (Some 131071) false /\ (2 <= length ev_had)%nat /\
  pfalgo3_full mem0 2 ev_em ev_had ev_tk ev_mu = Ok ev_out.
Proof. exact (conj ev_phys (conj ev_fit (conj (le_S _ _ (le_n 2)) ev_run))). Qed.

(** ** C03 *)
Theorem C03_charged_slot_is_track_or_empty : forall mem nsel em had track mu out,
  pfalgo3_full mem nsel em had track mu = Ok out ->
  length (o_ch out) = length track /\
  forall i tk, nth_error track i = Some tk -> exists c, nth_error (o_ch out) i = Some c /\
    ((c_pt c = t_pt tk /\ c_eta c = t_eta tk /\ c_phi c = t_phi tk /\ c_z0 c = t_z0 tk) \/ c = mkCh 0 0 0 0 0).
Proof.
  exact (fun mem nsel em had track mu out H => let S := pf_shape mem nsel em had track mu out H in
     conj (proj1 S) (proj1 (proj2 (proj2 (proj2 (proj2 S)))))).
Qed.
Print Assumptions C03_charged_slot_is_track_or_empty.
Example C03_charged_slot_hyp : pfalgo3_full mem0 2 ev_em ev_had ev_tk ev_mu = Ok ev_out.
Proof. exact ev_run. Qed.

Theorem C03_charged_kept_iff : forall em had track mu mem nsel out,
  phys em had track mu -> sums_fit em had track mu (Some 131071) false -> (nsel <= length had)%nat ->
  pfalgo3_full mem nsel em had track mu = Ok out ->
  length (o_ch out) = length track /\
  forall i tk, nth_error track i = Some tk -> exists c, nth_error (o_ch out) i = Some c /\
    let kept := MuTrack track mu i \/ Electron em track mu i tk \/ t_pt tk < (if t_tight tk then 80 else 40)
                \/ exists h, HadLinked em had track mu tk h in
    (kept -> c_pt c = t_pt tk /\ c_eta c = t_eta tk /\ c_phi c = t_phi tk /\ c_z0 c = t_z0 tk) /\
    (~ kept -> c = mkCh 0 0 0 0 0).
Proof. exact c03. Qed.
Print Assumptions C03_charged_kept_iff.

(** ** C04 *)
Theorem C04_muon_output : forall em had track mu mem nsel out,
  phys em had track mu -> (nsel <= length had)%nat ->
  pfalgo3_full mem nsel em had track mu = Ok out ->
  length (o_mu out) = length mu /\
  (forall j m, nth_error mu j = Some m ->
   (0 < m_pt m -> forall i tk, is_best (cand_mu_tk track m) i -> nth_error track i = Some tk ->
      nth_error (o_mu out) j = Some (mkCh (t_pt tk) (t_eta tk) (t_phi tk) PID_Muon (t_z0 tk)) /\
      0 < t_pt tk /\
      nth_error (o_ch out) i = Some (mkCh (t_pt tk) (t_eta tk) (t_phi tk) PID_Muon (t_z0 tk))) /\
   (m_pt m <= 0 \/ ~ some_admissible (cand_mu_tk track m) -> nth_error (o_mu out) j = Some (mkCh 0 0 0 0 0))).
Proof. exact c04. Qed.
Print Assumptions C04_muon_output.
Example C04_muon_matched : is_best (cand_mu_tk ev_tk (mkMu 160 0 (-105) (-100))) 2.
Proof. apply LinkFacts.best_spec. vm_compute. reflexivity. Qed.

(** ** C05 *)
Theorem C05_particle_ids : forall em had track mu mem nsel out,
  phys em had track mu -> (nsel <= length had)%nat ->
  pfalgo3_full mem nsel em had track mu = Ok out ->
  (forall c, In c (o_ch out) -> c_id c = PID_Charged \/ c_id c = PID_Electron \/ c_id c = PID_Muon) /\
  (forall p, In p (o_pho out) -> (n_pt p <> 0 -> n_id p = PID_Photon) /\ (n_pt p = 0 -> n_id p = 0 /\ n_eta p = 0 /\ n_phi p = 0)) /\
  (forall n, In n (o_ne out) -> (n_pt n <> 0 -> n_id n = PID_Neutral) /\ (n_pt n = 0 -> n_id n = 0 /\ n_eta n = 0 /\ n_phi n = 0)) /\
  (forall m, In m (o_mu out) -> (c_pt m <> 0 -> c_id m = PID_Muon) /\ (c_pt m = 0 -> m = mkCh 0 0 0 0 0)) /\
  (forall i tk c, nth_error track i = Some tk -> MuTrack track mu i -> nth_error (o_ch out) i = Some c -> c_id c = PID_Muon).
Proof. exact c05. Qed.
Print Assumptions C05_particle_ids.

(** ** C06 *)
Theorem C06_photon_pt : forall em had track mu mem nsel out,
  phys em had track mu -> sums_fit em had track mu (Some 131071) false -> (nsel <= length had)%nat ->
  pfalgo3_full mem nsel em had track mu = Ok out ->
  forall k e, nth_error em k = Some e ->
  let S := em_tksum em track mu k in let d := e_pt e - S in let s2 := e_pterr e * e_pterr e in
  exists p, nth_error (o_pho out) k = Some p /\
   (S = 0 -> n_pt p = e_pt e) /\
   (S <> 0 -> 0 < d -> d * d > s2 + s2 / 2 -> n_pt p = d) /\
   (S <> 0 -> ~ (0 < d /\ d * d > s2 + s2 / 2) -> n_pt p = 0) /\
   0 <= n_pt p <= e_pt e /\
   (n_pt p <> 0 -> n_eta p = e_eta e /\ n_phi p = e_phi e).
Proof. exact c06. Qed.
Print Assumptions C06_photon_pt.

(** ** C07 *)
Theorem C07_electron_iff : forall em had track mu mem nsel out,
  phys em had track mu -> sums_fit em had track mu (Some 131071) false -> (nsel <= length had)%nat ->
  pfalgo3_full mem nsel em had track mu = Ok out ->
  forall i tk, nth_error track i = Some tk -> exists c, nth_error (o_ch out) i = Some c /\
  (c_id c = PID_Electron <-> Electron em track mu i tk).
Proof. exact c07. Qed.
Print Assumptions C07_electron_iff.

(** ** C08 *)
Theorem C08_neutral_from_cluster : forall em had track mu mem nsel out,
  phys em had track mu -> sums_fit em had track mu (Some 131071) false -> (nsel <= length had)%nat ->
  pfalgo3_full mem nsel em had track mu = Ok out ->
  forall n, In n (o_ne out) -> n_pt n <> 0 ->
  exists h c, nth_error had h = Some c /\
    n_eta n = h_eta c /\ n_phi n = h_phi c /\ n_id n = PID_Neutral /\
    let P := h_pt c - had_emsum em had track mu h in
    let S := had_tksum em had track mu (Some 131071) false h in
    let err2 := had_err2 em had track mu (Some 131071) false h in
    0 < n_pt n <= P /\ P <= h_pt c /\
    ((S = 0 /\ n_pt n = P) \/ (S <> 0 /\ n_pt n = P - S /\ n_pt n * n_pt n > err2 + err2 / 2)).
Proof. exact c08. Qed.
Print Assumptions C08_neutral_from_cluster.

(** ** C09: outne is the sorted selection of one candidate per hadronic cluster *)
Theorem C09_neutral_selection : forall em had track mu mem nsel out,
  phys em had track mu -> sums_fit em had track mu (Some 131071) false -> (nsel <= length had)%nat ->
  pfalgo3_full mem nsel em had track mu = Ok out ->
  top_n n_pt true nsel
    (mapi (sp_ne em had track mu (Some 131071) false (fun h => n_puppi (junk_ne_all mem h))) had) (o_ne out).
Proof. exact c09. Qed.
Print Assumptions C09_neutral_selection.

(** ** C11 *)
Theorem C11_defined : forall mem nsel em had track mu,
  Forall (fun t => 0 <= t_pterr t) track ->
  sumZ (map (fun t => t_pterr t * t_pterr t) track) <= 1431655765 ->
  Forall (fun e => Z.abs (e_pterr e) <= 23170) em ->
  exists out, pfalgo3_full mem nsel em had track mu = Ok out.
Proof. exact (fun mem nsel em had track mu H1 H2 H3 => pf_total mem nsel em had track mu (conj H1 (conj H2 H3))). Qed.
Print Assumptions C11_defined.
Example C11_defined_hyp : Forall (fun t => 0 <= t_pterr t) ev_tk /\
  sumZ (map (fun t => t_pterr t * t_pterr t) ev_tk) <= 1431655765 /\ Forall (fun e => Z.abs (e_pterr e) <= 23170) ev_em.
Proof. split; [concrete|]. split; [cbn; lia|]. concrete. Qed.

Theorem C11_negative_error_out_of_bounds : forall mem nsel em had track mu,
  Forall (fun e => Z.abs (e_pterr e) <= 23170) em -> Exists (fun t => t_pterr t < 0) track ->
  pfalgo3_full mem nsel em had track mu = UB OutOfBounds.
Proof. exact pf_neg_err. Qed.
Print Assumptions C11_negative_error_out_of_bounds.
Example C11_negative_error_hyp : Exists (fun t => t_pterr t < 0) [tk0; mkTk 10 (-1) 0 0 0 false].
Proof. apply Exists_cons_tl, Exists_cons_hd. cbn; lia. Qed.

(** ** C14.  The first alternative of C14 and C15 is an [int] overflow in both
    runs; C11_defined and C72 say when it is excluded. *)
Theorem C14_empty_track_inert : forall em had l1 l2 x mu, t_pt x = 0 -> t_pterr x = 0 -> forall mem nsel,
  phys em had (l1 ++ x :: l2) mu -> (nsel <= length had)%nat ->
  (pfalgo3_full mem nsel em had (l1 ++ x :: l2) mu = UB SignedOverflow /\ pfalgo3_full mem nsel em had (l1 ++ l2) mu = UB SignedOverflow) \/
  exists a c b pho ne om, length a = length l1 /\ c_pt c = 0 /\
    pfalgo3_full mem nsel em had (l1 ++ x :: l2) mu = Ok (mkOut (a ++ c :: b) pho ne om) /\
    pfalgo3_full mem nsel em had (l1 ++ l2) mu = Ok (mkOut (a ++ b) pho ne om).
Proof. exact inert_track. Qed.
Print Assumptions C14_empty_track_inert.
Example C14_empty_track_hyp : t_pt tk0 = 0 /\ t_pterr tk0 = 0 /\
  phys ev_em ev_had ([mkTk 200 10 50 52 7 true; mkTk 300 10 100 1 (-3) true; mkTk 150 15 (-100) (-100) 0 false] ++ tk0 :: []) ev_mu /\
  no_overflow ev_em ([mkTk 200 10 50 52 7 true; mkTk 300 10 100 1 (-3) true; mkTk 150 15 (-100) (-100) 0 false] ++ tk0 :: []).
Proof. exact (conj eq_refl (conj eq_refl (conj ev_phys ev_no_overflow))). Qed.

Theorem C14_empty_hadcalo_inert : forall em track l1 l2 x mu, h_pt x = 0 -> h_empt x = 0 ->
  phys em (l1 ++ x :: l2) track mu -> forall mem nsel, (nsel <= length (l1 ++ l2))%nat ->
  (pfalgo3_full mem nsel em (l1 ++ x :: l2) track mu = UB SignedOverflow /\ pfalgo3_full mem nsel em (l1 ++ l2) track mu = UB SignedOverflow) \/
  exists ch pho ne1 ne0 om, Forall2 same_ne ne1 ne0 /\
    pfalgo3_full mem nsel em (l1 ++ x :: l2) track mu = Ok (mkOut ch pho ne1 om) /\
    pfalgo3_full mem nsel em (l1 ++ l2) track mu = Ok (mkOut ch pho ne0 om).
Proof. exact inert_had. Qed.
Print Assumptions C14_empty_hadcalo_inert.
Example C14_empty_hadcalo_hyp : h_pt had0 = 0 /\ h_empt had0 = 0 /\
  phys ev_em ([mkHad 300 50 50 0 false; mkHad 420 101 1 400 true] ++ had0 :: []) ev_tk ev_mu.
Proof. exact (conj eq_refl (conj eq_refl ev_phys)). Qed.

Theorem C14_empty_muon_inert : forall em had track l1 x l2 mem nsel, m_pt x = 0 ->
  phys em had track (l1 ++ x :: l2) -> (nsel <= length had)%nat ->
  (pfalgo3_full mem nsel em had track (l1 ++ x :: l2) = UB SignedOverflow /\ pfalgo3_full mem nsel em had track (l1 ++ l2) = UB SignedOverflow) \/
  exists a b ch pho ne, length a = length l1 /\
    pfalgo3_full mem nsel em had track (l1 ++ x :: l2) = Ok (mkOut ch pho ne (a ++ mkCh 0 0 0 0 0 :: b)) /\
    pfalgo3_full mem nsel em had track (l1 ++ l2) = Ok (mkOut ch pho ne (a ++ b)).
Proof. exact inert_mu. Qed.
Print Assumptions C14_empty_muon_inert.
Example C14_empty_muon_hyp : m_pt mu0 = 0 /\ phys ev_em ev_had ev_tk ([mkMu 160 0 (-105) (-100)] ++ mu0 :: []).
Proof. exact (conj eq_refl ev_phys). Qed.

(** an empty EM slot is not inert: it captures tracks near the origin *)
Theorem C14_empty_emcalo_inert_refuted : exists em had track mu mem nsel o0 o1 p0 p1,
  phys (em ++ [em0]) had track mu /\ no_overflow (em ++ [em0]) track /\ clean_empty track /\ (nsel <= length had)%nat /\
  pfalgo3_full mem nsel em had track mu = Ok o0 /\
  pfalgo3_full mem nsel (em ++ [em0]) had track mu = Ok o1 /\
  nth_error (o_pho o0) 0 = Some p0 /\ nth_error (o_pho o1) 0 = Some p1 /\ n_pt p0 = 50 /\ n_pt p1 = 150.
Proof. exact es_refutes. Qed.
Print Assumptions C14_empty_emcalo_inert_refuted.

(** it is inert when every non-empty track is at least 84 away from it
    (missing from the full statement: tracks near the origin) *)
Theorem C14_empty_emcalo_inert_partial : forall had track l1 l2 x mu, e_pt x = 0 ->
  phys (l1 ++ x :: l2) had track mu -> clean_empty track ->
  (forall tk, In tk track -> t_pt tk <> 0 -> 84 <= dist2 (t_eta tk) (t_phi tk) (e_eta x) (e_phi x)) ->
  forall mem nsel, (nsel <= length had)%nat ->
  (pfalgo3_full mem nsel (l1 ++ x :: l2) had track mu = UB SignedOverflow /\ pfalgo3_full mem nsel (l1 ++ l2) had track mu = UB SignedOverflow) \/
  exists ch1 ch0 a p b pho0 ne om, length a = length l1 /\ n_pt p = 0 /\
    Forall2 (fun c1 c0 => pf_equals_ch c0 c1 = true) ch1 ch0 /\ Forall2 same_ne (a ++ b) pho0 /\
    pfalgo3_full mem nsel (l1 ++ x :: l2) had track mu = Ok (mkOut ch1 (a ++ p :: b) ne om) /\
    pfalgo3_full mem nsel (l1 ++ l2) had track mu = Ok (mkOut ch0 pho0 ne om).
Proof. exact inert_em. Qed.
Print Assumptions C14_empty_emcalo_inert_partial.
Example C14_empty_emcalo_hyp : e_pt em0 = 0 /\ phys ([mkEm 400 20 100 0] ++ em0 :: []) ev_had ev_tk ev_mu /\
  (forall tk, In tk ev_tk -> t_pt tk <> 0 -> 84 <= dist2 (t_eta tk) (t_phi tk) (e_eta em0) (e_phi em0)).
Proof.
  split; [reflexivity|]. split; [exact ev_phys|]. intros tk Hin N.
  repeat (destruct Hin as [<-|Hin]; [try (exfalso; apply N; reflexivity); vm_compute; congruence|]). destruct Hin.
Qed.

(** more generally, it is inert when it takes no track away from another EM
    cluster, and the tracks around it add up to at most 32767 (tracks with no
    other EM cluster in reach may be linked to it) *)
Theorem C14_empty_emcalo_near_partial : forall had track l1 l2 x mu, e_pt x = 0 -> e_pterr x = 0 ->
  phys (l1 ++ x :: l2) had track mu -> clean_empty track ->
  (forall i tk, nth_error track i = Some tk -> t_pt tk <> 0 -> ~ MuTrack track mu i -> ~ takes_from l1 x l2 tk) ->
  sum_where (fun _ tk => dist2 (t_eta tk) (t_phi tk) (e_eta x) (e_phi x) <? 84) t_pt track <= 32767 ->
  forall mem nsel, (nsel <= length had)%nat ->
  (pfalgo3_full mem nsel (l1 ++ x :: l2) had track mu = UB SignedOverflow /\ pfalgo3_full mem nsel (l1 ++ l2) had track mu = UB SignedOverflow) \/
  exists ch1 ch0 a p b pho0 ne om, length a = length l1 /\ n_pt p = 0 /\
    Forall2 (fun c1 c0 => pf_equals_ch c0 c1 = true) ch1 ch0 /\ Forall2 same_ne (a ++ b) pho0 /\
    pfalgo3_full mem nsel (l1 ++ x :: l2) had track mu = Ok (mkOut ch1 (a ++ p :: b) ne om) /\
    pfalgo3_full mem nsel (l1 ++ l2) had track mu = Ok (mkOut ch0 pho0 ne om).
Proof. exact inert_em_near. Qed.
Print Assumptions C14_empty_emcalo_near_partial.
(** a track on top of the empty slot, linked to it, and one linked to the other cluster *)
Example C14_empty_emcalo_near_hyp :
  let em := [mkEm 400 20 100 0] in let track := [mkTk 200 10 1 2 0 true; mkTk 300 10 100 1 0 true; tk0] in
  phys (em ++ em0 :: []) ev_had track [] /\ clean_empty track /\
  is_best (cand_tk_em (em ++ em0 :: []) (mkTk 200 10 1 2 0 true)) 1 /\
  (forall i tk, nth_error track i = Some tk -> t_pt tk <> 0 -> ~ MuTrack track [] i -> ~ takes_from em em0 [] tk) /\
  sum_where (fun _ tk => dist2 (t_eta tk) (t_phi tk) (e_eta em0) (e_phi em0) <? 84) t_pt track <= 32767.
Proof. exact near_hyp. Qed.

(** the bound is needed: tracks of 20000 and 20000 make the empty slot a photon of 25536 *)
Theorem C14_empty_emcalo_photon_refuted : exists had track mu mem nsel o0 o1 p,
  phys [em0] had track mu /\ clean_empty track /\ (nsel <= length had)%nat /\
  (forall tk, In tk track -> ~ takes_from [] em0 [] tk) /\
  pfalgo3_full mem nsel [] had track mu = Ok o0 /\ o_pho o0 = [] /\
  pfalgo3_full mem nsel [em0] had track mu = Ok o1 /\ o_pho o1 = [p] /\ n_pt p = 25536.
Proof. exact empty_photon_refutes. Qed.
Print Assumptions C14_empty_emcalo_photon_refuted.

(** ** C15 *)
Theorem C15_muon_tracks_do_not_touch_calo : forall em had track mu track' mem nsel,
  phys em had track mu -> (nsel <= length had)%nat ->
  length track' = length track ->
  (forall i, MuTrack track mu i -> (i < length track)%nat -> nth_error track' i = Some tk0) ->
  (forall i, ~ MuTrack track mu i -> nth_error track' i = nth_error track i) ->
  (pfalgo3_full mem nsel em had track mu = UB SignedOverflow /\ pfalgo3_full mem nsel em had track' (map (fun _ => mu0) mu) = UB SignedOverflow) \/
  exists ch1 mu1 ch2 mu2 pho ne,
    pfalgo3_full mem nsel em had track mu = Ok (mkOut ch1 pho ne mu1) /\
    pfalgo3_full mem nsel em had track' (map (fun _ => mu0) mu) = Ok (mkOut ch2 pho ne mu2).
Proof. exact muon_free_prop. Qed.
Print Assumptions C15_muon_tracks_do_not_touch_calo.
Example C15_hyp : pfalgo3_full mem0 2 ev_em ev_had [mkTk 200 10 50 52 7 true; mkTk 300 10 100 1 (-3) true; tk0; tk0] [mu0; mu0] =
  Ok (mkOut [mkCh 200 50 52 PID_Charged 7; mkCh 300 100 1 PID_Electron (-3); mkCh 0 0 0 PID_Electron 0; mkCh 0 0 0 PID_Electron 0]
        (o_pho ev_out) (o_ne ev_out) [mkCh 0 0 0 0 0; mkCh 0 0 0 0 0]).
Proof. vm_compute. reflexivity. Qed.

(** ** C52 *)
Theorem C52_outputs_in_range : forall em had track mu mem nsel out,
  phys em had track mu -> (nsel <= length had)%nat ->
  pfalgo3_full mem nsel em had track mu = Ok out ->
  length (o_ch out) = length track /\ length (o_pho out) = length em /\
  length (o_ne out) = nsel /\ length (o_mu out) = length mu /\
  Forall (fun c => ch_ok c /\ 0 <= c_pt c) (o_ch out) /\ Forall (fun n => ne_ok n /\ 0 <= n_pt n) (o_pho out) /\
  Forall (fun n => ne_ok n /\ 0 <= n_pt n) (o_ne out) /\ Forall (fun c => ch_ok c /\ 0 <= c_pt c) (o_mu out).
Proof. exact c52. Qed.
Print Assumptions C52_outputs_in_range.
