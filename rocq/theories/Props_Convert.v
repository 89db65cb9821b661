(** C49, C50, C55: conversions between discrete and firmware objects. *)
From Verif Require Import Base Data Discrete Convert SpecIO SpecConvert ConvertProofs.

(** ** C49 *)
Theorem C49_tracks : forall NMAX ins out, fits ins -> length out = NMAX -> Forall ptk_wf ins -> exists r, convert_in fw_tk tk0 NMAX ins out = Ok r /\ slots_ok tk_of (mkTk 0 0 0 0 0 false) NMAX ins r.
Proof. exact c49_tracks. Qed.
Print Assumptions C49_tracks.
Theorem C49_hadcalo : forall NMAX ins out, fits ins -> length out = NMAX -> Forall clu_wf ins -> exists r, convert_in fw_had had0 NMAX ins out = Ok r /\ slots_ok had_of (mkHad 0 0 0 0 false) NMAX ins r.
Proof. exact c49_had. Qed.
Print Assumptions C49_hadcalo.
Theorem C49_emcalo : forall NMAX ins out, fits ins -> length out = NMAX -> Forall clu_wf ins -> exists r, convert_in fw_em em0 NMAX ins out = Ok r /\ slots_ok em_of (mkEm 0 0 0 0) NMAX ins r.
Proof. exact c49_em. Qed.
Print Assumptions C49_emcalo.
Theorem C49_muons : forall NMAX ins out, fits ins -> length out = NMAX -> Forall dmu_wf ins -> exists r, convert_in fw_mu mu0 NMAX ins out = Ok r /\ slots_ok mu_of (mkMu 0 0 0 0) NMAX ins r.
Proof. exact c49_mu. Qed.
Print Assumptions C49_muons.
Theorem C49_values_that_fit_are_kept : forall x y, narrow10 x y -> inS 10 x -> y = x.
Proof. exact narrow_same. Qed.
Print Assumptions C49_values_that_fit_are_kept.
Definition cx_mu (k : Z) : DMu := mkDMu k (k - 600) (700 - k) 0 true.
Example C49_hyp : fits (map cx_mu [1; 200; 3]) /\ Forall dmu_wf (map cx_mu [1; 200; 3]) /\
  convert_in fw_mu mu0 5 (map cx_mu [1; 200; 3]) (repeat (mkMu 9 9 9 9) 5) = Ok [mkMu 1 0 425 (-325); mkMu 200 0 (-400) 500; mkMu 3 0 427 (-327); mu0; mu0] /\
  convert_in fw_mu mu0 2 (map cx_mu [1; 200; 3]) (repeat (mkMu 9 9 9 9) 2) = Ok [mkMu 1 0 425 (-325); mkMu 200 0 (-400) 500].
Proof. split; [unfold fits; cbn; lia|]. split; [repeat constructor; cbn; lia|]. vm_compute. auto. Qed.

(** ** C50 *)
(** [garb]: the indeterminate contents of the local object; no field below
    depends on it *)
Theorem C50_neutrals : forall garb ins out, exists ps, convert_ne garb (length ins) ins out = Ok (out ++ ps) /\ Forall2 ne_of (filter (fun x => n_pt x >? 0) ins) ps.
Proof. exact c50_neutrals. Qed.
Print Assumptions C50_neutrals.
Theorem C50_charged : forall garb ins src out, (forall i x, nth_error ins i = Some x -> 0 < c_pt x -> (i < length src)%nat) ->
  exists ps, convert_ch garb (length ins) ins src out = Ok (out ++ ps) /\
    Forall2 (fun q p => exists t, nth_error src (fst q) = Some t /\ ch_of (snd q) t p) (filter (fun q => c_pt (snd q) >? 0) (indexed ins)) ps.
Proof. exact c50_charged. Qed.
Print Assumptions C50_charged.
Theorem C50_missing_track_asserts : forall garb ins src out i x, nth_error ins i = Some x -> 0 < c_pt x -> (length src <= i)%nat -> convert_ch garb (length ins) ins src out = UB AssertFail.
Proof. exact c50_assert. Qed.
Print Assumptions C50_missing_track_asserts.
Definition cx_part : PFPart := mkPFPart 77 77 77 77 77 77 77 (mkClu 7 7 7 7 7 7 true true) (mkPTk itk0 7 7 7 7 7 true true true) true 77 77.
Example C50_hyp : forall t0 t1 t2, exists ps, convert_ch (fun _ => cx_part) 3 [mkCh 10 1 2 3 0; mkCh 0 5 5 4 0; mkCh 20 3 4 4 0] [t0; t1; t2] [] = Ok ps /\
  map pp_pt ps = [10; 20] /\ map pp_id ps = [1; 4] /\ map pp_track ps = [t0; t2].
Proof. intros. eexists. split; [reflexivity|]. auto. Qed.

(** ** C55 *)
Theorem C55_hadcalo : forall h o, had_ok h -> fw_had (dpf_had h o) = h.
Proof. exact c55_had. Qed.
Print Assumptions C55_hadcalo.
Theorem C55_emcalo : forall h o, em_ok h -> fw_em (dpf_em h o) = h.
Proof. exact c55_em. Qed.
Print Assumptions C55_emcalo.
Theorem C55_muon : forall h o, mu_ok h -> fw_mu (dpf_mu h o) = mkMu (m_pt h) 0 (m_eta h) (m_phi h).
Proof. exact c55_mu. Qed.
Print Assumptions C55_muon.
Theorem C55_track : forall h o, tk_ok h -> fw_tk (dpf_tk h o) = mkTk (t_pt h) (t_pterr h) (t_eta h) (t_phi h) (t_z0 h) ((6 <=? it_stubs (pt_in o)) && (it_chi2 (pt_in o) <? 500)).
Proof. exact c55_tk. Qed.
Print Assumptions C55_track.
Example C55_hyp : tk_ok (mkTk 32767 (-32768) (-512) 511 (-7) true) /\
  fw_tk (dpf_tk (mkTk 32767 (-32768) (-512) 511 (-7) true) (mkPTk (mkITk 0 0 0 false 0 499 6 0) 1 1 1 1 1 true true true)) = mkTk 32767 (-32768) (-512) 511 (-7) true.
Proof. split; [repeat split; cbn; lia|]. vm_compute. reflexivity. Qed.
