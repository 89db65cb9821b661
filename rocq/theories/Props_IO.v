(** C47, C48, C54: binary dumps and the region iteration. *)
From Coq Require Import QArith.
From Verif Require Import Base Data Discrete Convert DiscreteIO SpecIO IOFacts IOProofs ZpvFacts.
Open Scope Z_scope.

(** ** C47 *)
(** [o]: the object before the call; [rest]: the bytes that follow; [e]: the
    end-of-file indicator.  Reading restores the object with its transient
    flags reset, and leaves exactly the bytes that follow. *)
Theorem C47_cluster : forall o c rest e, clu_wf c -> clu_read o (mkFile (clu_write c ++ rest) e) = Ok (clu_kept c, mkFile rest e).
Proof. exact clu_codec. Qed.
Print Assumptions C47_cluster.
Theorem C47_input_track : forall o t rest e, itk_wf t -> itk_read o (mkFile (itk_write t ++ rest) e) = Ok (t, mkFile rest e).
Proof. exact itk_codec. Qed.
Print Assumptions C47_input_track.
Theorem C47_track : forall o t rest e, ptk_wf t -> ptk_read o (mkFile (ptk_write t ++ rest) e) = Ok (ptk_kept t, mkFile rest e).
Proof. exact ptk_codec. Qed.
Print Assumptions C47_track.
Theorem C47_muon : forall o m rest e, dmu_wf m -> dmu_read o (mkFile (dmu_write m ++ rest) e) = Ok (m, mkFile rest e).
Proof. exact dmu_codec. Qed.
Print Assumptions C47_muon.
Theorem C47_region : forall o r rest e, region_wf r -> region_read o (mkFile (region_write r ++ rest) e) = Ok (region_kept r, mkFile rest e).
Proof. exact region_codec. Qed.
Print Assumptions C47_region.
Theorem C47_many_regions : forall rs objs rest e, fits rs -> Forall region_wf rs ->
  read_many region0 region_read objs (mkFile (write_many region_write rs ++ rest) e) = Ok (map region_kept rs, mkFile rest e).
Proof. exact (many_codec Region region0 region_write region_read region_wf region_kept region_codec). Qed.
Print Assumptions C47_many_regions.
(** The converse: what is read before the end of the file is written back as
    exactly the bytes consumed, so no two dumps read the same. *)
Theorem C47_region_bytes : forall o f r f', Forall (inU 8) (f_rest f) -> region_read o f = Ok (r, f') -> f_eof f' = false -> f_rest f = region_write r ++ f_rest f'.
Proof. exact (fun o f r f' HB HE HF => proj1 (region_exact o f r f' HB HE HF)). Qed.
Print Assumptions C47_region_bytes.

Definition ix_clu : Clu := mkClu (-5) 300 32767 (-32768) 17 65535 true true.
Definition ix_tk : PTk := mkPTk (mkITk 65535 (-2147483648) 2147483647 true (-3) 499 6 9) 40 (-1) 2 3 (-4) true true true.
Definition ix_mu : DMu := mkDMu 12 (-700) 700 1 false.
Definition ix_region (eta : Z) : Region := mkRegion eta 3212836864 1065353216 0 1077936128 0 0 [ix_clu; ix_clu] [] [ix_tk] [ix_mu; ix_mu; ix_mu].
Lemma ix_region_wf eta : inU 32 eta -> region_wf (ix_region eta).
Proof.
  intros H. unfold inU in H.
  assert (forall x, 0 <= x < 4294967296 -> inU 32 x) by (unfold inU; intros; lia).
  assert (clu_wf ix_clu) by (repeat split; discriminate || reflexivity || (cbn; lia)).
  assert (ptk_wf ix_tk) by (repeat split; discriminate || reflexivity || (cbn; lia)).
  assert (dmu_wf ix_mu) by (repeat split; discriminate || reflexivity || (cbn; lia)).
  split; [repeat constructor; cbn [ix_region rg_etac rg_etamin rg_etamax rg_phic rg_phihw rg_etax rg_phix]; lia|].
  repeat split; cbn [ix_region rg_calo rg_emcalo rg_track rg_muon]; repeat constructor; auto; unfold fits; cbn; lia.
Qed.
Example C47_hyp : region_wf (ix_region 1065353216) /\ length (region_write (ix_region 1065353216)) = 126%nat /\
  region_read region0 (mkFile (region_write (ix_region 1065353216)) false) = Ok (region_kept (ix_region 1065353216), mkFile [] false) /\
  firstn 13 (clu_write ix_clu) = [251; 255; 44; 1; 255; 127; 0; 128; 17; 0; 255; 255; 1].
Proof. split; [apply ix_region_wf; unfold inU; lia|]. vm_compute. auto. Qed.

(** ** C48 *)
(** Full statement: as C48_regions_in_order_partial, for the program as the
    C++ standard defines it.  It is proved for a compiler under which
    Event::readFromFile, which lacks a return statement, returns true; by the
    standard every call that reads an event is undefined. *)
Theorem C48_regions_in_order_partial : forall c special g evs n s, Forall good_event evs -> Forall (fun e => ev_event e <> 0) evs -> inputs_open g (Some (dump evs)) = Ok s ->
  exists N, forall fuel out, (N <= fuel)%nat -> arrays_ok c out ->
  region_calls c special (Ok true) fuel n out s = Some (Ok (shown (map (fun p => fw_arrays c special (fst p) (snd p)) (all_regions barrel_regions evs)) n)).
Proof. exact c48_numbered. Qed.
Print Assumptions C48_regions_in_order_partial.
Theorem C48_no_return_statement_refuted : forall c special g e evs n s fuel out, good_event e -> inputs_open g (Some (dump (e :: evs))) = Ok s ->
  region_calls c special (UB MissingReturn) (S fuel) (S n) out s = Some (UB MissingReturn).
Proof. exact c48_standard. Qed.
Print Assumptions C48_no_return_statement_refuted.
(** events numbered 0 show at most their first region *)
Theorem C48_event_zero : forall c special g evs n s, Forall good_event evs -> inputs_open g (Some (dump evs)) = Ok s ->
  exists N, forall fuel out, (N <= fuel)%nat -> arrays_ok c out ->
  region_calls c special (Ok true) fuel n out s = Some (Ok (shown (map (fun p => fw_arrays c special (fst p) (snd p)) (all_regions event_regions evs)) n)).
Proof. exact c48_exact. Qed.
Print Assumptions C48_event_zero.
(** an event without regions: the call that reaches it reads out of bounds *)
Theorem C48_event_without_regions : forall c special g evs e rest n s, Forall good_event evs -> event_wf e -> ev_regions e = [] -> inputs_open g (Some (dump (evs ++ e :: rest))) = Ok s ->
  (length (all_regions event_regions evs) < n)%nat -> exists N, forall fuel out, (N <= fuel)%nat -> arrays_ok c out -> region_calls c special (Ok true) fuel n out s = Some (UB OutOfBounds).
Proof. exact c48_noregions. Qed.
Print Assumptions C48_event_without_regions.
(** the event-by-event interface, for every dump *)
Theorem C48_events_in_order_partial : forall evs n s, Forall event_wf evs -> in_file s = mkFile (dump evs) false -> event_calls (Ok true) n s = Ok (shown (map event_kept evs) n).
Proof. exact event_calls_ok. Qed.
Print Assumptions C48_events_in_order_partial.

(** eta centres 1.0, -2.0, 1.5, 1.5 + one unit in the last place *)
Definition ix_event (num : Z) : event := mkEv 1 2 num 1084227584 0 0 0 0 0 [ix_region 1065353216; ix_region 3221225472; ix_region 1069547520; ix_region 1069547521].
Lemma ix_event_good num : inU 64 num -> good_event (ix_event num).
Proof.
  intros H. unfold inU in H. split.
  - split; [unfold inU; cbn; lia|]. split; [unfold inU; cbn; lia|]. split; [exact H|]. split; [repeat constructor; cbn; lia|].
    split; [cbn [ix_event ev_regions]; repeat (apply Forall_cons; [apply ix_region_wf; unfold inU; lia|]); constructor|unfold fits; cbn; lia].
  - split; [|discriminate]. cbn [ix_event ev_regions]. repeat (apply Forall_cons; [unfold region_finite, f32_finite; cbn [ix_region rg_etac]; vm_compute; discriminate|]). constructor.
Qed.
Example C48_hyp : Forall good_event [ix_event 7; ix_event 8] /\ map snd (all_regions barrel_regions [ix_event 7; ix_event 8]) = [ix_region 1065353216; ix_region 1069547520; ix_region 1065353216; ix_region 1069547520] /\
  (forall s, inputs_open 0 (Some (dump [ix_event 7; ix_event 8])) = Ok s -> exists out l,
    arrays_ok cfg_default out /\ region_calls cfg_default (fun b => b) (Ok true) 20 6 out s = Some (Ok l) /\
    map (fun o => match o with Some r => fw_zpv r | None => -1 end) l = [100; 100; 100; 100; -1; -1]) /\
  all_regions event_regions [ix_event 0] = [(ix_event 0, ix_region 1065353216)].
Proof.
  split; [repeat (apply Forall_cons; [apply ix_event_good; unfold inU; lia|]); constructor|]. split; [reflexivity|]. split; [|reflexivity].
  intros s E. injection E as <-. exists (mkFw (repeat had0 5) (repeat em0 5) (repeat tk0 7) (repeat mu0 2) 0). eexists. split; [vm_compute; auto|].
  split; [vm_compute; reflexivity|reflexivity].
Qed.

(** ** C54 *)
Theorem C54_vertex_position : forall special b, inU 32 b -> f32_finite b -> ((20 # 1) * f32_abs b <= 511 # 1)%Q ->
  exists t, zpv special b = (if 2 ^ 31 <=? b then - t else t) /\ 0 <= t <= 511 /\ ((20 # 1) * f32_abs b - (32769 # 32768) < inject_Z t <= (20 # 1) * f32_abs b + (1 # 32768))%Q.
Proof. exact c54_zpv. Qed.
Print Assumptions C54_vertex_position.
(** 5.0, -12.34, 25.55 cm *)
Example C54_hyp : zpv (fun b => b) 1084227584 = 100 /\ zpv (fun b => b) 3242553508 = -246 /\ Qle_bool ((20 # 1) * f32_abs 1103914598) (511 # 1) = true /\ zpv (fun b => b) 1103914598 = 511.
Proof. vm_compute. auto. Qed.
