(** C57: the particle-flow test program (simple_fullpfalgo_test.cpp), in its
    plain, MP7 and CTP7 builds.  [mh], [mr]: previous contents of the memory of
    firmware and reference in each test; [Ok true]: nextRegion's missing return
    statement yields true (C48). *)
From Coq Require Import Ascii String.
From Verif Require Import Base BaseFacts Data PFHw PFRef Encoding TestUtils SpecPF SpecOut SpecPFWrap SpecPFRef Discrete Convert DiscreteIO SpecIO RegionLoop PFTest SpecTest PFTestProofs PFTestFinal
  PFRefAgree PFRefEvents Serializer SpecSer PFFileProofs HumanRead SpecHR Witness.
Local Open Scope list_scope.
Local Open Scope Z_scope.

(** It tests the regions of the dump in order, at most 500, each with the words
    and outputs of that region, and stops with exit code 1 at the first region
    where firmware and reference disagree; without one it exits with 0
    ([outcome]).  The only other possibility is that it reaches a region on which
    one of the two algorithms is undefined, having found no disagreement before
    ([reaches_undefined]). *)
Theorem C57_exit_code_partial : forall b validate c special mh mr g arr pho ne evs, build_ok b c -> (forall t, mem_typed (mh t)) -> arrays_ok c arr ->
  length pho = NEMCALO c -> length ne = NSELCALO c -> Forall good_event evs ->
  exists N,
   (exists code runs, (forall fuel, (N <= fuel)%nat -> pf_main b validate c special (Ok true) fuel mh mr g arr pho ne (Some (dump evs)) = Some (Ok (code, runs))) /\
      outcome b validate c mh mr 1 (tested c special NTEST evs) runs code) \/
   (exists k, (forall fuel, (N <= fuel)%nat -> pf_main b validate c special (Ok true) fuel mh mr g arr pho ne (Some (dump evs)) = Some (UB k)) /\
      reaches_undefined b validate c mh mr 1 (tested c special NTEST evs) k).
Proof. exact main_total. Qed.
Print Assumptions C57_exit_code_partial.
(** On legal regions that can only be an int that overflows in one of them (C72, C73). *)
Theorem C57_undefined_only_by_overflow : forall b validate c mh mr evs special k,
  Forall (fun r => phys (fw_emcalo r) (fw_calo r) (fw_track r) (fw_muon r) /\ (NSELCALO c <= length (fw_calo r))%nat) (tested c special NTEST evs) ->
  reaches_undefined b validate c mh mr 1 (tested c special NTEST evs) k ->
  k = SignedOverflow /\ exists r, In r (tested c special NTEST evs) /\
    (~ ints_fit (fw_emcalo r) (fw_calo r) (fw_track r) (fw_muon r) \/ ~ ints_fit_r (fw_emcalo r) (fw_calo r) (fw_track r) (fw_muon r) true).
Proof. exact c57_undefined. Qed.
Print Assumptions C57_undefined_only_by_overflow.
(** It passes on every dump whose regions are in the domain of C01. *)
Theorem C57_passes_partial : forall b validate c special mh mr g arr pho ne evs, build_ok b c -> (forall t, mem_typed (mh t)) -> arrays_ok c arr ->
  length pho = NEMCALO c -> length ne = NSELCALO c -> Forall good_event evs -> Forall (in_domain c) (tested c special NTEST evs) ->
  exists N runs, (forall fuel, (N <= fuel)%nat -> pf_main b validate c special (Ok true) fuel mh mr g arr pho ne (Some (dump evs)) = Some (Ok (0, runs))) /\
    map pr_region runs = tested c special NTEST evs.
Proof. exact c57_passes. Qed.
Print Assumptions C57_passes_partial.
(** The three builds of data.h are in scope. *)
Theorem C57_builds : build_ok MP7 cfg_TESTMP7 /\ build_ok CTP7 cfg_TESTCTP7 /\ build_ok Plain cfg_default.
Proof. exact builds_ok. Qed.
Print Assumptions C57_builds.
(** What a standard compiler may make of the missing return statement. *)
Theorem C57_no_return_statement_refuted : forall b validate c special mh mr g arr pho ne e evs fuel, good_event e ->
  pf_main b validate c special (UB MissingReturn) (S fuel) mh mr g arr pho ne (Some (dump (e :: evs))) = Some (UB MissingReturn).
Proof. exact c57_standard. Qed.
Print Assumptions C57_no_return_statement_refuted.

(** ** The files written for the tests made *)
(** MP7: the muxed files hold each test's words followed by ii - 1 fillers (zero
    or counting), correctly numbered to the end; the third file holds one line
    of words per test. *)
Theorem C57_mp7_pattern_files : forall validate c special mh mr evs runs code ii, build_ok MP7 c -> outcome MP7 validate c mh mr 1 (tested c special NTEST evs) runs code ->
  (1 <= ii)%nat -> (MP7_NCHANN mod ii = 0)%nat -> forall words, words = map pr_in runs \/ words = map pr_out runs ->
  pf_mp7_files ii words = Ok (map (frame ii (MP7_NCHANN / ii) (pattern (ii - 1) false words)) (seq 0 (ii * length runs)),
                              map (frame ii (MP7_NCHANN / ii) (pattern (ii - 1) (1 <? ii)%nat words)) (seq 0 (ii * length runs)),
                              map (fun i => (Z.of_nat i, nth i words [])) (seq 0 (length runs))).
Proof. exact c57_mp7. Qed.
Print Assumptions C57_mp7_pattern_files.
(** CTP7: one line of words and five of zeros per test, cut after 1024 lines:
    tests beyond the 171st leave no trace. *)
Theorem C57_ctp7_pattern_files : forall validate c special mh mr evs runs code, build_ok CTP7 c -> outcome CTP7 validate c mh mr 1 (tested c special NTEST evs) runs code ->
  pf_ctp7_file (in_size CTP7) (map pr_in runs) = Ok (map (fun i => (Z.of_nat i, if (i mod 6 =? 0)%nat then nth (i / 6) (map pr_in runs) [] else repeat 0 (in_size CTP7))) (seq 0 (Nat.min 1024 (6 * length runs)))) /\
  pf_ctp7_file (out_size CTP7) (map pr_out runs) = Ok (map (fun i => (Z.of_nat i, if (i mod 6 =? 0)%nat then nth (i / 6) (map pr_out runs) [] else repeat 0 (out_size CTP7))) (seq 0 (Nat.min 1024 (6 * length runs)))).
Proof. exact c57_ctp7. Qed.
Print Assumptions C57_ctp7_pattern_files.
(** the human-readable file lists the objects of every test *)
Theorem C57_human_readable_file : forall validate c special mh mr evs runs code b, cfg_fits c -> (forall t, mem_typed (mh t)) ->
  outcome b validate c mh mr 1 (tested c special NTEST evs) runs code -> exists text, pf_hr_file runs = Ok text /\ read_table text = table (map hr_of runs).
Proof. exact c57_hr. Qed.
Print Assumptions C57_human_readable_file.

(** a region where both agree and one where they do not (C01_keep_flag_refuted) *)
Definition tx_tk (pt err eta phi : Z) : PTk := mkPTk (mkITk 1 2 3 true 7 100 6 0) pt 1 err eta phi false false false.
Definition tx_clu (pt empt err eta phi : Z) (isem : bool) : Clu := mkClu pt empt err eta phi 0 isem false.
Definition tx_good : Region := mkRegion 0 3212836864 1065353216 0 1077936128 0 0 [tx_clu 300 0 0 50 50 false] [tx_clu 400 400 20 100 0 true] [tx_tk 200 10 50 52; tx_tk 300 10 100 1] [mkDMu 160 (-105) (-100) 0 true].
Definition tx_bad : Region := mkRegion 0 3212836864 1065353216 0 1077936128 0 0 [tx_clu 200 100 0 10 0 true] [tx_clu 100 0 5 0 0 true; tx_clu 20 0 1 30 0 true] [tx_tk 60 5 30 0] [].
Definition tx_event (num : Z) (r : Region) : event := mkEv 1 2 num 1084227584 0 0 0 0 0 [r].
Definition tx_mem : nat -> pfmem := fun _ => mem0.
Definition tx_arr (c : config) : fwregion := mkFw (repeat had0 (NCALO c)) (repeat em0 (NEMCALO c)) (repeat tk0 (NTRACK c)) (repeat mu0 (NMU c)) 0.
Definition tx_main (b : board) (c : config) (evs : list event) : option (Z * nat) :=
  match pf_main b true c (fun x => x) (Ok true) 20 tx_mem tx_mem 0 (tx_arr c) (repeat (mkNe 0 0 0 0 9) (NEMCALO c)) (repeat (mkNe 0 0 0 0 9) (NSELCALO c)) (Some (dump evs)) with
  | Some (Ok (code, runs)) => Some (code, length runs)
  | _ => None
  end.
Example C57_hyp : Forall good_event [tx_event 7 tx_good; tx_event 8 tx_good] /\ (forall t, mem_typed (tx_mem t)) /\ arrays_ok cfg_default (tx_arr cfg_default) /\
  Forall (in_domain cfg_default) (tested cfg_default (fun x => x) NTEST [tx_event 7 tx_good; tx_event 8 tx_good]) /\
  tx_main Plain cfg_default [tx_event 7 tx_good; tx_event 8 tx_good] = Some (0, 2%nat) /\
  tx_main MP7 cfg_TESTMP7 [tx_event 7 tx_good; tx_event 8 tx_bad; tx_event 9 tx_good] = Some (1, 2%nat) /\
  tx_main CTP7 cfg_TESTCTP7 [tx_event 7 tx_good; tx_event 8 tx_bad; tx_event 9 tx_good] = Some (1, 2%nat).
Proof.
  assert (RW : region_wf tx_good).
  { assert (H : forall x, 0 <= x < 4294967296 -> inU 32 x) by (unfold inU; intros; lia).
    split; [repeat constructor; cbn [tx_good rg_etac rg_etamin rg_etamax rg_phic rg_phihw rg_etax rg_phix]; lia|].
    repeat split; cbn [tx_good rg_calo rg_emcalo rg_track rg_muon]; repeat (apply Forall_cons; [repeat split; discriminate || reflexivity || (cbn; lia)|]); try constructor; unfold fits; cbn; lia. }
  assert (W : forall n, inU 64 n -> good_event (tx_event n tx_good)).
  { intros n Hn. split.
    - split; [unfold inU; cbn; lia|]. split; [unfold inU; cbn; lia|]. split; [exact Hn|]. split; [repeat constructor; cbn; lia|]. split; [apply Forall_cons; [exact RW|constructor]|unfold fits; cbn; lia].
    - split; [|discriminate]. apply Forall_cons; [unfold region_finite, f32_finite; vm_compute; discriminate|constructor]. }
  split; [repeat (apply Forall_cons; [apply W; unfold inU; lia|]); constructor|].
  split; [intros t i; repeat split; discriminate || reflexivity|]. split; [repeat split|].
  split.
  { assert (D : in_domain cfg_default (fw_arrays cfg_default (fun x => x) (tx_event 7 tx_good) tx_good)).
    { assert (HP : phys (fw_emcalo (fw_arrays cfg_default (fun x => x) (tx_event 7 tx_good) tx_good)) (fw_calo (fw_arrays cfg_default (fun x => x) (tx_event 7 tx_good) tx_good)) (fw_track (fw_arrays cfg_default (fun x => x) (tx_event 7 tx_good) tx_good)) (fw_muon (fw_arrays cfg_default (fun x => x) (tx_event 7 tx_good) tx_good))) by concrete.
      split; [exact HP|]. split; [|repeat split; try (first [apply not_neg | apply not_keep | apply not_one | apply not_dirty]; vm_compute; reflexivity); apply Nat.leb_le; reflexivity].
      assert (Ln : (NSELCALO cfg_default <= length (fw_calo (fw_arrays cfg_default (fun x => x) (tx_event 7 tx_good) tx_good)))%nat) by (apply Nat.leb_le; reflexivity).
      apply (proj1 (ref_wrap_defined_iff _ _ _ _ mem0 (NSELCALO cfg_default) HP Ln)). eexists. vm_compute. reflexivity. }
    apply Forall_forall. intros r Hr. cbn in Hr. repeat (destruct Hr as [<-|Hr]; [exact D|]). destruct Hr. }
  repeat split; vm_compute; reflexivity.
Qed.

(** an EM cluster with a linked track and an error whose square times four exceeds int: the third test is undefined *)
Definition tx_over : Region := mkRegion 0 3212836864 1065353216 0 1077936128 0 0 [] [tx_clu 10000 0 23171 100 0 true] [tx_tk 9000 150 100 1] [].
Example C57_undefined_hyp : pf_main Plain true cfg_default (fun x => x) (Ok true) 20 tx_mem tx_mem 0 (tx_arr cfg_default) (repeat (mkNe 0 0 0 0 9) (NEMCALO cfg_default)) (repeat (mkNe 0 0 0 0 9) (NSELCALO cfg_default))
    (Some (dump [tx_event 7 tx_good; tx_event 8 tx_good; tx_event 9 tx_over])) = Some (UB SignedOverflow) /\
  Forall (fun r => phys (fw_emcalo r) (fw_calo r) (fw_track r) (fw_muon r) /\ (NSELCALO cfg_default <= length (fw_calo r))%nat) (tested cfg_default (fun x => x) NTEST [tx_event 9 tx_over]).
Proof.
  split; [vm_compute; reflexivity|]. apply Forall_forall. intros r Hr. cbn in Hr. repeat (destruct Hr as [<-|Hr]; [|]); try destruct Hr. split; [concrete|apply Nat.leb_le; reflexivity].
Qed.
