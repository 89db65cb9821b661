(** C94: what the test programs report does not depend on what was in memory. *)
From Verif Require Import Base BaseFacts Data PFHw Encoding SpecOut Discrete Convert DiscreteIO SpecIO RegionLoop PFTest SpecTest SpecMemory SpecDeterm Vtx Puppi PuppiTest
  Regionizer SpecRegion RegTest RegFiles SpecRegTest SpecRegFiles Bhv SpecBhv BhvTest SpecBhvTest SpecHR DetermProofs Props_Memory Props_PFTest Props_PuppiTest Props_RegTest Props_BhvTest Witness.

(** Particle flow: two executions on the same dump end with the same exit code
    after the same tests (or are undefined in the same way), whatever the
    memory of the algorithms, the arrays of the program and the end-of-file
    state of the reader held before.  [fuel]: enough iterations to read the dump. *)
Theorem C94_pf_test : forall b validate c special mh mh' mr mr' g g' arr arr' pho pho' ne ne' evs, build_ok b c -> (NSELCALO c <= NCALO c)%nat -> (forall t, mem_typed (mh t)) -> (forall t, mem_typed (mh' t)) ->
  arrays_ok c arr -> arrays_ok c arr' -> length pho = NEMCALO c -> length pho' = NEMCALO c -> length ne = NSELCALO c -> length ne' = NSELCALO c ->
  Forall good_event evs -> Forall no_negative_cluster (tested c special NTEST evs) ->
  exists N, forall fuel fuel', (N <= fuel)%nat -> (N <= fuel')%nat ->
    same_execution (pf_main b validate c special (Ok true) fuel mh mr g arr pho ne (Some (dump evs))) (pf_main b validate c special (Ok true) fuel' mh' mr' g' arr' pho' ne' (Some (dump evs))).
Proof. exact c94_pf. Qed.
Print Assumptions C94_pf_test.
(** The files of such executions are equal. *)
Theorem C94_pf_files : forall runs runs' ii nin nout, Forall2 same_run runs runs' ->
  pf_mp7_files ii (map pr_in runs) = pf_mp7_files ii (map pr_in runs') /\ pf_mp7_files ii (map pr_out runs) = pf_mp7_files ii (map pr_out runs') /\
  pf_ctp7_file nin (map pr_in runs) = pf_ctp7_file nin (map pr_in runs') /\ pf_ctp7_file nout (map pr_out runs) = pf_ctp7_file nout (map pr_out runs') /\ pf_hr_file runs = pf_hr_file runs'.
Proof. exact c94_pf_files. Qed.
Print Assumptions C94_pf_files.
(** PUPPI: the same result, printed lines included; no condition on the dump. *)
Theorem C94_puppi_test : forall c special tab nall mr mr' vold vold' g g' arr arr' evs, arrays_ok c arr -> arrays_ok c arr' -> Forall good_event evs ->
  exists N, forall fuel fuel', (N <= fuel)%nat -> (N <= fuel')%nat ->
    exists r, pp_main c special (Ok true) fuel tab nall mr vold g arr (Some (dump evs)) = Some r /\ pp_main c special (Ok true) fuel' tab nall mr' vold' g' arr' (Some (dump evs)) = Some r.
Proof. exact c94_puppi. Qed.
Print Assumptions C94_puppi_test.
(** Regionizers: the same result (exit code, inputs and regions of every test,
    or the same undefined behaviour), and the same pattern files. *)
Theorem C94_regionizer_test : forall c junk junk' work work' g g' st0 st0' evs, memory_ok c st0 -> memory_ok c st0' -> (forall t, dims3 12 3 7 (work t)) -> (forall t, dims3 12 3 7 (work' t)) -> Forall event_wf evs ->
  reg_main c (Ok true) junk work g st0 (Some (dump evs)) = reg_main c (Ok true) junk' work' g' st0' (Some (dump evs)).
Proof. exact c94_regions. Qed.
Print Assumptions C94_regionizer_test.
Theorem C94_regionizer_files : forall c junk work g st0 evs code tests old old', memory_ok c st0 -> (forall t, dims3 12 3 7 (work t)) -> Forall event_wf evs -> trans_ok c old -> trans_ok c old' -> out_fits c ->
  reg_main c (Ok true) junk work g st0 (Some (dump evs)) = Ok (code, tests) -> reg_mp7_files c tests old = reg_mp7_files c tests old'.
Proof. exact c94_region_files. Qed.
Print Assumptions C94_regionizer_files.
(** Vertex finder: likewise. *)
Theorem C94_vertex_test : forall g g' arr arr' tmp tmp' evs, dims2 24 18 arr -> length tmp = 36%nat -> dims2 24 18 arr' -> length tmp' = 36%nat -> Forall event_wf evs ->
  bhv_main (Ok true) g arr tmp (Some (dump evs)) = bhv_main (Ok true) g' arr' tmp' (Some (dump evs)).
Proof. exact c94_vertex. Qed.
Print Assumptions C94_vertex_test.
Theorem C94_vertex_files : forall g arr tmp old old' evs code nerr tests, dims2 24 18 arr -> length tmp = 36%nat -> dims2 18 24 old -> dims2 18 24 old' -> Forall event_wf evs ->
  bhv_main (Ok true) g arr tmp (Some (dump evs)) = Ok (code, nerr, tests) -> bhv_mp7_files tests old = bhv_mp7_files tests old'.
Proof. exact c94_vertex_files. Qed.
Print Assumptions C94_vertex_files.

(** With negative clusters the words the MP7 build writes depend on the memory
    of the sorter. *)
Definition dx_at (pt : Z) : list Clu := map (fun i => tx_clu pt 0 0 (30 * Z.of_nat i - 210) 50 false) (seq 0 15).
Definition dx_neg : Region := mkRegion 0 3212836864 1065353216 0 1077936128 0 0 (dx_at (-17)) (dx_at (-16)) [] [].
Definition dx_mem : pfmem := mkMem (fun i => mkNe 11 12 13 3 (Z.of_nat i)) (fun _ => mkNe 70 71 72 2 5) (fun _ => mkNe 90 7 6 3 4).
Definition dx_main (m : pfmem) (evs : list event) : option (res (Z * list pfrun)) :=
  pf_main MP7 true cfg_TESTMP7 (fun x => x) (Ok true) 20 (fun _ => m) (fun _ => m) 0 (tx_arr cfg_TESTMP7) (repeat (mkNe 0 0 0 0 9) 15) (repeat (mkNe 0 0 0 0 9) 10) (Some (dump evs)).
Theorem C94_pf_negative_refuted : exists evs code code' runs runs', Forall good_event evs /\ mem_typed mem0 /\ mem_typed dx_mem /\
  dx_main mem0 evs = Some (Ok (code, runs)) /\ dx_main dx_mem evs = Some (Ok (code', runs')) /\ map pr_out runs <> map pr_out runs'.
Proof.
  assert (RW : region_wf dx_neg).
  { split; [repeat constructor; cbn [dx_neg rg_etac rg_etamin rg_etamax rg_phic rg_phihw rg_etax rg_phix]; lia|].
    assert (W : forall pt, inS 16 pt -> Forall clu_wf (dx_at pt)).
    { intros pt Hp. apply Forall_forall. intros x Hx. apply in_map_iff in Hx as (i & <- & Hi). apply in_seq in Hi. unfold clu_wf, tx_clu, inS, inU in *. cbn [cl_pt cl_empt cl_pterr cl_eta cl_phi cl_flags]. lia. }
    split; [split; [apply W; unfold inS; lia|unfold fits; cbn; lia]|]. split; [split; [apply W; unfold inS; lia|unfold fits; cbn; lia]|]. split; (split; [constructor|unfold fits; cbn; lia]). }
  assert (G : good_event (tx_event 7 dx_neg)).
  { split.
    - split; [unfold inU; cbn; lia|]. split; [unfold inU; cbn; lia|]. split; [unfold inU; cbn; lia|]. split; [repeat constructor; cbn; lia|]. split; [apply Forall_cons; [exact RW|constructor]|unfold fits; cbn; lia].
    - split; [|discriminate]. apply Forall_cons; [unfold region_finite, f32_finite; vm_compute; discriminate|constructor]. }
  exists [tx_event 7 dx_neg]. eexists. eexists. eexists. eexists.
  split; [apply Forall_cons; [exact G|constructor]|]. split; [intros i; repeat split; discriminate || reflexivity|].
  split; [intros i; repeat split; discriminate || reflexivity|]. split; [vm_compute; reflexivity|]. split; [vm_compute; reflexivity|]. cbn. discriminate.
Qed.
Print Assumptions C94_pf_negative_refuted.

(** A concrete case: two tests, and two different memories.  For the regionizers
    and the vertex finder see C58_hyp, C61_hyp and C93_hyp. *)
Example C94_hyp : build_ok MP7 cfg_TESTMP7 /\ (NSELCALO cfg_TESTMP7 <= NCALO cfg_TESTMP7)%nat /\ (forall t, mem_typed (tx_mem t)) /\ mem_typed dx_mem /\ arrays_ok cfg_TESTMP7 (tx_arr cfg_TESTMP7) /\
  Forall good_event [tx_event 7 tx_good; tx_event 8 tx_good] /\ Forall no_negative_cluster (tested cfg_TESTMP7 (fun x => x) NTEST [tx_event 7 tx_good; tx_event 8 tx_good]) /\
  match dx_main mem0 [tx_event 7 tx_good; tx_event 8 tx_good], dx_main dx_mem [tx_event 7 tx_good; tx_event 8 tx_good] with
  | Some (Ok (code, runs)), Some (Ok (code', runs')) => code = 0 /\ code' = 0 /\ length runs = 2%nat /\ map pr_out runs = map pr_out runs' /\ Exists (fun w => w <> 0) (nth 1 (map pr_out runs) [])
  | _, _ => False
  end.
Proof.
  split; [apply C57_builds|]. split; [apply Nat.leb_le; reflexivity|]. split; [intros t i; repeat split; discriminate || reflexivity|]. split; [intros i; repeat split; discriminate || reflexivity|]. split; [repeat split|].
  split; [apply C57_hyp|]. split. { apply Forall_forall. intros r Hr. vm_compute in Hr. repeat (destruct Hr as [<-|Hr]; [unfold no_negative_cluster; repeat (apply Forall_cons; [cbn; lia|]); constructor|]). destruct Hr. }
  vm_compute. split; [reflexivity|]. split; [reflexivity|]. split; [reflexivity|]. split; [reflexivity|]. apply Exists_cons_hd. discriminate.
Qed.
