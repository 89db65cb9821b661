(** C84: the pattern files of the particle-flow test program, read back from their characters,
    replay every test: in any memory the wrapped firmware turns the words of the input file into
    the words of the output file. *)
From Coq Require Import Ascii String.
From Verif Require Import Base Data PFHw PFRef Encoding SpecOut Discrete Convert DiscreteIO SpecIO RegionLoop PFTest SpecTest Serializer SerText SpecSer SpecReplay ReplayProofs Witness Props_PFTest.
Local Open Scope list_scope.
Local Open Scope Z_scope.

(** MP7: either multiplexed input file with either multiplexed output file (plain and with
    counting fillers), and the two files without multiplexing *)
Theorem C84_mp7_files_replay : forall validate c special mh mr evs runs code, (forall t, mem_typed (mh t)) -> (NSELCALO c <= NCALO c)%nat ->
  Forall (fun t => Forall (fun h => 0 <= h_pt h) (fw_calo (pr_region t))) runs -> forall ii board,
  build_ok MP7 c -> outcome MP7 validate c mh mr 1 (tested c special NTEST evs) runs code -> (1 <= ii)%nat -> (MP7_NCHANN mod ii = 0)%nat -> ~ In newline (chars board) ->
  exists in1 in2 in3 out1 out2 out3, pf_mp7_files ii (map pr_in runs) = Ok (in1, in2, in3) /\ pf_mp7_files ii (map pr_out runs) = Ok (out1, out2, out3) /\
    (forall fin fout, In fin [in1; in2] -> In fout [out1; out2] -> exists lin lout, mp7_read (mp7_text board (links ii 0) fin) = Some lin /\ mp7_read (mp7_text board (links ii 0) fout) = Some lout /\
       length lin = (ii * length runs)%nat /\ length lout = (ii * length runs)%nat /\
       forall i t, nth_error runs i = Some t -> replays MP7 c (test_words ii lin i) (test_words ii lout i) t) /\
    (exists lin lout, mp7_read (mp7_text board (links 1 0) in3) = Some lin /\ mp7_read (mp7_text board (links 1 0) out3) = Some lout /\
       length lin = length runs /\ length lout = length runs /\
       forall i t, nth_error runs i = Some t -> replays MP7 c (line_words lin i) (line_words lout i) t).
Proof. exact c84_mp7. Qed.
Print Assumptions C84_mp7_files_replay.
(** CTP7: the tests that leave a trace, the first 171, every sixth line *)
Theorem C84_ctp7_files_replay : forall validate c special mh mr evs runs code, (forall t, mem_typed (mh t)) -> (NSELCALO c <= NCALO c)%nat ->
  Forall (fun t => Forall (fun h => 0 <= h_pt h) (fw_calo (pr_region t))) runs ->
  build_ok CTP7 c -> outcome CTP7 validate c mh mr 1 (tested c special NTEST evs) runs code ->
  exists fin fout lin lout, pf_ctp7_file (in_size CTP7) (map pr_in runs) = Ok fin /\ pf_ctp7_file (out_size CTP7) (map pr_out runs) = Ok fout /\
    ctp7_read (ctp7_text true (in_size CTP7) fin) = Some lin /\ ctp7_read (ctp7_text false (out_size CTP7) fout) = Some lout /\
    length lin = Nat.min 1024 (6 * length runs) /\ length lout = Nat.min 1024 (6 * length runs) /\
    forall i t, nth_error (firstn 171 runs) i = Some t -> replays CTP7 c (line_words lin (6 * i)) (line_words lout (6 * i)) t.
Proof. exact c84_ctp7. Qed.
Print Assumptions C84_ctp7_files_replay.

Definition rp_region (c : config) : fwregion := fw_arrays c (fun x => x) (tx_event 7 tx_good) tx_good.
Definition rp_run (b : board) (c : config) : pfrun :=
  match hw_on c mem0 (rp_region c), ref_on c mem0 (rp_region c) with
  | Ok o, Ok q => mkRun (rp_region c) (padded (in_size b) (region_words (rp_region c))) (padded (out_size b) (output_words o)) o q
  | _, _ => mkRun (rp_region c) [] [] (mkOut [] [] [] []) (mkOut [] [] [] [])
  end.
Example C84_hyp : forall b c, (b, c) = (MP7, cfg_TESTMP7) \/ (b, c) = (CTP7, cfg_TESTCTP7) -> build_ok b c /\ (NSELCALO c <= NCALO c)%nat /\
  outcome b false c tx_mem tx_mem 1 (tested c (fun x => x) NTEST [tx_event 7 tx_good]) [rp_run b c] 0 /\
  Forall (fun t => Forall (fun h => 0 <= h_pt h) (fw_calo (pr_region t))) [rp_run b c] /\ Exists (fun x => 0 < n_pt x) (o_ne (pr_hw (rp_run b c))) /\ ~ In newline (chars "MP7_L1PF").
Proof.
  intros b c H. assert (B : build_ok b c) by (destruct C57_builds as (B1 & B2 & _); destruct H as [H|H]; injection H as -> ->; assumption).
  split; [exact B|]. split; [destruct H as [H|H]; injection H as -> ->; apply Nat.leb_le; reflexivity|]. split.
  - split; [|left; split; [reflexivity|]; split; [destruct H as [H|H]; injection H as -> ->; vm_compute; reflexivity|destruct H as [H|H]; injection H as -> ->; discriminate]].
    intros i run Hi. destruct i as [|i]; [|destruct i; discriminate Hi]. injection Hi as <-. exists (rp_region c). split; [destruct H as [H|H]; injection H as -> ->; vm_compute; reflexivity|].
    unfold run_ok. destruct H as [H|H]; injection H as -> ->.
    + split; [vm_compute; reflexivity|]. split; [vm_compute; reflexivity|]. exists (pr_hw (rp_run MP7 cfg_TESTMP7)). split; [vm_compute; reflexivity|]. split; [split; [reflexivity|]; split; [|split; [|reflexivity]]; induction (_ : list PFNe); constructor; auto; repeat split|].
      split; vm_compute; reflexivity.
    + split; [vm_compute; reflexivity|]. split; [vm_compute; reflexivity|]. exists (pr_hw (rp_run CTP7 cfg_TESTCTP7)). split; [vm_compute; reflexivity|]. split; [split; [reflexivity|]; split; [|split; [|reflexivity]]; induction (_ : list PFNe); constructor; auto; repeat split|].
      split; vm_compute; reflexivity.
  - split.
    + apply Forall_cons; [|constructor]. apply Forall_forall. intros h Hh. destruct H as [H|H]; injection H as -> ->; vm_compute in Hh; repeat (destruct Hh as [<-|Hh]; [discriminate|]); destruct Hh.
    + split; [|intros X; vm_compute in X; repeat (destruct X as [X|X]; [discriminate X|]); exact X].
      destruct H as [H|H]; injection H as -> ->; apply Exists_exists; vm_compute; eexists; split; [left; reflexivity|reflexivity|left; reflexivity|reflexivity].
Qed.
