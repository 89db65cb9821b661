(** The PUPPI test program. *)
From Verif Require Import Base Data PFHw PFRef SpecPF Puppi SpecPuppi Bhv Vtx Discrete Convert DiscreteIO SpecIO RegionLoop SpecTest PFTestProofs PuppiTest SpecPuppiTest PuppiTestProofs Props_PFTest.

(** ** C68 *)
(** In every configuration of data.h the program reads beyond its track array
    as soon as there is a region: the vertex search takes 64 tracks. *)
Theorem C68_completes_refuted : forall c special tab mr vold g arr evs r l, In c [cfg_TESTMP7; cfg_TESTCTP7; cfg_default] ->
  arrays_ok c arr -> Forall good_event evs -> tested c special PP_NTEST evs = r :: l ->
  exists N k, (forall fuel, (N <= fuel)%nat -> pp_main c special (Ok true) fuel tab NALLTRACK mr vold g arr (Some (dump evs)) = Some (UB k)) /\ (forall q, ref_on c (mr 1%nat) r = Ok q -> k = OutOfBounds).
Proof. exact c68_refuted. Qed.
Print Assumptions C68_completes_refuted.
Theorem C68_no_region : forall c special tab nall mr vold g arr evs, arrays_ok c arr -> Forall good_event evs -> tested c special PP_NTEST evs = [] ->
  exists N, forall fuel, (N <= fuel)%nat -> pp_main c special (Ok true) fuel tab nall mr vold g arr (Some (dump evs)) = Some (Ok (0, [])).
Proof. exact c68_empty. Qed.
Print Assumptions C68_no_region.
(** With a vertex search over [nall] tracks: a run that ends has printed, test
    by test, the reference's neutrals with equal puppi pts; and it ends if the
    tracks are there and nothing overflows.  Missing: nall = 64 with the
    configurations of data.h. *)
Theorem C68_lines_agree_partial : forall c special tab nall mr vold g arr evs, table_ok tab -> arrays_ok c arr -> Forall good_event evs ->
  exists N, forall fuel, (N <= fuel)%nat ->
    (forall code out, pp_main c special (Ok true) fuel tab nall mr vold g arr (Some (dump evs)) = Some (Ok (code, out)) ->
       code = 0 /\ length out = length (tested c special PP_NTEST evs) /\
       forall i r, nth_error (tested c special PP_NTEST evs) i = Some r -> exists lines, nth_error out i = Some lines /\ report c tab nall (mr (1 + i)%nat) (vold (1 + i)%nat) r lines) /\
    ((nall <= NTRACK c)%nat -> (forall i r, nth_error (tested c special PP_NTEST evs) i = Some r -> computable c nall (mr (1 + i)%nat) (vold (1 + i)%nat) r) ->
       exists out, pp_main c special (Ok true) fuel tab nall mr vold g arr (Some (dump evs)) = Some (Ok (0, out))).
Proof. exact c68_partial. Qed.
Print Assumptions C68_lines_agree_partial.
(** the two puppi programs agree whenever both are defined *)
Theorem C20_equal_when_defined : forall tab pfch pfne z r r', table_ok tab -> Forall (fun c => inS 16 (c_pt c)) pfch -> Forall (fun n => inS 16 (n_pt n)) pfne -> (forall n, In n pfne -> n_pt n = 0 -> n_puppi n = 0) ->
  simple_puppi_hw tab pfch pfne z = Ok r -> simple_puppi_ref tab pfch pfne z = Ok r' ->
  r = r' /\ r = map (fun n => set_puppi n (puppi_pt tab (n_pt n) (alpha_sum z pfch n))) pfne.
Proof. exact eq_when_defined. Qed.
Print Assumptions C20_equal_when_defined.

(** the program on two events, in a configuration of data.h and in one with 64 tracks *)
Definition ptx_tab : list Z := repeat 128 (Z.to_nat 1174).
Definition ptx_main (c : config) : option (res (Z * list (list (Z * Z * Z)))) :=
  pp_main c (fun x => x) (Ok true) 20 ptx_tab NALLTRACK tx_mem (fun _ => mkVtx 0 0 0 0) 0 (tx_arr c) (Some (dump [tx_event 7 tx_good; tx_event 8 tx_good])).
Example C68_hyp : table_ok ptx_tab /\ length (tested cfg_default (fun x => x) PP_NTEST [tx_event 7 tx_good; tx_event 8 tx_good]) = 2%nat /\
  ptx_main cfg_default = Some (UB OutOfBounds) /\
  match ptx_main (mkCfg 64 5 2 5 4) with Some (Ok (code, out)) => Some (code, map (firstn 7) out) | _ => None end =
  Some (0, [[(100, 100, 100); (0, 0, 0); (0, 0, 0); (0, 0, 0); (0, 0, 0); (100, 100, 100); (0, 0, 0)];
            [(100, 100, 100); (0, 0, 0); (0, 0, 0); (0, 0, 0); (0, 0, 0); (100, 100, 100); (0, 0, 0)]]).
Proof.
  split; [split; [reflexivity|apply Forall_forall; intros w Hw; apply repeat_spec in Hw; subst; lia]|].
  split; [vm_compute; reflexivity|]. split; vm_compute; reflexivity.
Qed.
