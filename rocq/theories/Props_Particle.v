(** C89: the values read from the particles are those measured. *)
From Coq Require Import QArith Qabs Sorted.
From Verif Require Import Base Data Discrete DiscreteIO SpecIO Fill Convert PFHw Witness Particle SpecParticle ParticleProofs.
Local Open Scope Z_scope.

(** tracks filled from measurements, converted, reconstructed and converted
    back: every particle reads as the measurement of a track of its own *)
Theorem C89_charged : forall garb vs src NMAX any track mem nsel em had mu out,
  Forall2 filled_from vs src -> Forall in_region vs -> fits src -> length any = NMAX ->
  convert_in fw_tk tk0 NMAX src any = Ok track -> pfalgo3_full mem nsel em had track mu = Ok out ->
  exists ps is, convert_ch garb NMAX (o_ch out) src [] = Ok ps /\ StronglySorted lt is /\
    Forall2 (fun i p => exists v, nth_error vs i = Some v /\ reads_as v p) is ps.
Proof. exact chain. Qed.
Print Assumptions C89_charged.
Theorem C89_neutral : forall garb ins out, Forall (fun x => inS 16 (n_pt x) /\ inS 10 (n_eta x) /\ inS 10 (n_phi x)) ins ->
  exists ps, convert_ne garb (length ins) ins out = Ok (out ++ ps) /\ Forall2 reads_as_neutral (filter (fun x => n_pt x >? 0) ins) ps.
Proof. exact neutrals. Qed.
Print Assumptions C89_neutral.
(** the impact parameter and the weight of a neutral particle, and the weight
    of a charged one, are whatever the memory held *)
Theorem C89_neutral_indeterminate : exists ins garb garb' ps ps', convert_ne garb (length ins) ins [] = Ok ps /\ convert_ne garb' (length ins) ins [] = Ok ps' /\
  map part_dz ps <> map part_dz ps' /\ map part_puppiw ps <> map part_puppiw ps'.
Proof. exact neutral_dz_free. Qed.
Print Assumptions C89_neutral_indeterminate.
Theorem C89_charged_indeterminate : exists ins src garb garb' ps ps', convert_ch garb (length ins) ins src [] = Ok ps /\ convert_ch garb' (length ins) ins src [] = Ok ps' /\
  map part_puppiw ps <> map part_puppiw ps'.
Proof. exact charged_weight_free. Qed.
Print Assumptions C89_charged_indeterminate.
(** what is set is read, and nothing else changes *)
Theorem C89_set_weight : forall x p q, part_set_puppiw (Fin x) p = Ok q ->
  reads (part_puppiw q) x (1 # 180) /\ part_pt q = part_pt p /\ part_eta q = part_eta p /\ part_phi q = part_phi p /\
  part_vtx_eta q = part_vtx_eta p /\ part_vtx_phi q = part_vtx_phi p /\ part_dz q = part_dz p /\ part_charge q = part_charge p.
Proof. exact set_puppiw_reads. Qed.
Print Assumptions C89_set_weight.
Theorem C89_set_pt : forall x p q, part_set_pt (Fin x) p = Ok q ->
  reads (part_pt q) x (1275 # 10000) /\ part_puppiw q = part_puppiw p /\ part_eta q = part_eta p /\ part_phi q = part_phi p /\
  part_vtx_eta q = part_vtx_eta p /\ part_vtx_phi q = part_vtx_phi p /\ part_dz q = part_dz p /\ part_charge q = part_charge p.
Proof. exact set_pt_reads. Qed.
Print Assumptions C89_set_pt.

Definition mx_vs : list Measured :=
  [mkMeasured (123 # 10) (1 # 2) (-1 # 3) (4 # 10) (-3 # 10) 1 (5 # 2); mkMeasured (7 # 1) (-2 # 1) (2 # 1) (-19 # 10) (21 # 10) (-1) (-1 # 7)].
Definition mx_in (v : Measured) : ITk := match itk_fill (Fin (v_pt v)) (Fin (v_veta v)) (Fin (v_vphi v)) (v_charge v) (Fin (v_dz v)) 0 itk0 with Ok t => t | UB _ => itk0 end.
Definition mx_old (v : Measured) : PTk := mkPTk (mx_in v) 0 0 0 0 0 false false false.
Definition mx_tk (v : Measured) : PTk := match ptk_fill (Fin (v_pt v)) (Fin (1 # 1)) (Fin (2 # 1)) (Fin (v_eta v)) (Fin (v_phi v)) 0 (mx_old v) with Ok t => t | UB _ => ptk0 end.
Definition mx_track : list Tk := match convert_in fw_tk tk0 3 (map mx_tk mx_vs) [tk0; tk0; tk0] with Ok l => l | UB _ => [] end.
Definition mx_had : list HadCalo := [mkHad 60 115 (-76) 0 false; had0].
Definition mx_part : PFPart := mkPFPart 1 1 1 1 1 1 1 clu0 ptk0 true 1 1.
Lemma mx_filled : Forall2 filled_from mx_vs (map mx_tk mx_vs).
Proof.
  unfold mx_vs. cbn [map]. constructor; [|constructor; [|constructor]]; unfold filled_from.
  all: match goal with |- context [mx_tk ?v] => exists 0, itk0, (Fin (1 # 1)), (Fin (2 # 1)), 0, (mx_old v) end; (split; [cbn; unfold inU; lia|]); (split; [cbn; unfold inU; lia|]); split; vm_compute; reflexivity.
Qed.
Example C89_hyp : Forall2 filled_from mx_vs (map mx_tk mx_vs) /\ Forall in_region mx_vs /\ fits (map mx_tk mx_vs) /\
  convert_in fw_tk tk0 3 (map mx_tk mx_vs) [tk0; tk0; tk0] = Ok mx_track /\ exists out, pfalgo3_full mem0 2 [] mx_had mx_track [] = Ok out /\
  exists ps, convert_ch (fun _ => mx_part) 3 (o_ch out) (map mx_tk mx_vs) [] = Ok ps /\ map part_charge ps = [1; -1] /\ map part_pt ps = [Fin (49 # 4); Fin (7 # 1)].
Proof.
  split; [exact mx_filled|]. split; [unfold in_region; repeat constructor; vm_compute; discriminate|]. split; [unfold fits; cbn; lia|].
  split; [vm_compute; reflexivity|]. eexists. split; [vm_compute; reflexivity|]. eexists. split; [vm_compute; reflexivity|]. split; vm_compute; reflexivity.
Qed.
Example C89_set_hyp : exists q, part_set_puppiw (Fin (1 # 3)) mx_part = Ok q /\ pp_puppiw q = 33.
Proof. eexists. split; [vm_compute; reflexivity|]. reflexivity. Qed.
