(** C76: moving an event moves the particle-flow output.
    C77: the order of the inputs of particle flow, where no ties occur. *)
From Coq Require Import Permutation.
From Verif Require Import Base Data PFHw PFRef SpecLink SpecPF SpecPFWrap SpecPFRef SpecSym SymProofs SymOrder Witness.

(** ** C76 *)
(** any distance-preserving motion that keeps the coordinates in their types, and any
    change of the order of the arrays that leaves the winner of every choice in front:
    slot [j] of every output list holds the moved object of slot [p j]; both
    runs are defined or neither *)
Theorem C76_firmware : forall mv pe ph pt pm em had track mu em' had' track' mu' mem mem' nsel, isometry mv -> phys em had track mu -> phys em' had' track' mu' -> (nsel <= length had)%nat ->
  rearranged (move_em mv) pe em em' -> rearranged (move_had mv) ph had had' -> rearranged (move_tk mv) pt track track' -> rearranged (move_mu mv) pm mu mu' ->
  choices_kept pe ph pt em had track mu (Some 131071) (had_left_w em had track mu) ->
  (exists out out', pfalgo3_full mem nsel em had track mu = Ok out /\ pfalgo3_full mem' nsel em' had' track' mu' = Ok out' /\
     corresponds (ch_moved mv) pt (o_ch out) (o_ch out') /\ corresponds (ne_moved mv) pe (o_pho out) (o_pho out') /\ corresponds (ch_moved mv) pm (o_mu out) (o_mu out') /\
     map n_pt (o_ne out') = map n_pt (o_ne out) /\ (neutrals_kept ph had (ne_pt_w em had track mu) -> Forall2 (ne_moved mv) (o_ne out) (o_ne out'))) \/
  (pfalgo3_full mem nsel em had track mu = UB SignedOverflow /\ pfalgo3_full mem' nsel em' had' track' mu' = UB SignedOverflow).
Proof. exact fw_symmetry. Qed.
Print Assumptions C76_firmware.
Theorem C76_reference : forall mv pe ph pt pm em had track mu em' had' track' mu' mem mem' nsel, isometry mv -> phys em had track mu -> phys em' had' track' mu' -> (nsel <= length had)%nat ->
  rearranged (move_em mv) pe em em' -> rearranged (move_had mv) ph had had' -> rearranged (move_tk mv) pt track track' -> rearranged (move_mu mv) pm mu mu' ->
  choices_kept pe ph pt em had track mu None (had_left_r em had track mu true) ->
  (exists out out', pfalgo3_full_ref mem nsel em had track mu = Ok out /\ pfalgo3_full_ref mem' nsel em' had' track' mu' = Ok out' /\
     corresponds (ch_moved mv) pt (o_ch out) (o_ch out') /\ corresponds (ne_moved mv) pe (o_pho out) (o_pho out') /\ corresponds (ch_moved mv) pm (o_mu out) (o_mu out') /\
     map n_pt (o_ne out') = map n_pt (o_ne out) /\ (neutrals_kept ph had (ne_pt_r em had track mu true) -> Forall2 (ne_moved mv) (o_ne out) (o_ne out'))) \/
  (pfalgo3_full_ref mem nsel em had track mu = UB SignedOverflow /\ pfalgo3_full_ref mem' nsel em' had' track' mu' = UB SignedOverflow).
Proof. exact ref_symmetry. Qed.
Print Assumptions C76_reference.

(** shifts (with the coordinates brought back to 10 bits) and sign changes of
    the axes, every slot left in place: no condition beyond the legal input *)
Theorem C76_shift : forall a b em had track mu mem mem' nsel, phys em had track mu -> (nsel <= length had)%nat ->
  let mv := shift a b in
  let run := pfalgo3_full mem nsel em had track mu in let run' := pfalgo3_full mem' nsel (map (move_em mv) em) (map (move_had mv) had) (map (move_tk mv) track) (map (move_mu mv) mu) in
  (exists out out', run = Ok out /\ run' = Ok out' /\ moved_out mv out out') \/ (run = UB SignedOverflow /\ run' = UB SignedOverflow).
Proof. intros a b em had track mu mem mem' nsel HP Hn. exact (fw_moved _ em had track mu mem mem' nsel (shift_isometry a b) HP (moved_phys _ _ _ _ _ (shift_bounded a b) HP) Hn). Qed.
Print Assumptions C76_shift.
Theorem C76_mirror : forall fe fp em had track mu mem mem' nsel, phys em had track mu -> (nsel <= length had)%nat ->
  let mv := mirror fe fp in
  let run := pfalgo3_full mem nsel em had track mu in let run' := pfalgo3_full mem' nsel (map (move_em mv) em) (map (move_had mv) had) (map (move_tk mv) track) (map (move_mu mv) mu) in
  (exists out out', run = Ok out /\ run' = Ok out' /\ moved_out mv out out') \/ (run = UB SignedOverflow /\ run' = UB SignedOverflow).
Proof. intros fe fp em had track mu mem mem' nsel HP Hn. exact (fw_moved _ em had track mu mem mem' nsel (mirror_isometry fe fp) HP (moved_phys _ _ _ _ _ (mirror_bounded fe fp) HP) Hn). Qed.
Print Assumptions C76_mirror.
Theorem C76_reference_shift : forall a b em had track mu mem mem' nsel, phys em had track mu -> (nsel <= length had)%nat ->
  let mv := shift a b in
  let run := pfalgo3_full_ref mem nsel em had track mu in let run' := pfalgo3_full_ref mem' nsel (map (move_em mv) em) (map (move_had mv) had) (map (move_tk mv) track) (map (move_mu mv) mu) in
  (exists out out', run = Ok out /\ run' = Ok out' /\ moved_out mv out out') \/ (run = UB SignedOverflow /\ run' = UB SignedOverflow).
Proof. intros a b em had track mu mem mem' nsel HP Hn. exact (ref_moved _ em had track mu mem mem' nsel (shift_isometry a b) HP (moved_phys _ _ _ _ _ (shift_bounded a b) HP) Hn). Qed.
Print Assumptions C76_reference_shift.
Theorem C76_reference_mirror : forall fe fp em had track mu mem mem' nsel, phys em had track mu -> (nsel <= length had)%nat ->
  let mv := mirror fe fp in
  let run := pfalgo3_full_ref mem nsel em had track mu in let run' := pfalgo3_full_ref mem' nsel (map (move_em mv) em) (map (move_had mv) had) (map (move_tk mv) track) (map (move_mu mv) mu) in
  (exists out out', run = Ok out /\ run' = Ok out' /\ moved_out mv out out') \/ (run = UB SignedOverflow /\ run' = UB SignedOverflow).
Proof. intros fe fp em had track mu mem mem' nsel HP Hn. exact (ref_moved _ em had track mu mem mem' nsel (mirror_isometry fe fp) HP (moved_phys _ _ _ _ _ (mirror_bounded fe fp) HP) Hn). Qed.
Print Assumptions C76_reference_mirror.

(** an event moved across the edge of the 10-bit range *)
Example C76_shift_case : exists out', pfalgo3_full mem0 2 (map (move_em (shift 420 0)) ev_em) (map (move_had (shift 420 0)) ev_had) (map (move_tk (shift 420 0)) ev_tk) (map (move_mu (shift 420 0)) ev_mu) = Ok out' /\
  map n_eta (o_pho out') = [-504; 0] /\ map n_pt (o_pho out') = [100; 0] /\ map c_id (o_ch out') = map c_id (o_ch ev_out) /\ map c_eta (o_mu out') = [320; 0].
Proof. eexists. split; [vm_compute; reflexivity|]. split; [reflexivity|]. split; [reflexivity|]. split; reflexivity. Qed.
Example C76_hyp : phys ev_em ev_had ev_tk ev_mu /\ (2 <= length ev_had)%nat /\ isometry (shift 420 0) /\ isometry (mirror true false).
Proof. split; [exact ev_phys|]. split; [cbn; lia|]. split; [apply shift_isometry|apply mirror_isometry]. Qed.
(** a scaling is not a symmetry: the distances matter *)
Example C76_not_isometry : ~ isometry (fun eta phi => (2 * eta, 2 * phi)).
Proof. intros H. specialize (H 0 0 3 4). vm_compute in H. discriminate. Qed.

(** ** C77 *)
(** the tracks in any order: the same photons, neutral hadrons and muons, the same charged candidates in another order *)
Theorem C77_track_order : forall em had track mu track' mem nsel, phys em had track mu -> (nsel <= length had)%nat -> Permutation track track' -> Forall (fun m => untied track (cand_mu_tk track m)) mu ->
  (exists out out', pfalgo3_full mem nsel em had track mu = Ok out /\ pfalgo3_full mem nsel em had track' mu = Ok out' /\
     Permutation (o_ch out) (o_ch out') /\ o_pho out' = o_pho out /\ o_ne out' = o_ne out /\ o_mu out' = o_mu out) \/
  (pfalgo3_full mem nsel em had track mu = UB SignedOverflow /\ pfalgo3_full mem nsel em had track' mu = UB SignedOverflow).
Proof. exact fw_track_order. Qed.
Print Assumptions C77_track_order.
Theorem C77_reference_track_order : forall em had track mu track' mem nsel, phys em had track mu -> (nsel <= length had)%nat -> Permutation track track' -> Forall (fun m => untied track (cand_mu_tk track m)) mu ->
  (exists out out', pfalgo3_full_ref mem nsel em had track mu = Ok out /\ pfalgo3_full_ref mem nsel em had track' mu = Ok out' /\
     Permutation (o_ch out) (o_ch out') /\ o_pho out' = o_pho out /\ o_ne out' = o_ne out /\ o_mu out' = o_mu out) \/
  (pfalgo3_full_ref mem nsel em had track mu = UB SignedOverflow /\ pfalgo3_full_ref mem nsel em had track' mu = UB SignedOverflow).
Proof. exact ref_track_order. Qed.
Print Assumptions C77_reference_track_order.

(** every array in any order *)
Theorem C77_any_order : forall em had track mu em' had' track' mu' mem mem' nsel, phys em had track mu -> (nsel <= length had)%nat ->
  Permutation em em' -> Permutation had had' -> Permutation track track' -> Permutation mu mu' ->
  no_ties em had track mu (Some 131071) (had_left_w em had track mu) ->
  (exists out out', pfalgo3_full mem nsel em had track mu = Ok out /\ pfalgo3_full mem' nsel em' had' track' mu' = Ok out' /\
     Permutation (o_ch out) (o_ch out') /\ Permutation (map no_puppi (o_pho out)) (map no_puppi (o_pho out')) /\ Permutation (o_mu out) (o_mu out') /\
     map n_pt (o_ne out') = map n_pt (o_ne out) /\ (distinct_neutrals had (ne_pt_w em had track mu) -> map no_puppi (o_ne out') = map no_puppi (o_ne out))) \/
  (pfalgo3_full mem nsel em had track mu = UB SignedOverflow /\ pfalgo3_full mem' nsel em' had' track' mu' = UB SignedOverflow).
Proof. exact fw_any_order. Qed.
Print Assumptions C77_any_order.
Theorem C77_reference_any_order : forall em had track mu em' had' track' mu' mem mem' nsel, phys em had track mu -> (nsel <= length had)%nat ->
  Permutation em em' -> Permutation had had' -> Permutation track track' -> Permutation mu mu' ->
  no_ties em had track mu None (had_left_r em had track mu true) ->
  (exists out out', pfalgo3_full_ref mem nsel em had track mu = Ok out /\ pfalgo3_full_ref mem' nsel em' had' track' mu' = Ok out' /\
     Permutation (o_ch out) (o_ch out') /\ Permutation (map no_puppi (o_pho out)) (map no_puppi (o_pho out')) /\ Permutation (o_mu out) (o_mu out') /\
     map n_pt (o_ne out') = map n_pt (o_ne out) /\ (distinct_neutrals had (ne_pt_r em had track mu true) -> map no_puppi (o_ne out') = map no_puppi (o_ne out))) \/
  (pfalgo3_full_ref mem nsel em had track mu = UB SignedOverflow /\ pfalgo3_full_ref mem' nsel em' had' track' mu' = UB SignedOverflow).
Proof. exact ref_any_order. Qed.
Print Assumptions C77_reference_any_order.

(** an event of every kind of object, padded with several empty slots, and its arrays reversed *)
Definition pd_em := ev_em ++ [em0; em0].
Definition pd_had := ev_had ++ [had0; mkHad 90 (-300) 40 0 false].
Definition pd_tk := ev_tk ++ [tk0; mkTk 85 9 (-299) 41 2 false; tk0].
Lemma pd_phys : phys pd_em pd_had pd_tk ev_mu.
Proof. concrete. Qed.
Example C77_hyp : phys pd_em pd_had pd_tk ev_mu /\ no_ties pd_em pd_had pd_tk ev_mu (Some 131071) (had_left_w pd_em pd_had pd_tk ev_mu) /\ no_ties pd_em pd_had pd_tk ev_mu None (had_left_r pd_em pd_had pd_tk ev_mu true) /\
  Permutation pd_em (rev pd_em) /\ Permutation pd_had (rev pd_had) /\ Permutation pd_tk (rev pd_tk).
Proof.
  split; [exact pd_phys|]. split; [apply no_tiesb_ok; vm_compute; reflexivity|]. split; [apply no_tiesb_ok; vm_compute; reflexivity|]. split; [apply Permutation_rev|]. split; apply Permutation_rev.
Qed.
Example C77_case : exists out out', pfalgo3_full mem0 2 pd_em pd_had pd_tk ev_mu = Ok out /\ pfalgo3_full mem0 2 (rev pd_em) (rev pd_had) (rev pd_tk) (rev ev_mu) = Ok out' /\
  map no_puppi (o_ne out') = map no_puppi (o_ne out) /\ map n_pt (o_ne out) = [100; 0] /\ o_ch out' = rev (o_ch out) /\ map n_pt (o_pho out') = [0; 0; 0; 100].
Proof. eexists. eexists. split; [vm_compute; reflexivity|]. split; [vm_compute; reflexivity|]. split; [reflexivity|]. split; [reflexivity|]. split; reflexivity. Qed.

(** with ties the order of the tracks can change the muon, *)
Theorem C77_track_ties_refuted : exists em had track mu track' mem nsel out out', phys em had track mu /\ (nsel <= length had)%nat /\ Permutation track track' /\
  pfalgo3_full mem nsel em had track mu = Ok out /\ pfalgo3_full mem nsel em had track' mu = Ok out' /\
  pfalgo3_full_ref mem nsel em had track mu = Ok out /\ pfalgo3_full_ref mem nsel em had track' mu = Ok out' /\ ~ Permutation (o_mu out) (o_mu out').
Proof.
  exists [], [], [mkTk 18 1 1 0 0 true; mkTk 22 1 0 1 0 true], [mkMu 20 1 0 0], [mkTk 22 1 0 1 0 true; mkTk 18 1 1 0 0 true], mem0, 0%nat. eexists. eexists.
  split; [concrete|]. split; [cbn; lia|]. split; [constructor|]. split; [vm_compute; reflexivity|]. split; [vm_compute; reflexivity|]. split; [vm_compute; reflexivity|]. split; [vm_compute; reflexivity|].
  cbn. intros P. apply Permutation_length_1 in P. discriminate.
Qed.
Print Assumptions C77_track_ties_refuted.
(** and the order of the EM clusters the photons *)
Theorem C77_cluster_ties_refuted : exists em had track mu em' mem nsel out out', phys em had track mu /\ (nsel <= length had)%nat /\ Permutation em em' /\
  pfalgo3_full mem nsel em had track mu = Ok out /\ pfalgo3_full mem nsel em' had track mu = Ok out' /\
  pfalgo3_full_ref mem nsel em had track mu = Ok out /\ pfalgo3_full_ref mem nsel em' had track mu = Ok out' /\ ~ Permutation (map no_puppi (o_pho out)) (map no_puppi (o_pho out')).
Proof.
  exists [mkEm 20 1 0 0; mkEm 40 1 2 0], [], [mkTk 20 1 1 0 0 true], [], [mkEm 40 1 2 0; mkEm 20 1 0 0], mem0, 0%nat. eexists. eexists.
  split; [concrete|]. split; [cbn; lia|]. split; [constructor|]. split; [vm_compute; reflexivity|]. split; [vm_compute; reflexivity|]. split; [vm_compute; reflexivity|]. split; [vm_compute; reflexivity|].
  cbn. intros P.
  apply (Permutation_in (40, 2, 0, PID_Photon)) in P; [|right; left; reflexivity]. cbn in P. destruct P as [P|[P|[]]]; discriminate.
Qed.
Print Assumptions C77_cluster_ties_refuted.
