(** C85: energy is counted once. *)
From Verif Require Import Base Data PFHw PFRef SpecLink SpecPF SpecShare ShareProofs PFWrap Witness.

(** firmware *)
Theorem C85_firmware : forall em had track mu mem nsel out, phys em had track mu -> (nsel <= length had)%nat ->
  sums_fit em had track mu (Some 131071) false -> pfalgo3_full mem nsel em had track mu = Ok out ->
  accounted em had track out /\
  sumZ (map n_pt (o_pho out)) <= sumZ (map e_pt em) /\ sumZ (map n_pt (o_ne out)) <= sumZ (map h_pt had) /\ sumZ (map c_pt (o_ch out)) <= sumZ (map t_pt track) /\
  sumZ (map n_pt (o_pho out)) + sumZ (map n_pt (o_ne out)) <= energy_seen em had.
Proof. exact hw_budget. Qed.
Print Assumptions C85_firmware.
(** reference *)
Theorem C85_reference : forall em had track mu mem nsel out, phys em had track mu -> (nsel <= length had)%nat ->
  sums_fit em had track mu None true -> clean_empty track -> pfalgo3_full_ref mem nsel em had track mu = Ok out ->
  accounted em had track out /\
  sumZ (map n_pt (o_pho out)) <= sumZ (map e_pt em) /\ sumZ (map n_pt (o_ne out)) <= sumZ (map h_pt had) /\ sumZ (map c_pt (o_ch out)) <= sumZ (map t_pt track) /\
  sumZ (map n_pt (o_pho out)) + sumZ (map n_pt (o_ne out)) <= energy_seen em had.
Proof. exact ref_budget. Qed.
Print Assumptions C85_reference.

(** a jet: an EM cluster inside a hadronic one, an electron track on it and a charged hadron; the budget is met exactly *)
Definition sh_em1 := [mkEm 400 20 100 0; mkEm 50 3 (-200) 10].
Definition sh_had1 := [mkHad 900 102 3 300 false].
Definition sh_tk1 := [mkTk 300 10 100 1 (-3) true; mkTk 250 12 110 5 1 true].
Example C85_hyp : phys sh_em1 sh_had1 sh_tk1 [] /\ (1 <= length sh_had1)%nat /\ sums_fit sh_em1 sh_had1 sh_tk1 [] (Some 131071) false /\ sums_fit sh_em1 sh_had1 sh_tk1 [] None true /\ clean_empty sh_tk1 /\
  exists out, pfalgo3_full mem0 1 sh_em1 sh_had1 sh_tk1 [] = Ok out /\ map n_pt (o_pho out) = [100; 50] /\ map n_pt (o_ne out) = [250] /\ map c_id (o_ch out) = [PID_Electron; PID_Charged] /\ energy_seen sh_em1 sh_had1 = 950 /\
  exists ref, pfalgo3_full_ref mem0 1 sh_em1 sh_had1 sh_tk1 [] = Ok ref.
Proof.
  assert (P : phys sh_em1 sh_had1 sh_tk1 []) by concrete. assert (N : no_overflow sh_em1 sh_tk1) by concrete.
  split; [exact P|]. split; [apply Nat.leb_le; reflexivity|]. split; [exact (no_overflow_fits _ _ _ _ _ _ P N)|]. split; [exact (no_overflow_fits _ _ _ _ _ _ P N)|]. split; [concrete; discriminate|].
  eexists. split; [vm_compute; reflexivity|]. split; [reflexivity|]. split; [reflexivity|]. split; [reflexivity|]. split; [vm_compute; reflexivity|]. eexists. vm_compute. reflexivity.
Qed.

(** if a sum of tracks does not fit sixteen bits, the firmware makes photons with more energy than there is *)
Theorem C85_overflow_refuted : exists em track out, phys em [] track [] /\ pfalgo3_full mem0 0 em [] track [] = Ok out /\ sumZ (map n_pt (o_pho out)) > energy_seen em [].
Proof.
  exists [mkEm 100 5 0 0], [mkTk 32500 10 0 0 0 true; mkTk 32500 10 1 0 0 true]. eexists. split; [concrete|]. split; [vm_compute; reflexivity|]. vm_compute. reflexivity.
Qed.
Print Assumptions C85_overflow_refuted.
