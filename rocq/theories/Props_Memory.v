(** C83: particle flow keeps no memory of what was in its buffers before the call. *)
From Verif Require Import Base Data PFHw PFRef Encoding SpecOut SpecTest SpecMemory Witness MemProofs.

(** firmware: whatever the output arrays, the intermediate array and the sorter's buffer held
    before, the particles are the same, and so is the way in which the run is undefined *)
Theorem C83_firmware : forall mem mem' nsel em had track mu, (nsel <= length had)%nat -> Forall (fun h => 0 <= h_pt h) had ->
  same_result (pfalgo3_full mem nsel em had track mu) (pfalgo3_full mem' nsel em had track mu).
Proof. exact firmware_same. Qed.
Print Assumptions C83_firmware.
(** reference: for all inputs *)
Theorem C83_reference : forall mem mem' nsel em had track mu,
  same_result (pfalgo3_full_ref mem nsel em had track mu) (pfalgo3_full_ref mem' nsel em had track mu).
Proof. exact reference_same. Qed.
Print Assumptions C83_reference.
(** wrapped firmware: the words are exactly the same *)
Theorem C83_words : forall nch nem nhad ntk nmu nsel mem mem' input output, (nsel <= nhad)%nat ->
  (forall em had tk mu, mp7wrapped_unpack_in nch nem nhad ntk nmu input = Ok (em, had, tk, mu) -> Forall (fun h => 0 <= h_pt h) had) ->
  mp7wrapped_pfalgo3_full nch nem nhad ntk nmu nsel mem input output = mp7wrapped_pfalgo3_full nch nem nhad ntk nmu nsel mem' input output.
Proof. exact wrapper_same. Qed.
Print Assumptions C83_words.

Definition mem7 : pfmem := mkMem (fun i => mkNe 11 12 13 3 (Z.of_nat i)) (fun _ => mkNe 70 71 72 2 5) (fun i => mkNe 90 (Z.of_nat i) 6 3 4).
Example C83_firmware_hyp : (2 <= length ev_had)%nat /\ Forall (fun h => 0 <= h_pt h) ev_had /\
  exists o q, pfalgo3_full mem0 2 ev_em ev_had ev_tk ev_mu = Ok o /\ pfalgo3_full mem7 2 ev_em ev_had ev_tk ev_mu = Ok q /\ o <> q /\ Exists (fun x => 0 < n_pt x) (o_ne o ++ o_pho o).
Proof.
  split; [apply Nat.leb_le; reflexivity|]. split; [unfold ev_had; repeat (apply Forall_cons; [cbn; discriminate|]); constructor|].
  eexists. eexists. split; [vm_compute; reflexivity|]. split; [vm_compute; reflexivity|]. split; [discriminate|].
  apply Exists_exists. eexists. cbn [o_ne o_pho app]. split; [|shelve]. right. right. left. reflexivity.
  Unshelve. reflexivity.
Qed.
Example C83_words_hyp : exists em had tk mu, mp7wrapped_unpack_in 8 1 1 1 1 [655460; 2147483648; 1; 1048576; 2; 3758096384; 3; 4] = Ok (em, had, tk, mu) /\ Forall (fun h => 0 <= h_pt h) had /\
  exists out, mp7wrapped_pfalgo3_full 8 1 1 1 1 1 mem7 [655460; 2147483648; 1; 1048576; 2; 3758096384; 3; 4] (repeat 77 8) = Ok out.
Proof.
  eexists. eexists. eexists. eexists. split; [vm_compute; reflexivity|]. split; [apply Forall_cons; [cbn; discriminate|constructor]|].
  eexists. vm_compute. reflexivity.
Qed.

(** ** The two hypotheses on the firmware are needed *)
(** with a negative pt left in the calorimeter, the sorter's buffer shows through *)
Theorem C83_negative_refuted : exists mem mem' em had o q, Forall em_ok em /\ Forall had_ok had /\ (1 <= length had)%nat /\
  pfalgo3_full mem 1 em had [] [] = Ok o /\ pfalgo3_full mem' 1 em had [] [] = Ok q /\ map n_eta (o_ne o) <> map n_eta (o_ne q).
Proof.
  exists mem0, mem7, [mkEm (-16) 0 0 0], [mkHad (-17) 0 0 0 false]. eexists. eexists.
  split; [repeat (apply Forall_cons; [repeat split; cbn; discriminate || reflexivity|]); constructor|]. split; [repeat (apply Forall_cons; [repeat split; cbn; discriminate || reflexivity|]); constructor|]. split; [apply Nat.leb_le; reflexivity|].
  split; [vm_compute; reflexivity|]. split; [vm_compute; reflexivity|]. cbn. discriminate.
Qed.
Print Assumptions C83_negative_refuted.
(** asked for more neutrals than there are calorimeter objects, the firmware returns its buffer *)
Theorem C83_more_neutrals_refuted : exists mem mem' had o q, Forall had_ok had /\ Forall (fun h => 0 <= h_pt h) had /\
  pfalgo3_full mem 2 [] had [] [] = Ok o /\ pfalgo3_full mem' 2 [] had [] [] = Ok q /\ map n_eta (o_ne o) <> map n_eta (o_ne q).
Proof.
  exists mem0, mem7, [mkHad 17 0 0 0 false]. eexists. eexists.
  split; [repeat (apply Forall_cons; [repeat split; cbn; discriminate || reflexivity|]); constructor|]. split; [repeat (apply Forall_cons; [repeat split; cbn; discriminate || reflexivity|]); constructor|].
  split; [vm_compute; reflexivity|]. split; [vm_compute; reflexivity|]. cbn. discriminate.
Qed.
Print Assumptions C83_more_neutrals_refuted.
