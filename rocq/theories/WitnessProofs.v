(** The refutation witnesses, evaluated. *)
From Verif Require Import Base BaseFacts Data PFHw PFRef TestUtils SpecLink SpecPF SpecOut SpecInert LinkFacts PFHwSpec Witness.

Lemma kw_refutes : exists em had track mu mem nsel o r,
  phys em had track mu /\ no_overflow em track /\ clean_empty track /\ Forall (fun t => t_pterr t <> 1) track /\
  (nsel <= length had)%nat /\
  pfalgo3_full mem nsel em had track mu = Ok o /\ pfalgo3_full_ref mem nsel em had track mu = Ok r /\ ~ agree r o.
Proof.
  exists kw_em, kw_had, kw_tk, [], mem0, 1%nat. eexists. eexists.
  split; [concrete|]. split; [concrete|]. split; [concrete; discriminate|]. split; [concrete; discriminate|]. split; [cbn; lia|].
  split; [vm_compute; reflexivity|]. split; [vm_compute; reflexivity|].
  intros (_ & _ & H & _). cbn in H. inversion H as [|? ? ? ? X]; subst. discriminate X.
Qed.
Lemma e1_refutes : exists em had track mu mem nsel o r,
  phys em had track mu /\ no_overflow em track /\ clean_empty track /\ ~ KeepConflict em had track mu /\
  (nsel <= length had)%nat /\
  pfalgo3_full mem nsel em had track mu = Ok o /\ pfalgo3_full_ref mem nsel em had track mu = Ok r /\ ~ agree r o.
Proof.
  exists [], e1_had, e1_tk, [], mem0, 2%nat. eexists. eexists.
  split; [concrete|]. split; [concrete|]. split; [concrete; discriminate|]. split; [apply no_conflict; vm_compute; reflexivity|]. split; [cbn; lia|].
  split; [vm_compute; reflexivity|]. split; [vm_compute; reflexivity|].
  intros (_ & _ & H & _). cbn in H. inversion H as [|? ? ? ? X]; subst. discriminate X.
Qed.
Lemma ov_refutes : exists em had track mu mem nsel o r,
  phys em had track mu /\ clean_empty track /\ Forall (fun t => t_pterr t <> 1) track /\ ~ KeepConflict em had track mu /\
  (nsel <= length had)%nat /\
  pfalgo3_full mem nsel em had track mu = Ok o /\ pfalgo3_full_ref mem nsel em had track mu = Ok r /\ ~ agree r o.
Proof.
  exists ov_em, [], ov_tk, [], mem0, 0%nat. eexists. eexists.
  split; [concrete|]. split; [concrete; discriminate|]. split; [concrete; discriminate|]. split; [apply no_conflict; vm_compute; reflexivity|]. split; [cbn; lia|].
  split; [vm_compute; reflexivity|]. split; [vm_compute; reflexivity|].
  intros (_ & H & _). cbn in H. inversion H as [|? ? ? ? X]; subst. discriminate X.
Qed.
Lemma es_refutes : exists em had track mu mem nsel o0 o1 p0 p1,
  phys (em ++ [em0]) had track mu /\ no_overflow (em ++ [em0]) track /\ clean_empty track /\ (nsel <= length had)%nat /\
  pfalgo3_full mem nsel em had track mu = Ok o0 /\
  pfalgo3_full mem nsel (em ++ [em0]) had track mu = Ok o1 /\
  nth_error (o_pho o0) 0 = Some p0 /\ nth_error (o_pho o1) 0 = Some p1 /\ n_pt p0 = 50 /\ n_pt p1 = 150.
Proof.
  exists es_em, [], es_tk, [], mem0, 0%nat. eexists. eexists. eexists. eexists.
  split; [concrete|]. split; [concrete|]. split; [concrete; discriminate|]. split; [cbn; lia|].
  split; [vm_compute; reflexivity|]. split; [vm_compute; reflexivity|].
  split; [reflexivity|]. split; [reflexivity|]. split; reflexivity.
Qed.

Lemma near_hyp :
  let em := [mkEm 400 20 100 0] in let track := [mkTk 200 10 1 2 0 true; mkTk 300 10 100 1 0 true; tk0] in
  phys (em ++ em0 :: []) ev_had track [] /\ clean_empty track /\
  is_best (cand_tk_em (em ++ em0 :: []) (mkTk 200 10 1 2 0 true)) 1 /\
  (forall i tk, nth_error track i = Some tk -> t_pt tk <> 0 -> ~ MuTrack track [] i -> ~ takes_from em em0 [] tk) /\
  sum_where (fun _ tk => dist2 (t_eta tk) (t_phi tk) (e_eta em0) (e_phi em0) <? 84) t_pt track <= 32767.
Proof.
  cbv zeta. split; [concrete|]. split; [concrete; discriminate|]. split; [apply best_spec; vm_compute; reflexivity|]. split; [|vm_compute; discriminate].
  intros i tk Hi Hp _ [B S]. apply nth_error_In in Hi. destruct Hi as [<-|[<-|[<-|[]]]].
  - revert S. apply best_None. vm_compute. reflexivity.
  - apply best_spec in B. vm_compute in B. discriminate.
  - apply Hp. reflexivity.
Qed.
Lemma empty_photon_refutes : exists had track mu mem nsel o0 o1 p,
  phys [em0] had track mu /\ clean_empty track /\ (nsel <= length had)%nat /\
  (forall tk, In tk track -> ~ takes_from [] em0 [] tk) /\
  pfalgo3_full mem nsel [] had track mu = Ok o0 /\ o_pho o0 = [] /\
  pfalgo3_full mem nsel [em0] had track mu = Ok o1 /\ o_pho o1 = [p] /\ n_pt p = 25536.
Proof.
  exists [had0], [mkTk 20000 10 0 0 0 true; mkTk 20000 10 0 0 0 true], [], mem0, 1%nat. eexists. eexists. eexists.
  split; [concrete|]. split; [concrete; discriminate|]. split; [cbn; lia|]. split.
  - intros tk _ [_ (j & w & S)]. destruct j; discriminate.
  - split; [vm_compute; reflexivity|]. split; [reflexivity|]. split; [vm_compute; reflexivity|]. split; reflexivity.
Qed.
