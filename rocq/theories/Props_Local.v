(** C78: particle flow is local. *)
From Coq Require Import Permutation.
From Verif Require Import Base Data PFHw PFRef SpecLink SpecPF SpecSym SpecLocal LocalProofs Witness.

(** an isolated group: at its slots the event has the output of the group alone, and the group's neutral hadrons are among its own *)
Theorem C78_isolated_group : forall qe qh qt qm em em' had had' track track' mu mu' mem mem' out',
  isolated qe qh qt qm em em' had had' track track' mu mu' -> phys em' had' track' mu' ->
  pfalgo3_full mem' (length had') em' had' track' mu' = Ok out' ->
  exists out, pfalgo3_full mem (length had) em had track mu = Ok out /\
    at_slots id qt (o_ch out) (o_ch out') /\ at_slots no_puppi qe (o_pho out) (o_pho out') /\ at_slots id qm (o_mu out) (o_mu out') /\
    exists rest, Permutation (map no_puppi (o_ne out')) (map no_puppi (o_ne out) ++ rest).
Proof. exact fw_isolated. Qed.
Print Assumptions C78_isolated_group.

(** two events far from each other: the outputs side by side *)
Theorem C78_superposition : forall em1 em2 had1 had2 track1 track2 mu1 mu2 mem1 mem2 mem,
  separated em1 em2 had1 had2 track1 track2 mu1 mu2 -> phys em1 had1 track1 mu1 -> phys em2 had2 track2 mu2 ->
  let run1 := pfalgo3_full mem1 (length had1) em1 had1 track1 mu1 in let run2 := pfalgo3_full mem2 (length had2) em2 had2 track2 mu2 in
  let run := pfalgo3_full mem (length (had1 ++ had2)) (em1 ++ em2) (had1 ++ had2) (track1 ++ track2) (mu1 ++ mu2) in
  (exists out1 out2 out, run1 = Ok out1 /\ run2 = Ok out2 /\ run = Ok out /\ o_ch out = o_ch out1 ++ o_ch out2 /\ map no_puppi (o_pho out) = map no_puppi (o_pho out1) ++ map no_puppi (o_pho out2) /\ o_mu out = o_mu out1 ++ o_mu out2 /\
     Permutation (map no_puppi (o_ne out)) (map no_puppi (o_ne out1) ++ map no_puppi (o_ne out2))) \/
  (run = UB SignedOverflow /\ (run1 = UB SignedOverflow \/ run2 = UB SignedOverflow)).
Proof. exact fw_superposition. Qed.
Print Assumptions C78_superposition.

(** fewer neutral hadrons: the head of the full list, everything else unchanged *)
Theorem C78_selection : forall em had track mu mem nsel, phys em had track mu -> (nsel <= length had)%nat ->
  (exists out all, pfalgo3_full mem nsel em had track mu = Ok out /\ pfalgo3_full mem (length had) em had track mu = Ok all /\ o_ch out = o_ch all /\ o_pho out = o_pho all /\ o_mu out = o_mu all /\ o_ne out = firstn nsel (o_ne all)) \/
  (pfalgo3_full mem nsel em had track mu = UB SignedOverflow /\ pfalgo3_full mem (length had) em had track mu = UB SignedOverflow).
Proof. exact fw_nsel. Qed.
Print Assumptions C78_selection.

(** an isolated group: at its slots the event has the output of the group alone, and the group's neutral hadrons are among its own *)
Theorem C78_reference_isolated_group : forall qe qh qt qm em em' had had' track track' mu mu' mem mem' out',
  isolated qe qh qt qm em em' had had' track track' mu mu' -> phys em' had' track' mu' ->
  pfalgo3_full_ref mem' (length had') em' had' track' mu' = Ok out' ->
  exists out, pfalgo3_full_ref mem (length had) em had track mu = Ok out /\
    at_slots id qt (o_ch out) (o_ch out') /\ at_slots no_puppi qe (o_pho out) (o_pho out') /\ at_slots id qm (o_mu out) (o_mu out') /\
    exists rest, Permutation (map no_puppi (o_ne out')) (map no_puppi (o_ne out) ++ rest).
Proof. exact ref_isolated. Qed.
Print Assumptions C78_reference_isolated_group.

(** two events far from each other: the outputs side by side *)
Theorem C78_reference_superposition : forall em1 em2 had1 had2 track1 track2 mu1 mu2 mem1 mem2 mem,
  separated em1 em2 had1 had2 track1 track2 mu1 mu2 -> phys em1 had1 track1 mu1 -> phys em2 had2 track2 mu2 ->
  let run1 := pfalgo3_full_ref mem1 (length had1) em1 had1 track1 mu1 in let run2 := pfalgo3_full_ref mem2 (length had2) em2 had2 track2 mu2 in
  let run := pfalgo3_full_ref mem (length (had1 ++ had2)) (em1 ++ em2) (had1 ++ had2) (track1 ++ track2) (mu1 ++ mu2) in
  (exists out1 out2 out, run1 = Ok out1 /\ run2 = Ok out2 /\ run = Ok out /\ o_ch out = o_ch out1 ++ o_ch out2 /\ map no_puppi (o_pho out) = map no_puppi (o_pho out1) ++ map no_puppi (o_pho out2) /\ o_mu out = o_mu out1 ++ o_mu out2 /\
     Permutation (map no_puppi (o_ne out)) (map no_puppi (o_ne out1) ++ map no_puppi (o_ne out2))) \/
  (run = UB SignedOverflow /\ (run1 = UB SignedOverflow \/ run2 = UB SignedOverflow)).
Proof. exact ref_superposition. Qed.
Print Assumptions C78_reference_superposition.

(** fewer neutral hadrons: the head of the full list, everything else unchanged *)
Theorem C78_reference_selection : forall em had track mu mem nsel, phys em had track mu -> (nsel <= length had)%nat ->
  (exists out all, pfalgo3_full_ref mem nsel em had track mu = Ok out /\ pfalgo3_full_ref mem (length had) em had track mu = Ok all /\ o_ch out = o_ch all /\ o_pho out = o_pho all /\ o_mu out = o_mu all /\ o_ne out = firstn nsel (o_ne all)) \/
  (pfalgo3_full_ref mem nsel em had track mu = UB SignedOverflow /\ pfalgo3_full_ref mem (length had) em had track mu = UB SignedOverflow).
Proof. exact ref_nsel. Qed.
Print Assumptions C78_reference_selection.

(** two events of every kind of object, 200 units apart *)
Definition sa_em := [mkEm 400 20 100 0]. Definition sa_had := [mkHad 300 50 50 0 false; mkHad 420 101 1 400 true].
Definition sa_tk := [mkTk 200 10 50 52 7 true; mkTk 300 10 100 1 (-3) true]. Definition sa_mu := [mkMu 160 0 200 200].
Definition sb_em := [mkEm 90 9 (-300) 3]. Definition sb_had := [mkHad 95 (-299) 3 90 true; mkHad 500 (-250) 40 0 false].
Definition sb_tk := [mkTk 150 15 (-100) (-100) 0 false; mkTk 100 5 (-252) 41 1 true]. Definition sb_mu := [mkMu 160 0 (-105) (-100)].
Example C78_hyp : separated sa_em sb_em sa_had sb_had sa_tk sb_tk sa_mu sb_mu /\ phys sa_em sa_had sa_tk sa_mu /\ phys sb_em sb_had sb_tk sb_mu.
Proof.
  split; [|split; concrete]. split; cbn; intros x y H;
    repeat match goal with H : _ \/ _ |- _ => destruct H | H : _ /\ _ |- _ => destruct H | H : False |- _ => destruct H end; subst; vm_compute; discriminate.
Qed.
Example C78_case : exists out, pfalgo3_full mem0 4 (sa_em ++ sb_em) (sa_had ++ sb_had) (sa_tk ++ sb_tk) (sa_mu ++ sb_mu) = Ok out /\
  map n_pt (o_pho out) = [100; 90] /\ map n_pt (o_ne out) = [400; 100; 0; 0] /\ map c_pt (o_mu out) = [0; 150] /\ map c_id (o_ch out) = [PID_Charged; PID_Electron; PID_Muon; PID_Charged].
Proof. eexists. split; [vm_compute; reflexivity|]. split; [reflexivity|]. split; [reflexivity|]. split; reflexivity. Qed.
(** a group in the middle of an event *)
Example C78_group_hyp : isolated (fun i => i) (fun i => i + 1)%nat (fun i => 2 * i)%nat (fun i => i) [] [] [mkHad 300 50 50 0 false] [mkHad 90 0 0 0 false; mkHad 300 50 50 0 false] [mkTk 200 10 50 52 7 true; mkTk 60 10 51 52 7 true] [mkTk 200 10 50 52 7 true; mkTk 80 9 2 0 0 true; mkTk 60 10 51 52 7 true] [] [].
Proof.
  assert (E : forall A (q : nat -> nat), picks q (@nil A) []) by (intros A q; split; cbn; intros; lia).
  split; try apply E.
  - split; [intros [|i] I; [reflexivity|cbn in I; lia]|cbn; intros; lia].
  - split; [intros [|[|i]] I; [reflexivity|reflexivity|cbn in I; lia]|cbn; intros; lia].
  - intros i j x y _ Y. destruct j; discriminate.
  - intros i j x y X. destruct i; discriminate.
  - intros [|[|[|i]]] [|[|j]] x y X Y O; cbn in X, Y; try (destruct i; discriminate); try (destruct j; discriminate); injection X as <-; injection Y as <-; try (vm_compute; discriminate); exfalso; cbn [length] in O; unfold inside in O.
    + destruct O as [(_ & O)|(O & _)]; apply O; exists 0%nat; split; (lia || reflexivity).
    + destruct O as [((k & K & Q) & _)|(_ & (k & K & Q))]; lia.
    + destruct O as [(_ & O)|(O & _)]; [apply O; exists 0%nat|apply O; exists 1%nat]; split; (lia || reflexivity).
  - intros i j x y X. destruct i; discriminate.
Qed.
(** the distances are needed: a track at squared distance 82 of a cluster of the other event takes its energy, *)
Theorem C78_close_events_refuted : exists em1 track2 out1 out2 out, phys em1 [] [] [] /\ phys [] [] track2 [] /\
  (forall t e, In t track2 -> In e em1 -> dist2 (t_eta t) (t_phi t) (e_eta e) (e_phi e) = 82) /\
  pfalgo3_full mem0 0 em1 [] [] [] = Ok out1 /\ pfalgo3_full mem0 0 [] [] track2 [] = Ok out2 /\ pfalgo3_full mem0 0 em1 [] track2 [] = Ok out /\
  map no_puppi (o_pho out) <> map no_puppi (o_pho out1) ++ map no_puppi (o_pho out2).
Proof.
  exists [mkEm 100 5 0 0], [mkTk 100 5 9 1 0 true]. eexists. eexists. eexists. split; [concrete|]. split; [concrete|].
  split; [intros t e [<-|[]] [<-|[]]; reflexivity|]. split; [vm_compute; reflexivity|]. split; [vm_compute; reflexivity|]. split; [vm_compute; reflexivity|]. cbn. discriminate.
Qed.
Print Assumptions C78_close_events_refuted.
