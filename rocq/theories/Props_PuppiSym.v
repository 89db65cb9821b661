(** C79: what the PUPPI weight of a neutral depends on. *)
From Coq Require Import Permutation.
From Verif Require Import Base Data PFHw Puppi SpecPF SpecPuppi SpecSym SpecPuppiSym SymProofs PuppiProofs PuppiExact PuppiSym.

(** each neutral is treated as if it were the only one *)
Theorem C79_neutrals_independent : forall tab pfch pfne z r,
  simple_puppi_hw tab pfch pfne z = Ok r <-> Forall2 (fun n n' => simple_puppi_hw tab pfch [n] z = Ok [n']) pfne r.
Proof. exact hw_singles. Qed.
Print Assumptions C79_neutrals_independent.
Theorem C79_reference_neutrals_independent : forall tab pfch pfne z r,
  simple_puppi_ref tab pfch pfne z = Ok r <-> Forall2 (fun n n' => simple_puppi_ref tab pfch [n] z = Ok [n']) pfne r.
Proof. exact ref_singles. Qed.
Print Assumptions C79_reference_neutrals_independent.

(** moving the event in the plane, and the vertex with the tracks along the beam, moves the output; overflow included *)
Theorem C79_motion : forall tab mv s pfch pfne z, isometry mv ->
  simple_puppi_hw tab (map (move_ch mv s) pfch) (map (move_ne mv) pfne) (z + s) = rmap (map (move_ne mv)) (simple_puppi_hw tab pfch pfne z).
Proof. exact hw_moved. Qed.
Print Assumptions C79_motion.
Theorem C79_reference_motion : forall tab mv s pfch pfne z, isometry mv ->
  simple_puppi_ref tab (map (move_ch mv s) pfch) (map (move_ne mv) pfne) (z + s) = rmap (map (move_ne mv)) (simple_puppi_ref tab pfch pfne z).
Proof. exact ref_moved. Qed.
Print Assumptions C79_reference_motion.

(** charged candidates away from the vertex or out of the cone of every neutral can be dropped *)
Theorem C79_unseen_charged : forall tab pfch pfne z keep, (forall c n, In c pfch -> In n pfne -> keep c = false -> unseen z c n) ->
  simple_puppi_hw tab (filter keep pfch) pfne z = simple_puppi_hw tab pfch pfne z.
Proof. exact hw_unseen. Qed.
Print Assumptions C79_unseen_charged.
(** the reference does not even look at empty neutrals *)
Theorem C79_reference_unseen_charged : forall tab pfch pfne z keep, (forall c n, In c pfch -> In n pfne -> n_pt n <> 0 -> keep c = false -> unseen z c n) ->
  simple_puppi_ref tab (filter keep pfch) pfne z = simple_puppi_ref tab pfch pfne z.
Proof. exact ref_unseen. Qed.
Print Assumptions C79_reference_unseen_charged.

(** the order of the charged candidates: irrelevant for the reference, *)
Theorem C79_reference_order : forall tab pfch pfch' pfne z, table_ok tab -> Forall (fun c => inS 16 (c_pt c)) pfch -> Forall (fun n => inS 16 (n_pt n)) pfne -> Permutation pfch pfch' ->
  simple_puppi_ref tab pfch pfne z = simple_puppi_ref tab pfch' pfne z.
Proof. exact ref_order. Qed.
Print Assumptions C79_reference_order.
(** irrelevant for the value the firmware computes, if it computes one in both orders, *)
Theorem C79_order : forall tab pfch pfch' pfne z r r', table_ok tab -> Forall (fun n => inS 16 (n_pt n)) pfne -> Permutation pfch pfch' ->
  simple_puppi_hw tab pfch pfne z = Ok r -> simple_puppi_hw tab pfch' pfne z = Ok r' -> r = r'.
Proof. exact hw_order. Qed.
Print Assumptions C79_order.
(** and also for whether it computes one if no single contribution reaches 2^31; *)
Theorem C79_order_no_wrap : forall tab pfch pfch' pfne z, table_ok tab -> Forall (fun n => inS 16 (n_pt n)) pfne -> Permutation pfch pfch' ->
  (forall c n, In c pfch -> In n pfne -> alpha_term z c n < 2147483648) -> simple_puppi_hw tab pfch pfne z = simple_puppi_hw tab pfch' pfne z.
Proof. exact hw_order_full. Qed.
Print Assumptions C79_order_no_wrap.
(** beyond that, the order decides whether the sum overflows. *)
Theorem C79_order_decides_overflow_refuted : exists tab pfch pfch' pfne z r, table_ok tab /\ Forall ch_ok pfch /\ Forall ne_ok pfne /\ Permutation pfch pfch' /\
  simple_puppi_hw tab pfch pfne z = UB SignedOverflow /\ simple_puppi_hw tab pfch' pfne z = Ok r.
Proof.
  exists tab0, [mkCh 1400 0 0 0 0; mkCh 1400 0 0 0 0; mkCh 1449 0 0 0 0], [mkCh 1400 0 0 0 0; mkCh 1449 0 0 0 0; mkCh 1400 0 0 0 0], [mkNe 100 0 0 0 0], 0. eexists.
  split; [exact tab0_ok|]. split; [repeat constructor; cbn; lia|]. split; [repeat constructor; cbn; lia|]. split; [constructor; constructor|].
  split; vm_compute; reflexivity.
Qed.
Print Assumptions C79_order_decides_overflow_refuted.

Definition pz_ch := [mkCh 120 10 10 0 5; mkCh 60 (-20) 15 0 (-100); mkCh 500 10 10 0 400; mkCh 90 300 10 0 5].
Definition pz_ne := [mkNe 200 30 10 3 0; mkNe 0 0 0 0 0; mkNe 80 (-60) 10 3 0].
Definition pz_keep (c : PFCh) := (Z.abs (c_z0 c) <=? 256) && (c_eta c <? 200).
(** the third is away from the vertex, the fourth from the neutrals: both dropped *)
Example C79_unseen_hyp : (forall c n, In c pz_ch -> In n pz_ne -> pz_keep c = false -> unseen 0 c n) /\ length (filter pz_keep pz_ch) = 2%nat.
Proof.
  split; [|reflexivity]. intros c n C N K. cbn in C, N. unfold unseen.
  repeat match goal with H : _ \/ _ |- _ => destruct H | H : False |- _ => destruct H end; subst; cbn in K; try discriminate K; (left; cbn; lia) || (right; vm_compute; reflexivity).
Qed.
Example C79_case : exists r r', simple_puppi_hw (repeat 100 (Z.to_nat 1174)) pz_ch pz_ne 0 = Ok r /\ map n_puppi r = [200; 0; 31] /\
  simple_puppi_hw (repeat 100 (Z.to_nat 1174)) (map (move_ch (shift 40 (-100)) 50) pz_ch) (map (move_ne (shift 40 (-100))) pz_ne) 50 = Ok r' /\ map n_puppi r' = [200; 0; 31] /\ map n_eta r' = [70; 40; -20].
Proof. eexists. eexists. split; [vm_compute; reflexivity|]. split; [reflexivity|]. split; [vm_compute; reflexivity|]. split; reflexivity. Qed.
Example C79_order_hyp : Permutation pz_ch (rev pz_ch) /\ Forall (fun c => inS 16 (c_pt c)) pz_ch /\ Forall (fun n => inS 16 (n_pt n)) pz_ne /\ (forall c n, In c pz_ch -> In n pz_ne -> alpha_term 0 c n < 2147483648).
Proof.
  split; [apply Permutation_rev|]. split; [repeat constructor; cbn; lia|]. split; [repeat constructor; cbn; lia|].
  intros c n C N. cbn in C, N. repeat match goal with H : _ \/ _ |- _ => destruct H | H : False |- _ => destruct H end; subst; vm_compute; reflexivity.
Qed.
Example C79_motion_hyp : forall a b fe fp, isometry (shift a b) /\ isometry (mirror fe fp).
Proof. intros. split; [apply shift_isometry|apply mirror_isometry]. Qed.
