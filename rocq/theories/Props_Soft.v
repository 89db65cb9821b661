(** C97: soft objects have no influence on harder ones, and more slots only
    add objects at the end. *)
From Coq Require Import Permutation.
From Verif Require Import Base SpecSort Regionizer SpecRegion SpecRegMove SpecCopies SpecSoft SoftProofs HardestProofs Props_RegMove.

(** Two events whose objects harder than [T] arrive in the same order in the
    sectors of a region show them in the same slots of the region, whatever
    their softer objects are. *)
Theorem C97_soft : forall A (d : A) T, 0 <= T -> forall nobj nsec nreg nf fibers fibers' out out' ie ip,
  fibres_ok nobj nf fibers -> fibres_ok nobj nf fibers' -> (ie < 3)%nat -> (ip < 6)%nat ->
  gives d nobj nsec nreg nf fibers out -> gives d nobj nsec nreg nf fibers' out' ->
  (forall j, (j < 3)%nat -> hard T (arrivals nf (nobj / nf) fibers (region_sector ip j)) = hard T (arrivals nf (nobj / nf) fibers' (region_sector ip j))) ->
  same_hard T (region out ie ip) (region out' ie ip).
Proof. exact @c97_regions. Qed.
Print Assumptions C97_soft.
Theorem C97_soft_muons : forall A (d : A) T, 0 <= T -> forall nmu fibers fibers' out out' ie ip,
  mu_ok nmu fibers -> mu_ok nmu fibers' -> (ie < 3)%nat -> (ip < 6)%nat ->
  gives_muons d nmu fibers out -> gives_muons d nmu fibers' out' ->
  (forall m, (m < 4)%nat -> hard T (firstn nmu (nth m fibers [])) = hard T (firstn nmu (nth m fibers' []))) ->
  same_hard T (region out ie ip) (region out' ie ip).
Proof. exact @c97_muons. Qed.
Print Assumptions C97_soft_muons.
(** ... and from the twelve muon sectors of the dump to the regions. *)
Theorem C97_soft_muon_chain : forall A (d : A) T, 0 <= T -> forall nmu input input' out0 out0' fibers fibers' out out' ie ip,
  dims2 12 nmu input -> dims2 12 nmu input' -> dims2 4 nmu out0 -> dims2 4 nmu out0' -> (ie < 3)%nat -> (ip < 6)%nat ->
  merge_muon_in d nmu input out0 = Ok fibers -> merge_muon_in d nmu input' out0' = Ok fibers' ->
  gives_muons d nmu fibers out -> gives_muons d nmu fibers' out' ->
  (forall s, (s < 12)%nat -> hard T (nth s input []) = hard T (nth s input' [])) ->
  same_hard T (region out ie ip) (region out' ie ip).
Proof. exact @c97_chain. Qed.
Print Assumptions C97_soft_muon_chain.

(** More slots per region only add slots at the end. *)
Theorem C97_more_slots : forall A (d : A) nobj nsec nreg nreg' nf fibers out out' ie ip, (nreg <= nreg')%nat ->
  fibres_ok nobj nf fibers -> (ie < 3)%nat -> (ip < 6)%nat ->
  gives d nobj nsec nreg nf fibers out -> gives d nobj nsec nreg' nf fibers out' ->
  region out ie ip = firstn nreg (region out' ie ip).
Proof. exact @c97_more_slots. Qed.
Print Assumptions C97_more_slots.

(** If a sector may keep as many objects as a region, the sectors lose nothing
    that matters: the region holds the hardest of all it is offered. *)
Theorem C97_hardest : forall A (d : A) nobj nsec nreg nf fibers out ie ip, (nreg <= nsec)%nat ->
  fibres_ok nobj nf fibers -> (ie < 3)%nat -> (ip < 6)%nat -> gives d nobj nsec nreg nf fibers out ->
  kept d nreg (offered (arrivals nf (nobj / nf) fibers) ie ip) (region out ie ip).
Proof. exact @c97_hardest. Qed.
Print Assumptions C97_hardest.
(** A muon region always holds the hardest of all the muons on the four fibres
    that belong in it (among equal pts, in some order). *)
Theorem C97_hardest_muons : forall A (d : A) nmu fibers out ie ip, mu_ok nmu fibers ->
  (forall fib x, In fib fibers -> In x (firstn nmu fib) -> 0 < r_pt x -> -180 < r_phi x <= 180) ->
  (ie < 3)%nat -> (ip < 6)%nat -> gives_muons d nmu fibers out ->
  exists order, Permutation order (mu_offered (fun m => firstn nmu (nth m fibers [])) ie ip) /\ kept d nmu order (region out ie ip).
Proof. exact @c97_hardest_muons. Qed.
Print Assumptions C97_hardest_muons.
(** Not so from the twelve sectors, since three of them share the slots of one
    fibre: a muon alone in its region is lost to two harder muons that belong
    elsewhere. *)
Theorem C97_muon_crowded_out_refuted : exists (input : list (list (robj Z))) x, dims2 12 2 input /\ (forall s y, (s < 12)%nat -> In y (nth s input []) -> -60 < r_phi y <= 60) /\
  In x (nth 1 input []) /\ mu_here 2 0 0 x = true /\
  forall out0 fibers out, dims2 4 2 out0 -> merge_muon_in 0 2 input out0 = Ok fibers -> gives_muons 0 2 fibers out -> region out 2 0 = [rclear 0; rclear 0].
Proof. exact (ex_intro _ crowd (ex_intro _ (mkR 5 200 0 3) c97_crowd)). Qed.
Print Assumptions C97_muon_crowded_out_refuted.

(** One hard object among softer ones, and alone: the same slot. *)
Definition sf_a : list (list (robj Z)) := repeat rm_none 3 ++ [[mkR 5 (-100) 10 1; mkR 9 (-80) (-20) 2]] ++ repeat rm_none 8.
Definition sf_b : list (list (robj Z)) := repeat rm_none 3 ++ [[mkR 9 (-80) (-20) 2; mkR 7 (-90) 3 4]] ++ repeat rm_none 8.
Example C97_hyp : fibres_ok 2 1 sf_a /\ fibres_ok 2 1 sf_b /\
  (forall j, (j < 3)%nat -> hard 8 (arrivals 1 (2 / 1) sf_a (region_sector 1 j)) = hard 8 (arrivals 1 (2 / 1) sf_b (region_sector 1 j))) /\
  hard 8 (arrivals 1 (2 / 1) sf_a (region_sector 1 1)) = [mkR 9 (-80) (-20) 2] /\
  region (rm_run sf_a) 0 1 = [mkR 9 91 (-20) 2; mkR 5 71 10 1; rclear 0] /\
  region (rm_run sf_b) 0 1 = [mkR 9 91 (-20) 2; mkR 7 81 3 4; rclear 0].
Proof.
  split; [split; [reflexivity|intros fib H; cbn in H; repeat (destruct H as [<-|H]; [cbn; lia|]); destruct H]|].
  split; [split; [reflexivity|intros fib H; cbn in H; repeat (destruct H as [<-|H]; [cbn; lia|]); destruct H]|].
  split; [intros j Hj; destruct j as [|[|[|]]]; try lia; reflexivity|].
  split; [reflexivity|]. split; [vm_compute; reflexivity|]. vm_compute. reflexivity.
Qed.
(** With too small a sector buffer the region can miss a harder object and
    keep a softer one: C97_hardest needs its first hypothesis. *)
Definition sf_run (nsec nreg : nat) (fibers : list (list (robj Z))) : list (list (robj Z)) :=
  match regionize_ref 0 2 nsec nreg 1 (repeat (repeat (repeat (mkR 3 3 3 3) nsec) 3) 12) fibers (repeat (repeat (mkR 1 1 1 1) nreg) 18) with Ok (out, _, _) => out | UB _ => [] end.
Definition sf_c : list (list (robj Z)) := repeat rm_none 3 ++ [[mkR 8 (-100) 10 1; mkR 9 (-80) (-20) 2]; [mkR 3 (-100) 0 5; rclear 0]] ++ repeat rm_none 7.
Example C97_hyp_slots : region (sf_run 2 2 sf_c) 0 1 = [mkR 9 91 (-20) 2; mkR 8 71 10 1] /\ region (sf_run 1 2 sf_c) 0 1 = [mkR 9 91 (-20) 2; mkR 3 71 120 5] /\
  region (sf_run 2 3 sf_c) 0 1 = [mkR 9 91 (-20) 2; mkR 8 71 10 1; mkR 3 71 120 5].
Proof. split; [vm_compute; reflexivity|]. split; [vm_compute; reflexivity|]. vm_compute. reflexivity. Qed.
(** muons *)
Definition sf_mu : list (list (robj Z)) := [rm_none; rm_none; [mkR 5 (-100) 100 1; mkR 4 (-80) (-20) 2]; rm_none].
Definition sf_mu' : list (list (robj Z)) := [rm_none; rm_none; [mkR 3 0 0 7; mkR 5 (-100) 100 1]; rm_none].
Example C97_hyp_muon : mu_ok 2 sf_mu /\ mu_ok 2 sf_mu' /\
  (forall m, (m < 4)%nat -> hard 4 (firstn 2 (nth m sf_mu [])) = hard 4 (firstn 2 (nth m sf_mu' []))) /\
  region (rm_mu_run sf_mu) 0 4 = [mkR 5 71 (-140) 1; rclear 0] /\ region (rm_mu_run sf_mu') 0 4 = [mkR 5 71 (-140) 1; rclear 0].
Proof.
  split; [split; [reflexivity|intros fib H; cbn in H; repeat (destruct H as [<-|H]; [cbn; lia|]); destruct H]|].
  split; [split; [reflexivity|intros fib H; cbn in H; repeat (destruct H as [<-|H]; [cbn; lia|]); destruct H]|].
  split; [intros m Hm; destruct m as [|[|[|[|]]]]; try lia; reflexivity|]. split; [vm_compute; reflexivity|]. vm_compute. reflexivity.
Qed.
