(** C91: the regionizers treat all sectors, both halves of the detector and
    all orders of arrival alike. *)
From Coq Require Import Permutation.
From Verif Require Import Base Regionizer SpecRegion SpecRegMove RegMoveProofs.

(** Every event has exactly one division into regions, the same for firmware
    and reference, whatever the memory holds. *)
Theorem C91_defined : forall A (d : A) nobj nsec nreg nf fibers, fibres_ok nobj nf fibers ->
  exists out, gives d nobj nsec nreg nf fibers out /\ forall out', gives d nobj nsec nreg nf fibers out' -> out = out'.
Proof. intros A d nobj nsec nreg nf fibers O. destruct (gives_exists d nobj nsec nreg nf fibers O) as [out G]. exists out. split; [exact G|]. intros out'. apply gives_unique. exact G. Qed.
Print Assumptions C91_defined.

(** Turning the detector by 2 k sectors turns the regions by k. *)
Theorem C91_rotation : forall A (d : A) nobj nsec nreg nf fibers fibers' out out' k, (0 < nf)%nat ->
  fibres_ok nobj nf fibers -> fibres_ok nobj nf fibers' -> turned (nf * (2 * k)) fibers fibers' ->
  gives d nobj nsec nreg nf fibers out -> gives d nobj nsec nreg nf fibers' out' ->
  forall ie ip, (ie < 3)%nat -> (ip < 6)%nat -> region out' ie ip = region out ie ((ip + k) mod 6).
Proof. exact @c91_rotation. Qed.
Print Assumptions C91_rotation.

(** Mirroring the event at eta = 0 exchanges the outer slices and mirrors the
    objects in every region. *)
Theorem C91_mirror : forall A (d : A) nobj nsec nreg nf fibers out out',
  fibres_ok nobj nf fibers -> fibres_ok nobj nf (map (map mirrored) fibers) ->
  gives d nobj nsec nreg nf fibers out -> gives d nobj nsec nreg nf (map (map mirrored) fibers) out' ->
  forall ie ip, (ie < 3)%nat -> (ip < 6)%nat -> region out' ie ip = map mirrored (region out (2 - ie) ip).
Proof. exact @c91_mirror. Qed.
Print Assumptions C91_mirror.

(** A region depends on the objects with pt in its slice of its three
    sectors, and on nothing else. *)
Theorem C91_local : forall A (d : A) nobj nsec nreg nf fibers fibers' out out' ie ip,
  fibres_ok nobj nf fibers -> fibres_ok nobj nf fibers' -> (ie < 3)%nat -> (ip < 6)%nat ->
  gives d nobj nsec nreg nf fibers out -> gives d nobj nsec nreg nf fibers' out' ->
  (forall j, (j < 3)%nat -> present ie (arrivals nf (nobj / nf) fibers (region_sector ip j)) = present ie (arrivals nf (nobj / nf) fibers' (region_sector ip j))) ->
  region out ie ip = region out' ie ip.
Proof. exact @c91_local. Qed.
Print Assumptions C91_local.

(** The order in which they arrive matters only among objects of a sector
    with equal pt; the pts of the region never depend on it. *)
Theorem C91_arrival_order : forall A (d : A) nobj nsec nreg nf fibers fibers' out out' ie ip,
  fibres_ok nobj nf fibers -> fibres_ok nobj nf fibers' -> (ie < 3)%nat -> (ip < 6)%nat ->
  gives d nobj nsec nreg nf fibers out -> gives d nobj nsec nreg nf fibers' out' ->
  (forall j, (j < 3)%nat -> Permutation (present ie (arrivals nf (nobj / nf) fibers (region_sector ip j))) (present ie (arrivals nf (nobj / nf) fibers' (region_sector ip j))) /\
     NoDup (map r_pt (present ie (arrivals nf (nobj / nf) fibers (region_sector ip j))))) ->
  region out ie ip = region out' ie ip.
Proof. exact @c91_order. Qed.
Print Assumptions C91_arrival_order.
Theorem C91_arrival_order_pts : forall A (d : A) nobj nsec nreg nf fibers fibers' out out' ie ip,
  fibres_ok nobj nf fibers -> fibres_ok nobj nf fibers' -> (ie < 3)%nat -> (ip < 6)%nat ->
  gives d nobj nsec nreg nf fibers out -> gives d nobj nsec nreg nf fibers' out' ->
  (forall j, (j < 3)%nat -> Permutation (present ie (arrivals nf (nobj / nf) fibers (region_sector ip j))) (present ie (arrivals nf (nobj / nf) fibers' (region_sector ip j)))) ->
  map r_pt (region out ie ip) = map r_pt (region out' ie ip).
Proof. exact @c91_order_pts. Qed.
Print Assumptions C91_arrival_order_pts.

(** The muon regions repeat after 2 muon sectors, that is 3 regions. *)
Theorem C91_muon_defined : forall A (d : A) nmu fibers, mu_ok nmu fibers ->
  exists out, gives_muons d nmu fibers out /\ forall out', gives_muons d nmu fibers out' -> out = out'.
Proof. intros A d nmu fibers O. destruct (muons_exist d nmu fibers O) as [out G]. exists out. split; [exact G|]. intros out'. apply muons_unique. exact G. Qed.
Print Assumptions C91_muon_defined.
Theorem C91_muon_rotation : forall A (d : A) nmu fibers fibers' out out', mu_ok nmu fibers -> mu_ok nmu fibers' -> turned 2 fibers fibers' ->
  gives_muons d nmu fibers out -> gives_muons d nmu fibers' out' ->
  forall ie ip, (ie < 3)%nat -> (ip < 6)%nat -> region out' ie ip = region out ie ((ip + 3) mod 6).
Proof. exact @c91_muon_rotation. Qed.
Print Assumptions C91_muon_rotation.
Theorem C91_muon_mirror : forall A (d : A) nmu fibers out out', mu_ok nmu fibers -> mu_ok nmu (map (map mirrored) fibers) ->
  gives_muons d nmu fibers out -> gives_muons d nmu (map (map mirrored) fibers) out' ->
  forall ie ip, (ie < 3)%nat -> (ip < 6)%nat -> region out' ie ip = map mirrored (region out (2 - ie) ip).
Proof. exact @c91_muon_mirror. Qed.
Print Assumptions C91_muon_mirror.

(** an event of two objects in sector 3, and turned by two sectors *)
Definition rm_objs : list (robj Z) := [mkR 5 (-100) 10 1; mkR 9 (-80) (-20) 2].
Definition rm_none : list (robj Z) := [rclear 0; rclear 0].
Definition rm_event : list (list (robj Z)) := repeat rm_none 3 ++ [rm_objs] ++ repeat rm_none 8.
Definition rm_turned : list (list (robj Z)) := repeat rm_none 1 ++ [rm_objs] ++ repeat rm_none 10.
Lemma rm_fibres fibers : fibers = rm_event \/ fibers = rm_turned \/ fibers = map (map mirrored) rm_event -> fibres_ok 2 1 fibers.
Proof.
  intros [-> |[-> | ->]]; (split; [reflexivity|]); change (2 / 1)%nat with 2%nat; intros fib H; cbn in H; repeat (destruct H as [<-|H]; [cbn; lia|]); destruct H.
Qed.
Definition rm_work : list (list (list (robj Z))) := repeat (repeat (repeat (mkR 3 3 3 3) 2) 3) 12.
Definition rm_regions : list (list (robj Z)) := repeat (repeat (mkR 1 1 1 1) 3) 18.
Definition rm_run (fibers : list (list (robj Z))) : list (list (robj Z)) :=
  match regionize_hw 0 2 2 3 (fun _ _ => mkR 7 7 7 7) rm_work fibers rm_regions with Ok (out, _) => out | UB _ => [] end.
Example C91_hyp : turned (1 * (2 * 1)) rm_event rm_turned /\
  region (rm_run rm_event) 0 1 = [mkR 9 91 (-20) 2; mkR 5 71 10 1; rclear 0] /\
  region (rm_run rm_turned) 0 0 = [mkR 9 91 (-20) 2; mkR 5 71 10 1; rclear 0] /\
  region (rm_run (map (map mirrored) rm_event)) 2 1 = [mkR 9 (-91) (-20) 2; mkR 5 (-71) 10 1; rclear 0] /\
  region (rm_run rm_event) 1 1 = [mkR 9 (-80) (-20) 2; mkR 5 (-100) 10 1; rclear 0].
Proof.
  split; [split; [reflexivity|]; intros i Hi; cbn in Hi; do 12 (destruct i as [|i]; [reflexivity|]); lia|].
  split; [vm_compute; reflexivity|]. split; [vm_compute; reflexivity|]. split; [vm_compute; reflexivity|]. vm_compute. reflexivity.
Qed.
(** the two objects swapped: same regions, as C91_arrival_order says *)
Definition rm_swapped : list (list (robj Z)) := repeat rm_none 3 ++ [rev rm_objs] ++ repeat rm_none 8.
Example C91_hyp_order : (forall j, (j < 3)%nat ->
    Permutation (present 0 (arrivals 1 (2 / 1) rm_event (region_sector 1 j))) (present 0 (arrivals 1 (2 / 1) rm_swapped (region_sector 1 j))) /\
    NoDup (map r_pt (present 0 (arrivals 1 (2 / 1) rm_event (region_sector 1 j))))) /\
  region (rm_run rm_swapped) 0 1 = region (rm_run rm_event) 0 1.
Proof.
  split; [|vm_compute; reflexivity]. intros j Hj. destruct j as [|[|[|]]]; try lia; (split; [cbn; try apply Permutation_refl; apply perm_swap|]); cbn; repeat constructor; cbn; intuition lia.
Qed.
Definition rm_mu : list (list (robj Z)) := [rm_none; rm_none; [mkR 5 (-100) 100 1; mkR 9 (-80) (-20) 2]; rm_none].
Definition rm_mu_turned : list (list (robj Z)) := [[mkR 5 (-100) 100 1; mkR 9 (-80) (-20) 2]; rm_none; rm_none; rm_none].
Definition rm_mu_run (fibers : list (list (robj Z))) : list (list (robj Z)) :=
  match regionize_muon_ref 0 2 (repeat (repeat (repeat (mkR 3 3 3 3) 2) 3) 4) fibers (repeat (repeat (mkR 1 1 1 1) 2) 18) with Ok (out, _, _) => out | UB _ => [] end.
Example C91_hyp_muon : mu_ok 2 rm_mu /\ mu_ok 2 rm_mu_turned /\ mu_ok 2 (map (map mirrored) rm_mu) /\ turned 2 rm_mu rm_mu_turned /\
  region (rm_mu_run rm_mu) 0 4 = [mkR 5 71 (-140) 1; rclear 0] /\ region (rm_mu_run rm_mu_turned) 0 1 = [mkR 5 71 (-140) 1; rclear 0].
Proof.
  split; [split; [reflexivity|intros fib H; cbn in H; repeat (destruct H as [<-|H]; [cbn; lia|]); destruct H]|].
  split; [split; [reflexivity|intros fib H; cbn in H; repeat (destruct H as [<-|H]; [cbn; lia|]); destruct H]|].
  split; [split; [reflexivity|intros fib H; cbn in H; repeat (destruct H as [<-|H]; [cbn; lia|]); destruct H]|].
  split; [split; [reflexivity|]; intros i Hi; cbn in Hi; do 4 (destruct i as [|i]; [reflexivity|]); lia|].
  split; [vm_compute; reflexivity|]. vm_compute. reflexivity.
Qed.
