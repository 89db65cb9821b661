(** C92: how the vertex of the simple finder responds to changes of the tracks. *)
From Coq Require Import Permutation.
From Verif Require Import Base Bhv Vtx SpecVtx SpecVtxMove VtxMoveProofs.

Theorem C92_defined : forall tracks, vtracks_ok tracks -> exists o, vertex_is tracks o.
Proof. exact c92_exists. Qed.
Print Assumptions C92_defined.

(** at a track with pt: within its slice, of which the first takes negative z0 too *)
Theorem C92_near_a_track : forall tracks o, vtracks_ok tracks -> Forall sensible tracks -> vertex_is tracks o ->
  (0 < x_sum o -> exists t, In t tracks /\ 0 < v_pt t /\ belongs (x_z0 o) t) /\
  (x_sum o <= 0 -> o = mkVtx 0 0 0 0 /\ forall t, In t tracks -> v_pt t = 0).
Proof. exact c92_near. Qed.
Print Assumptions C92_near_a_track.

(** displaced by k slices with the tracks, between z0 0 and 299 *)
Theorem C92_displaced : forall k tracks o, vtracks_ok tracks -> vtracks_ok (map (along (20 * k)) tracks) ->
  Forall regular tracks -> Forall regular (map (along (20 * k)) tracks) -> vertex_is tracks o -> 0 < x_sum o ->
  vertex_is (map (along (20 * k)) tracks) (mkVtx (x_sum o) (x_z0 o + 20 * k) (x_mult o) (x_id o)).
Proof. exact c92_displaced. Qed.
Print Assumptions C92_displaced.

(** one more track *)
Theorem C92_one_more_track : forall t tracks o, vtracks_ok (t :: tracks) -> Forall sensible (t :: tracks) -> vertex_is tracks o ->
  exists o', vertex_is (t :: tracks) o' /\ x_sum o <= x_sum o' <= x_sum o + 200 /\
    (x_z0 o' = x_z0 o \/ belongs (x_z0 o') t) /\
    (0 < x_sum o -> belongs (x_z0 o) t -> x_z0 o' = x_z0 o) /\
    (v_pt t = 0 -> x_sum o' = x_sum o /\ x_z0 o' = x_z0 o).
Proof. exact c92_more. Qed.
Print Assumptions C92_one_more_track.

(** the order of the tracks *)
Theorem C92_order : forall tracks tracks' o, vtracks_ok tracks -> Permutation tracks tracks' -> vertex_is tracks o -> vertex_is tracks' o.
Proof. exact c92_order. Qed.
Print Assumptions C92_order.
Theorem C92_optimised_order : forall z0bin conv npow tracks tracks' old, Forall (zok z0bin) tracks -> length tracks = (2 ^ npow)%nat -> (npow <= 6)%nat ->
  Forall (fun t => 0 <= v_pt t) tracks -> Permutation tracks tracks' ->
  simple_vtx_hwopt z0bin conv npow tracks' old = simple_vtx_hwopt z0bin conv npow tracks old.
Proof. exact c92_hwopt_order. Qed.
Print Assumptions C92_optimised_order.

Definition sv_tracks := [mkVtrack 50 25; mkVtrack 300 38; mkVtrack 100 100; mkVtrack 3 30; mkVtrack 1 21; mkVtrack 0 0].
Example C92_hyp : vtracks_ok sv_tracks /\ vtracks_ok (map (along (20 * 3)) sv_tracks) /\ Forall sensible sv_tracks /\ Forall regular sv_tracks /\
  Forall regular (map (along (20 * 3)) sv_tracks) /\ vertex_is sv_tracks (mkVtx 254 30 4 1) /\ vertex_is (map (along (20 * 3)) sv_tracks) (mkVtx 254 90 4 1).
Proof.
  split; [split; [repeat constructor; unfold bad_z0; cbn; lia|cbn; lia]|]. split; [split; [repeat constructor; unfold bad_z0; cbn; lia|cbn; lia]|].
  split; [repeat constructor; cbn; lia|]. split; [repeat constructor; cbn; lia|]. split; [repeat constructor; cbn; lia|].
  split; intros old; vm_compute; reflexivity.
Qed.
(** a track that moves the vertex to itself: negative z0, so slice 0 *)
Example C92_hyp_more : let t := mkVtrack 70 (-55) in let l := mkVtrack 190 3 :: sv_tracks in
  vtracks_ok (t :: l) /\ Forall sensible (t :: l) /\ vertex_is l (mkVtx 254 30 4 1) /\ vertex_is (t :: l) (mkVtx 260 10 3 0) /\ belongs 10 t.
Proof.
  cbv zeta. split; [split; [repeat constructor; unfold bad_z0; cbn; lia|cbn; lia]|]. split; [repeat constructor; cbn; lia|].
  split; [intros old; vm_compute; reflexivity|]. split; [intros old; vm_compute; reflexivity|]. unfold belongs. cbn. lia.
Qed.
(** a track of no pt leaves position and sum, but is counted: C32 *)
Example C92_empty_slot_counts : vertex_is (mkVtrack 0 25 :: sv_tracks) (mkVtx 254 30 5 1).
Proof. intros old. vm_compute. reflexivity. Qed.
Example C92_hyp_optimised : let b z := Z.max 0 (z / 20) in let l := sv_tracks ++ [mkVtrack 7 299; mkVtrack 9 (-80)] in
  Forall (zok b) l /\ length l = (2 ^ 3)%nat /\ Forall (fun t => 0 <= v_pt t) l /\ Permutation l (rev l) /\
  simple_vtx_hwopt b (fun i => 20 * i + 10) 3 (rev l) (mkVtx 1 2 3 4) = Ok (mkVtx 254 30 4 1).
Proof.
  cbv zeta. split; [repeat constructor; cbn; lia|]. split; [reflexivity|]. split; [repeat constructor; cbn; lia|]. split; [apply Permutation_rev|].
  vm_compute. reflexivity.
Qed.
