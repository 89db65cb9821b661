(** C26-C30: the histogramming vertex finder. *)
From Coq Require Import Permutation.
From Verif Require Import Base Bhv SpecBhv BhvProofs.

(** Any sequence of bhv_add_track calls on any histogram (a cleared one has
    [x = 0] in every bin). *)
Theorem C26_histogram_content : forall calls h,
  Forall (fun x => 0 <= x <= 511) h ->
  Forall (fun x => 0 <= snd x < 32768 /\ (zb_valid (fst x) = true -> 0 <= zb_bin (fst x) < Z.of_nat (length h))) calls ->
  exists h', foldM (fun h x => bhv_add_track (fst x) (snd x) h) calls h = Ok h' /\ length h' = length h /\
    forall b x, nth_error h b = Some x -> nth_error h' b = Some (Z.min 511 (x + callsum (Z.of_nat b) calls)).
Proof. exact (fun calls h H => c26 calls h H). Qed.
Print Assumptions C26_histogram_content.

Theorem C26_order_irrelevant : forall calls calls' h,
  Forall (fun x => 0 <= x <= 511) h ->
  Forall (fun x => 0 <= snd x < 32768 /\ (zb_valid (fst x) = true -> 0 <= zb_bin (fst x) < Z.of_nat (length h))) calls ->
  Permutation calls calls' ->
  foldM (fun h x => bhv_add_track (fst x) (snd x) h) calls h = foldM (fun h x => bhv_add_track (fst x) (snd x) h) calls' h.
Proof. exact c26_perm. Qed.
Print Assumptions C26_order_irrelevant.

Example C26_hyp : let h := repeat 0 (Z.to_nat 72) in
  let calls := [(mkZbin 3 true, 150); (mkZbin 3 true, 77); (mkZbin 0 false, 9); (mkZbin 71 true, 5000)] in
  Forall (fun x => 0 <= x <= 511) h /\
  Forall (fun x => 0 <= snd x < 32768 /\ (zb_valid (fst x) = true -> 0 <= zb_bin (fst x) < Z.of_nat (length h))) calls /\
  callsum 3 calls = 113 /\ callsum 71 calls = 100 /\ callsum 0 calls = 0.
Proof.
  cbv zeta. split; [|split].
  - apply Forall_forall. intros x Hx. apply repeat_spec in Hx. subst. lia.
  - rewrite repeat_length. repeat constructor; cbn; try lia; try congruence.
  - vm_compute. auto.
Qed.

Theorem C27_bin_valid : forall z, inS 10 z ->
  (zb_valid (fetch_bin_ref z) = true <-> -288 <= z <= 287) /\
  (zb_valid (fetch_bin_ref z) = true ->
    0 <= zb_bin (fetch_bin_ref z) < 72 /\ Z.abs (z - bin_center_ref (zb_bin (fetch_bin_ref z))) <= 4).
Proof. exact c27_valid. Qed.
Print Assumptions C27_bin_valid.
Theorem C27_center_roundtrip : forall b, 0 <= b < 72 -> fetch_bin_ref (bin_center_ref b) = mkZbin b true.
Proof. exact c27_center. Qed.
Print Assumptions C27_center_roundtrip.
Theorem C27_monotone : forall z z', inS 10 z -> inS 10 z' -> z <= z' ->
  zb_valid (fetch_bin_ref z) = true -> zb_valid (fetch_bin_ref z') = true ->
  zb_bin (fetch_bin_ref z) <= zb_bin (fetch_bin_ref z').
Proof. exact c27_mono. Qed.
Print Assumptions C27_monotone.
Example C27_hyp : inS 10 (-288) /\ inS 10 287 /\ fetch_bin_ref (-288) = mkZbin 0 true /\ fetch_bin_ref 287 = mkZbin 71 true /\ fetch_bin_ref 288 = mkZbin 0 false.
Proof. unfold inS. cbn. repeat split; lia. Qed.

(** firmware chain = reference = the first z slice with the largest total *)
Theorem C28_firmware_eq_reference : forall sectors,
  Forall (Forall track_ok) sectors -> Z.of_nat (length sectors) <= 64 ->
  exists b s, hw_vertex sectors = Ok (Z.of_nat b, s, 8 * Z.of_nat b - 284) /\
    bhv_find_pv_ref sectors = Ok (Z.of_nat b, s, 8 * Z.of_nat b - 284) /\
    first_max (grand_total sectors) (Z.to_nat 72) b s.
Proof. exact c28. Qed.
Print Assumptions C28_firmware_eq_reference.
Theorem C28_track_order_irrelevant : forall sectors sectors',
  Forall (Forall track_ok) sectors -> Z.of_nat (length sectors) <= 64 ->
  Forall2 (@Permutation vtrack) sectors sectors' -> hw_vertex sectors' = hw_vertex sectors.
Proof. exact c28_perm. Qed.
Print Assumptions C28_track_order_irrelevant.
Definition bx_sectors := [[mkVtrack 100 0; mkVtrack 40 9; mkVtrack 300 (-288)]; [mkVtrack 60 (-281); mkVtrack 0 0]; [mkVtrack 160 12; mkVtrack 32767 400]].
Example C28_hyp : Forall (Forall track_ok) bx_sectors /\ Z.of_nat (length bx_sectors) <= 64 /\ hw_vertex bx_sectors = Ok (0, 130, -284).
Proof.
  split; [|split; [cbn; lia|vm_compute; reflexivity]].
  repeat constructor; cbn; lia.
Qed.

Theorem C29_first_maximal_bin : forall nhalf hists, (0 < nhalf)%nat -> Z.of_nat nhalf <= 512 ->
  Z.of_nat (length hists) <= 64 -> words_ok nhalf hists ->
  exists b s, bhv_find_pv nhalf hists = Ok (Z.of_nat b, s) /\ first_max (packed_total hists) (2 * nhalf) b s.
Proof. exact c29. Qed.
Print Assumptions C29_first_maximal_bin.
Example C29_hyp : words_ok 2 [[3 * 512 + 5; 1]; [2 * 512 + 0; 7 * 512]] /\
  bhv_find_pv 2 [[3 * 512 + 5; 1]; [2 * 512 + 0; 7 * 512]] = Ok (2, 7).
Proof. split; [repeat constructor; cbn; lia|vm_compute; reflexivity]. Qed.
(** tie between the two bins of a pair: the even (lower) one wins *)
Example C29_tie : bhv_find_pv 1 [[4 * 512 + 4]] = Ok (0, 4). Proof. reflexivity. Qed.

(** Full statement of C30: bhv_add_track ignores every track with
    non-positive pt.  False: a negative pt larger than twice the bin content
    saturates the bin, while the reference ignores it. *)
Theorem C30_negative_pt_saturates_bin_refuted : forall z pt h x,
  inS 10 z -> -288 <= z <= 287 -> -1024 <= pt < 0 -> length h = Z.to_nat 72 ->
  nth_error h (Z.to_nat (z / 8 + 36)) = Some x -> 0 <= x < (- pt + 1) / 2 ->
  bhv_add_track (fetch_bin_ref z) pt h = Ok (upd h (Z.to_nat (z / 8 + 36)) 511) /\ ref_fill h (mkVtrack pt z) = Ok h.
Proof. exact c30_neg. Qed.
Print Assumptions C30_negative_pt_saturates_bin_refuted.
Example C30_hyp : let h := repeat 0 (Z.to_nat 72) in nth_error h (Z.to_nat (0 / 8 + 36)) = Some 0 /\ 0 <= 0 < (- -1 + 1) / 2.
Proof. vm_compute. repeat split; congruence. Qed.
Theorem C30_negative_pt_moves_vertex_refuted : exists sectors b s b' s',
  Forall (Forall (fun t => inS 16 (v_pt t) /\ inS 10 (v_z0 t))) sectors /\
  hw_vertex sectors = Ok (b, s, bin_center_ref b) /\ bhv_find_pv_ref sectors = Ok (b', s', bin_center_ref b') /\ b <> b'.
Proof. exact c30_vertex. Qed.
Print Assumptions C30_negative_pt_moves_vertex_refuted.
Theorem C30_nonnegative_pt_partial : forall t h,
  Forall (fun x => 0 <= x <= 511) h -> track_ok t -> length h = Z.to_nat 72 ->
  bhv_add_track (fetch_bin_ref (v_z0 t)) (v_pt t) h = ref_fill h t /\
  (v_pt t <= 1 -> bhv_add_track (fetch_bin_ref (v_z0 t)) (v_pt t) h = Ok h).
Proof. exact c30_pos. Qed.
Print Assumptions C30_nonnegative_pt_partial.
Example C30_pos_hyp : track_ok (mkVtrack 1 5) /\ length (repeat 7 (Z.to_nat 72)) = Z.to_nat 72.
Proof. split; [repeat split; cbn; lia|apply repeat_length]. Qed.
