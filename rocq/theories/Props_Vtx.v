(** C31-C34: the simple vertex finders. *)
From Verif Require Import Base Bhv SpecBhv Vtx SpecVtx VtxProofs.

(** Full statement of C31: no track array makes simple_vtx_ref leave its
    arrays.  False exactly when some z0 is in one of two windows. *)
Theorem C31_out_of_bounds_refuted : exists tracks old, Forall (fun t => inS 10 (v_z0 t) /\ 0 <= v_pt t < 32768) tracks /\
  Z.of_nat (length tracks) = 64 /\ simple_vtx_ref tracks old = UB OutOfBounds.
Proof. exact c31_witness. Qed.
Print Assumptions C31_out_of_bounds_refuted.
Theorem C31_in_bounds_iff_partial : forall tracks old, Forall (fun t => inS 10 (v_z0 t)) tracks ->
  ((exists t, In t tracks /\ bad_z0 (v_z0 t)) -> simple_vtx_ref tracks old = UB OutOfBounds) /\
  ((forall t, In t tracks -> ~ bad_z0 (v_z0 t)) -> exists o, simple_vtx_ref tracks old = Ok o).
Proof. exact c31. Qed.
Print Assumptions C31_in_bounds_iff_partial.
Example C31_hyp : Forall (fun t => inS 10 (v_z0 t)) [mkVtrack 10 299; mkVtrack 20 (-339); mkVtrack 10 320] /\
  ~ bad_z0 299 /\ ~ bad_z0 (-339) /\ ~ bad_z0 320 /\ bad_z0 300.
Proof. unfold bad_z0. split; [repeat constructor; cbn; lia|lia]. Qed.

(** 163 tracks is where the 16-bit sum of clipped pts can first overflow *)
Theorem C32_first_maximal_slice : forall tracks old, Forall vt_ok tracks -> Z.of_nat (length tracks) <= 163 ->
  ((forall b, (b < NVTXBINS)%nat -> slice_sum slice tracks b = 0) /\ simple_vtx_ref tracks old = Ok (mkVtx 0 0 0 0)) \/
  exists b s, first_max (slice_sum slice tracks) NVTXBINS b s /\ 0 < s /\
    simple_vtx_ref tracks old = Ok (mkVtx s (20 * Z.of_nat b + 10) (wrapS 5 (slice_count slice tracks b))
      (if wrapS 5 (slice_count slice tracks b) >? 3 then 1 else 0)).
Proof. exact c32. Qed.
Print Assumptions C32_first_maximal_slice.
Theorem C32_multiplicity_and_flag : forall tracks old b s, Forall vt_ok tracks -> Z.of_nat (length tracks) <= 163 ->
  first_max (slice_sum slice tracks) NVTXBINS b s -> 0 < s -> slice_count slice tracks b < 16 ->
  simple_vtx_ref tracks old = Ok (mkVtx s (20 * Z.of_nat b + 10) (slice_count slice tracks b) (if slice_count slice tracks b >? 3 then 1 else 0)).
Proof. exact c32_flag. Qed.
Print Assumptions C32_multiplicity_and_flag.
(** inside the covered range the slices are the 20-count intervals *)
Theorem C32_slices_in_range : forall z, -340 < z < 300 -> slice z = if z <? 20 then 0 else z / 20.
Proof. exact slice_sensible. Qed.
Print Assumptions C32_slices_in_range.
Definition vx_tracks := [mkVtrack 50 25; mkVtrack 300 38; mkVtrack 100 100; mkVtrack 3 30; mkVtrack 1 21; mkVtrack 0 0].
Example C32_hyp : Forall vt_ok vx_tracks /\ Z.of_nat (length vx_tracks) <= 163 /\
  first_max (slice_sum slice vx_tracks) NVTXBINS 1 254 /\ slice_count slice vx_tracks 1 = 4 /\
  simple_vtx_ref vx_tracks (mkVtx 9 9 9 0) = Ok (mkVtx 254 30 4 1).
Proof.
  split; [repeat constructor; unfold bad_z0; cbn; lia|]. split; [cbn; lia|]. split; [|split; reflexivity].
  split; [unfold NVTXBINS; lia|reflexivity| |].
  - intros j Hj. unfold NVTXBINS in Hj. do 15 (destruct j; [vm_compute; congruence|]). lia.
  - intros j Hj. destruct j; [reflexivity|lia].
Qed.
(** A vertex is not where its tracks are: tracks at the far negative end give a
    vertex at the far positive end (the 5-bit bin wraps). *)
Theorem C32_far_negative_z0_wraps_refuted : forall z pt old, -512 <= z <= -360 -> 0 < pt < 32768 ->
  exists b, 7 <= b <= 14 /\ simple_vtx_ref [mkVtrack pt z] old = Ok (mkVtx (Z.min 200 pt) (20 * b + 10) 1 0).
Proof. exact c32_alias_lo. Qed.
Print Assumptions C32_far_negative_z0_wraps_refuted.
(** Empty slots (pt = 0, z0 = 0) count as tracks of slice 0, and the count
    wraps: one real track plus 3 empty slots is flagged good, 16 real tracks
    are flagged bad. *)
Theorem C32_multiplicity_counts_empty_slots_refuted : forall old,
  simple_vtx_ref (mkVtrack 40 5 :: repeat (mkVtrack 0 0) 3) old = Ok (mkVtx 40 10 4 1) /\
  simple_vtx_ref (repeat (mkVtrack 40 5) 16) old = Ok (mkVtx 640 10 (-16) 0).
Proof. exact c32_mult. Qed.
Print Assumptions C32_multiplicity_counts_empty_slots_refuted.

(** every binning function; any power of two of tracks *)
Theorem C33_tree_reduction : forall z0bin npow tracks, Forall (zok z0bin) tracks -> length tracks = (2 ^ npow)%nat ->
  exists vb sb vb' sb' v s, fill_rows z0bin tracks = Ok (vb, sb) /\ tree_reduce 5 npow vb = Ok vb' /\ tree_reduce 16 npow sb = Ok sb' /\
    nth_error vb' 0 = Some v /\ nth_error sb' 0 = Some s /\ length v = NVTXBINS /\ length s = NVTXBINS /\
    forall j, (j < NVTXBINS)%nat -> nth_error v j = Some (wrapS 5 (slice_count_pos z0bin tracks j)) /\
                                    nth_error s j = Some (wrapS 16 (slice_sum z0bin tracks j)).
Proof. exact c33. Qed.
Print Assumptions C33_tree_reduction.
Example C33_hyp : Forall (zok (fun z => Z.max 0 (z / 20))) (vx_tracks ++ [mkVtrack 7 299; mkVtrack 9 (-80)]) /\
  length (vx_tracks ++ [mkVtrack 7 299; mkVtrack 9 (-80)]) = (2 ^ 3)%nat.
Proof. split; [repeat constructor; cbn; lia|reflexivity]. Qed.

(** Full statement of C34: the output is a function of the tracks.  False: for
    an event without positive pt the multiplicity, flag and z0 come from the
    previous event. *)
Theorem C34_stale_output_refuted : exists z0bin conv tracks old old' o o', Forall (zok z0bin) tracks /\ length tracks = (2 ^ 6)%nat /\
  simple_vtx_hwopt z0bin conv 6 tracks old = Ok o /\ simple_vtx_hwopt z0bin conv 6 tracks old' = Ok o' /\
  x_mult o <> x_mult o' /\ x_z0 o <> x_z0 o' /\ x_id o <> x_id o'.
Proof. exact c34_witness. Qed.
Print Assumptions C34_stale_output_refuted.
Theorem C34_output_partial : forall z0bin conv npow tracks old, Forall (zok z0bin) tracks -> length tracks = (2 ^ npow)%nat -> (npow <= 6)%nat ->
  Forall (fun t => 0 <= v_pt t) tracks ->
  ((forall b, (b < NVTXBINS)%nat -> slice_sum z0bin tracks b = 0) /\
     simple_vtx_hwopt z0bin conv npow tracks old = Ok (mkVtx 0 (wrapS 10 (conv (x_z0 old))) (x_mult old) (if x_mult old >? 3 then 1 else 0))) \/
  exists b s, first_max (slice_sum z0bin tracks) NVTXBINS b s /\ 0 < s /\
    simple_vtx_hwopt z0bin conv npow tracks old = Ok (mkVtx s (wrapS 10 (conv (Z.of_nat b))) (wrapS 5 (slice_count_pos z0bin tracks b))
      (if wrapS 5 (slice_count_pos z0bin tracks b) >? 3 then 1 else 0)).
Proof. exact c34. Qed.
Print Assumptions C34_output_partial.
Example C34_hyp : simple_vtx_hwopt (fun z => Z.max 0 (z / 20)) (fun b => 20 * b + 10) 3 (vx_tracks ++ [mkVtrack 7 299; mkVtrack 9 (-80)]) (mkVtx 1 2 3 4)
  = Ok (mkVtx 254 30 4 1).
Proof. vm_compute. reflexivity. Qed.
