(** C35-C42: the regionizer.  [A] is the payload type of the objects, [d] the
    payload of a cleared one.  Work areas and outputs have arbitrary previous
    contents of the declared dimensions ([dims2], [dims3]). *)
From Verif Require Import Base Data SpecSort Regionizer SpecRegion RegionProofs RegionMuon RegionMuonProps RegionFinal.

(** ** C35 *)
Theorem C35_firmware_slices : forall A (d : A) nobj n fibers work,
  dims3 12 3 n work -> length fibers = 12%nat -> (forall fib, In fib fibers -> (nobj <= length fib)%nat) ->
  exists work', deserialize_ptsort_eta d nobj n fibers work = Ok (map (skipn nobj) fibers, work') /\ dims3 12 3 n work' /\
    forall s ie, (s < 12)%nat -> (ie < 3)%nat -> kept d n (slice_cands ie (arrivals 1 nobj fibers s)) (nth ie (nth s work' []) []).
Proof. exact @deserialize_hw_kept. Qed.
Print Assumptions C35_firmware_slices.
Theorem C35_reference_slices : forall A (d : A) nobj n nf fibers work,
  dims3 12 3 n work -> length fibers = (nf * 12)%nat -> (forall fib, In fib fibers -> (nobj / nf <= length fib)%nat) ->
  exists work', deserialize_ref d nobj n nf fibers work = Ok (map (skipn (nobj / nf)) fibers, work') /\ dims3 12 3 n work' /\
    forall s ie, (s < 12)%nat -> (ie < 3)%nat -> kept d n (slice_cands ie (arrivals nf (nobj / nf) fibers s)) (nth ie (nth s work' []) []).
Proof. exact @deserialize_ref_kept. Qed.
Print Assumptions C35_reference_slices.
(** with one fibre per sector the arrivals are the first entries of the fibre *)
Theorem C35_arrivals_of_one_fibre : forall A cnt fibers s, arrivals 1 cnt fibers s = firstn cnt (nth s fibers (@nil (robj A))).
Proof. exact @arrivals_one. Qed.
Print Assumptions C35_arrivals_of_one_fibre.

(** sector 0 receives five objects, of which three are in slice 1 (two slots) *)
Definition rx_fibre : list (robj unit) := [mkR 5 0 10 tt; mkR 9 100 0 tt; mkR 0 0 0 tt; mkR 7 (-170) 3 tt; mkR 8 200 1 tt].
Definition rx_fibers := rx_fibre :: repeat (repeat (rclear tt) 5) 11.
Definition rx_work (n : nat) : list (list (list (robj unit))) := repeat (repeat (repeat (mkR 3 3 3 tt) n) 3) 12.
Example C35_hyp : dims3 12 3 2 (rx_work 2) /\ length rx_fibers = 12%nat /\ (forall fib, In fib rx_fibers -> (5 <= length fib)%nat) /\
  exists f w, deserialize_ptsort_eta tt 5 2 rx_fibers (rx_work 2) = Ok (f, w) /\
    nth 1 (nth 0 w []) [] = [mkR 9 100 0 tt; mkR 7 (-170) 3 tt] /\ nth 2 (nth 0 w []) [] = [mkR 9 (-71) 0 tt; mkR 8 29 1 tt] /\
    nth 0 (nth 0 w []) [] = [mkR 7 1 3 tt; rclear tt].
Proof.
  split; [split; [reflexivity|]; intros a Ha; apply repeat_spec in Ha; subst; split; [reflexivity|]; intros b Hb; apply repeat_spec in Hb; subst; reflexivity|].
  split; [reflexivity|]. split.
  - intros fib [<-|H]; [cbn; lia|]. apply repeat_spec in H. subst. cbn. lia.
  - eexists _, _. split; [vm_compute; reflexivity|]. vm_compute. repeat split.
Qed.

(** ** C36 *)
Theorem C36_merge_equal : forall A (d : A) nsec nreg l1 s1 l2 s2 l3 s3 junk out out',
  (nsec <= nreg)%nat -> length out = nreg -> length out' = nreg -> sorted_slots d nsec l1 -> sorted_slots d nsec l2 -> sorted_slots d nsec l3 ->
  exists res, merge_smart d nsec nreg l1 s1 l2 s2 l3 s3 junk out = Ok res /\ merge_sectors_ref d nsec nreg l1 s1 l2 s2 l3 s3 out' = Ok res.
Proof. exact @merge_equal. Qed.
Print Assumptions C36_merge_equal.
(** what both compute; for the reference without a condition on capacities *)
Theorem C36_merge_firmware_result : forall A (d : A) nsec nreg l1 s1 l2 s2 l3 s3 junk out,
  (nsec <= nreg)%nat -> length out = nreg -> sorted_slots d nsec l1 -> sorted_slots d nsec l2 -> sorted_slots d nsec l3 ->
  exists res, merge_smart d nsec nreg l1 s1 l2 s2 l3 s3 junk out = Ok res /\ kept d nreg (shifted s1 l1 ++ shifted s2 l2 ++ shifted s3 l3) res.
Proof. exact @merge_smart_kept. Qed.
Print Assumptions C36_merge_firmware_result.
Theorem C36_merge_reference_result : forall A (d : A) nsec nreg l1 s1 l2 s2 l3 s3 out,
  length out = nreg -> sorted_slots d nsec l1 -> sorted_slots d nsec l2 -> sorted_slots d nsec l3 ->
  exists res, merge_sectors_ref d nsec nreg l1 s1 l2 s2 l3 s3 out = Ok res /\ kept d nreg (shifted s1 l1 ++ shifted s2 l2 ++ shifted s3 l3) res.
Proof. exact @merge_ref_kept. Qed.
Print Assumptions C36_merge_reference_result.
(** the slices of C35 are such lists *)
Theorem C36_slices_are_sorted : forall A (d : A) n l o, (forall x, In x l -> 0 < r_pt x) -> kept d n l o -> sorted_slots d n o.
Proof. exact @kept_sorted_slots. Qed.
Print Assumptions C36_slices_are_sorted.
Example C36_hyp : exists l1 l2 l3, sorted_slots tt 2 l1 /\ sorted_slots tt 2 l2 /\ sorted_slots tt 2 l3 /\
  merge_smart tt 2 4 l1 (-120) l2 0 l3 120 (fun _ => mkR 99 0 0 tt) (repeat (rclear tt) 4) =
    Ok [mkR 9 0 (-120) tt; mkR 9 1 0 tt; mkR 6 0 120 tt; mkR 4 2 (-110) tt].
Proof.
  exists [mkR 9 0 0 tt; mkR 4 2 10 tt], [mkR 9 1 0 tt; rclear tt], [mkR 6 0 0 tt; mkR 4 0 0 tt].
  assert (S : forall l : list (robj unit), length l = 2%nat -> (forall x, In x l -> 0 < r_pt x) -> (forall x y, l = [x; y] -> r_pt y <= r_pt x) -> sorted_slots tt 2 l).
  { intros l L P D. exists l. rewrite L. split; [rewrite app_nil_r; reflexivity|]. split; [lia|]. split; [exact P|]. destruct l as [|a [|b [|]]]; try discriminate.
    intros i j x y Hij Hx Hy. destruct i as [|[|[|]]], j as [|[|[|]]]; cbn in Hx, Hy; try discriminate; try lia. injection Hx as <-. injection Hy as <-. apply D. reflexivity. }
  split; [apply S; [reflexivity|intros x [<-|[<-|[]]]; cbn; lia|intros x y [= <- <-]; cbn; lia]|].
  split; [exists [mkR 9 1 0 tt]; split; [reflexivity|]; split; [cbn; lia|]; split; [intros x [<-|[]]; cbn; lia|intros [|i] [|[|j]] x y Hij Hx Hy; cbn in *; try discriminate; lia]|].
  split; [apply S; [reflexivity|intros x [<-|[<-|[]]]; cbn; lia|intros x y [= <- <-]; cbn; lia]|]. vm_compute. reflexivity.
Qed.

(** ** C37 *)
(** Full statement of C37: equality in every configuration.  True whenever
    NCALO is at least 7; see C38 for the default build, where it is 5. *)
Theorem C37_firmware_equals_reference_partial : forall A (d : A) cfg junk work work' fibers regions regions', (7 <= NCALO cfg)%nat ->
  dims3 12 3 7 work -> dims3 12 3 7 work' -> dims2 18 (NCALO cfg) regions -> dims2 18 (NCALO cfg) regions' -> length fibers = 12%nat -> (forall fib, In fib fibers -> (15 <= length fib)%nat) ->
  exists out rest static, regionize_hadcalo cfg d junk work fibers regions = Ok (out, rest) /\ regionize_hadcalo_ref cfg d work' fibers regions' = Ok (out, rest, static).
Proof. exact @c37_hadcalo. Qed.
Print Assumptions C37_firmware_equals_reference_partial.
Theorem C37_any_capacities : forall A (d : A) nobj nsec nreg junk work work' fibers regions regions',
  (nsec <= nreg)%nat -> dims3 12 3 nsec work -> dims3 12 3 nsec work' -> dims2 18 nreg regions -> dims2 18 nreg regions' ->
  length fibers = 12%nat -> (forall fib, In fib fibers -> (nobj <= length fib)%nat) ->
  exists out rest static, regionize_hw d nobj nsec nreg junk work fibers regions = Ok (out, rest) /\
    regionize_ref d nobj nsec nreg 1 work' fibers regions' = Ok (out, rest, static).
Proof. exact @regionize_equal. Qed.
Print Assumptions C37_any_capacities.
(** the content of every region, for every object type and fibre count *)
Theorem C37_reference_regions : forall A (d : A) nobj nsec nreg nf work fibers regions,
  dims3 12 3 nsec work -> dims2 18 nreg regions -> length fibers = (nf * 12)%nat -> (forall fib, In fib fibers -> (nobj / nf <= length fib)%nat) ->
  exists out static, regionize_ref d nobj nsec nreg nf work fibers regions = Ok (out, map (skipn (nobj / nf)) fibers, static) /\ dims3 12 3 nsec static /\ dims2 18 nreg out /\
    forall ie ip, (ie < 3)%nat -> (ip < 6)%nat -> region_spec d nsec nreg (arrivals nf (nobj / nf) fibers) ie ip (nth (6 * ie + ip) out []).
Proof. exact @regionize_ref_spec. Qed.
Print Assumptions C37_reference_regions.
Theorem C37_firmware_regions : forall A (d : A) nobj nsec nreg junk work fibers regions,
  (nsec <= nreg)%nat -> dims3 12 3 nsec work -> dims2 18 nreg regions -> length fibers = 12%nat -> (forall fib, In fib fibers -> (nobj <= length fib)%nat) ->
  exists out, regionize_hw d nobj nsec nreg junk work fibers regions = Ok (out, map (skipn nobj) fibers) /\ dims2 18 nreg out /\
    forall ie ip, (ie < 3)%nat -> (ip < 6)%nat -> region_spec d nsec nreg (fun s => firstn nobj (nth s fibers [])) ie ip (nth (6 * ie + ip) out []).
Proof. exact @regionize_hw_spec. Qed.
Print Assumptions C37_firmware_regions.
Definition rx_regions (n : nat) : list (list (robj unit)) := repeat (repeat (mkR 1 1 1 tt) n) 18.
Definition rx_fibers15 : list (list (robj unit)) := repeat (rx_fibre ++ rx_fibre ++ rx_fibre) 12.
Lemma rx_dims3 n : dims3 12 3 n (rx_work n).
Proof. split; [reflexivity|]. intros a Ha. apply repeat_spec in Ha. subst. split; [reflexivity|]. intros b Hb. apply repeat_spec in Hb. subst. apply repeat_length. Qed.
Lemma rx_dims2 n : dims2 18 n (rx_regions n).
Proof. split; [reflexivity|]. intros a Ha. apply repeat_spec in Ha. subst. apply repeat_length. Qed.
Example C37_hyp : (7 <= NCALO cfg_TESTMP7)%nat /\ dims3 12 3 7 (rx_work 7) /\ dims2 18 (NCALO cfg_TESTMP7) (rx_regions 15) /\
  length rx_fibers15 = 12%nat /\ (forall fib, In fib rx_fibers15 -> (15 <= length fib)%nat) /\
  exists out rest, regionize_hadcalo cfg_TESTMP7 tt (fun _ _ => mkR 77 0 0 tt) (rx_work 7) rx_fibers15 (rx_regions 15) = Ok (out, rest) /\
    rest = repeat [] 12 /\ map r_pt (nth 0 out []) = [7; 7; 7; 7; 7; 7; 7; 7; 7; 0; 0; 0; 0; 0; 0].
Proof.
  split; [cbn; lia|]. split; [apply rx_dims3|]. split; [apply rx_dims2|]. split; [reflexivity|]. split; [intros fib H; apply repeat_spec in H; subst; cbn; lia|].
  eexists _, _. split; [vm_compute; reflexivity|]. vm_compute. split; reflexivity.
Qed.

(** ** C38 *)
(** Full statement: no configuration writes outside tmp.  False for the default
    and CTP7 configurations, which the regionizer's build scripts select: every
    call is out of bounds, while the reference is defined. *)
Theorem C38_default_build_refuted : forall A (d : A) fibers regions junk work work',
  dims3 12 3 7 work -> dims3 12 3 7 work' -> dims2 18 5 regions -> length fibers = 12%nat -> (forall fib, In fib fibers -> (15 <= length fib)%nat) ->
  regionize_hadcalo cfg_default d junk work fibers regions = UB OutOfBounds /\ exists r, regionize_hadcalo_ref cfg_default d work' fibers regions = Ok r.
Proof. exact @c38_default_refuted. Qed.
Print Assumptions C38_default_build_refuted.
Theorem C38_merge_in_bounds_iff : forall A (d : A) nsec nreg l1 s1 l2 s2 l3 s3 junk out,
  length l1 = nsec -> length l2 = nsec -> length l3 = nsec -> length out = nreg ->
  if (nsec <=? nreg)%nat then exists res, merge_smart d nsec nreg l1 s1 l2 s2 l3 s3 junk out = Ok res
  else merge_smart d nsec nreg l1 s1 l2 s2 l3 s3 junk out = UB OutOfBounds.
Proof. exact @merge_smart_bounds. Qed.
Print Assumptions C38_merge_in_bounds_iff.
Theorem C38_hadcalo_in_bounds_iff_partial : forall A (d : A) cfg junk work fibers regions,
  dims3 12 3 7 work -> dims2 18 (NCALO cfg) regions -> length fibers = 12%nat -> (forall fib, In fib fibers -> (15 <= length fib)%nat) ->
  if (7 <=? NCALO cfg)%nat then exists out, regionize_hadcalo cfg d junk work fibers regions = Ok out
  else regionize_hadcalo cfg d junk work fibers regions = UB OutOfBounds.
Proof. exact @c38_hadcalo. Qed.
Print Assumptions C38_hadcalo_in_bounds_iff_partial.
Theorem C38_configurations :
  (NCALO_PER_SECTOR_PER_ETA <= NCALO cfg_TESTMP7)%nat /\ (NCALO cfg_TESTCTP7 < NCALO_PER_SECTOR_PER_ETA)%nat /\ (NCALO cfg_default < NCALO_PER_SECTOR_PER_ETA)%nat.
Proof. exact c38_configs. Qed.
Print Assumptions C38_configurations.
Example C38_hyp : dims3 12 3 7 (rx_work 7) /\ dims2 18 5 (rx_regions 5) /\ length rx_fibers15 = 12%nat /\ (forall fib, In fib rx_fibers15 -> (15 <= length fib)%nat).
Proof. split; [apply rx_dims3|]. split; [apply rx_dims2|]. split; [reflexivity|]. intros fib H; apply repeat_spec in H; subst; cbn; lia. Qed.

(** ** C39 *)
Theorem C39_global_coordinates : forall A (d : A) nobj nsec nreg nf work fibers regions,
  dims3 12 3 nsec work -> dims2 18 nreg regions -> length fibers = (nf * 12)%nat -> (forall fib, In fib fibers -> (nobj / nf <= length fib)%nat) ->
  (forall fib x, In fib fibers -> In x (firstn (nobj / nf) fib) -> 0 < r_pt x -> -392 <= r_phi x <= 391) ->
  exists out rest static, regionize_ref d nobj nsec nreg nf work fibers regions = Ok (out, rest, static) /\
    forall ie ip o, (ie < 3)%nat -> (ip < 6)%nat -> In o (nth (6 * ie + ip) out []) -> 0 < r_pt o ->
      exists j x, (j < 3)%nat /\ In x (arrivals nf (nobj / nf) fibers (region_sector ip j)) /\ in_slice ie x = true /\
        r_pt o = r_pt x /\ r_rest o = r_rest x /\ region_eta ie (r_eta o) = r_eta x /\ region_phi ip (r_phi o) = sector_phi (region_sector ip j) (r_phi x).
Proof. exact @c39. Qed.
Print Assumptions C39_global_coordinates.
(** the firmware returns the same regions as the reference (for C39, C40) *)
Theorem C39_firmware_same_regions : forall A (d : A) nobj nsec nreg junk work fibers regions work' regions' out rest static,
  (nsec <= nreg)%nat -> dims3 12 3 nsec work -> dims3 12 3 nsec work' -> dims2 18 nreg regions -> dims2 18 nreg regions' ->
  length fibers = 12%nat -> (forall fib, In fib fibers -> (nobj <= length fib)%nat) ->
  regionize_ref d nobj nsec nreg 1 work' fibers regions' = Ok (out, rest, static) ->
  regionize_hw d nobj nsec nreg junk work fibers regions = Ok (out, rest).
Proof. exact @hw_is_ref. Qed.
Print Assumptions C39_firmware_same_regions.
Example C39_hyp : (forall fib x, In fib rx_fibers15 -> In x (firstn 15 fib) -> 0 < r_pt x -> -392 <= r_phi x <= 391) /\
  exists out rest static, regionize_ref tt 15 7 5 1 (rx_work 7) rx_fibers15 (rx_regions 5) = Ok (out, rest, static) /\
    In (mkR 7 1 (-117) tt) (nth 5 out []) /\ region_phi 5 (-117) = sector_phi 10 3 /\ region_eta 0 1 = -170.
Proof.
  split.
  - intros fib x H Hx P. apply repeat_spec in H. subst. cbn in Hx. repeat (destruct Hx as [<-|Hx]; [cbn; lia|]). destruct Hx.
  - eexists _, _, _. split; [vm_compute; reflexivity|]. split; [vm_compute; tauto|]. vm_compute. split; reflexivity.
Qed.

(** ** C40 *)
Theorem C40_no_loss : forall A (d : A) nobj nsec nreg nf work fibers regions,
  dims3 12 3 nsec work -> dims2 18 nreg regions -> length fibers = (nf * 12)%nat -> (forall fib, In fib fibers -> (nobj / nf <= length fib)%nat) ->
  exists out rest static, regionize_ref d nobj nsec nreg nf work fibers regions = Ok (out, rest, static) /\
    forall s x, (s < 12)%nat -> In x (arrivals nf (nobj / nf) fibers s) -> 0 < r_pt x -> -342 <= r_eta x <= 342 ->
      (exists ie ip j, (ie < 3)%nat /\ (ip < 6)%nat /\ (j < 3)%nat /\ region_sector ip j = s /\ in_slice ie x = true) /\
      (forall ie ip j, (ie < 3)%nat -> (ip < 6)%nat -> (j < 3)%nat -> region_sector ip j = s -> in_slice ie x = true ->
        let region := nth (6 * ie + ip) out [] in
        In (local_phi j (local_eta ie x)) region \/
        (nsec < length (filter (fun y => (r_pt x <=? r_pt y)%Z && in_slice ie y) (arrivals nf (nobj / nf) fibers s)))%nat \/
        (length region = nreg /\ forall o, In o region -> r_pt x <= r_pt o)).
Proof. exact @c40. Qed.
Print Assumptions C40_no_loss.
(** two fibres per sector, as for the tracks *)
Definition rx_fibers_tk : list (list (robj unit)) := repeat [mkR 4 60 5 tt; mkR 0 0 0 tt] 24.
Example C40_hyp : length rx_fibers_tk = (2 * 12)%nat /\ (forall fib, In fib rx_fibers_tk -> (4 / 2 <= length fib)%nat) /\
  In (mkR 4 60 5 tt) (arrivals 2 (4 / 2) rx_fibers_tk 3) /\
  exists out rest static, regionize_ref tt 4 2 9 2 (rx_work 2) rx_fibers_tk (rx_regions 9) = Ok (out, rest, static) /\
    In (local_phi 1 (local_eta 2 (mkR 4 60 5 tt))) (nth 13 out []) /\ In (local_phi 1 (local_eta 1 (mkR 4 60 5 tt))) (nth 7 out []).
Proof.
  split; [reflexivity|]. split; [intros fib H; apply repeat_spec in H; subst; cbn; lia|]. split; [vm_compute; tauto|].
  eexists _, _, _. split; [vm_compute; reflexivity|]. split; vm_compute; tauto.
Qed.

(** ** C41 *)
Theorem C41_reference_history : forall A (d : A) nobj nsec nreg nf regs static fibers,
  dims3 12 3 nsec static -> Forall (dims2 18 nreg) regs -> length fibers = (nf * 12)%nat ->
  (forall fib, In fib fibers -> (length regs * (nobj / nf) <= length fib)%nat) ->
  exists outs, calls (regionize_ref (A := A) d nobj nsec nreg nf) regs static fibers = Ok (outs, map (skipn (length regs * (nobj / nf))) fibers) /\ length outs = length regs /\
    forall k out, nth_error outs k = Some out -> forall static' regions', dims3 12 3 nsec static' -> dims2 18 nreg regions' ->
      exists s'', regionize_ref d nobj nsec nreg nf static' (chunk (nobj / nf) k fibers) regions' = Ok (out, map (fun _ => []) fibers, s'').
Proof. exact @regionize_ref_calls. Qed.
Print Assumptions C41_reference_history.
Theorem C41_muon_history : forall A (d : A) nmu regs static fibers,
  dims3 4 3 nmu static -> Forall (dims2 18 nmu) regs -> length fibers = 4%nat ->
  (forall fib, In fib fibers -> (length regs * nmu <= length fib)%nat) ->
  exists outs, calls (regionize_muon_ref (A := A) d nmu) regs static fibers = Ok (outs, map (skipn (length regs * nmu)) fibers) /\ length outs = length regs /\
    forall k out, nth_error outs k = Some out -> forall static' regions', dims3 4 3 nmu static' -> dims2 18 nmu regions' ->
      exists s'', regionize_muon_ref d nmu static' (chunk nmu k fibers) regions' = Ok (out, map (fun _ => []) fibers, s'').
Proof. exact @regionize_muon_calls. Qed.
Print Assumptions C41_muon_history.
Theorem C41_firmware_local : forall A (d : A) nobj nsec nreg junk junk' work work' fibers fibers' regions regions',
  (nsec <= nreg)%nat -> dims3 12 3 nsec work -> dims3 12 3 nsec work' -> dims2 18 nreg regions -> dims2 18 nreg regions' ->
  length fibers = 12%nat -> length fibers' = 12%nat -> (forall fib, In fib fibers -> (nobj <= length fib)%nat) -> (forall fib, In fib fibers' -> (nobj <= length fib)%nat) ->
  map (firstn nobj) fibers = map (firstn nobj) fibers' ->
  exists out, regionize_hw d nobj nsec nreg junk work fibers regions = Ok (out, map (skipn nobj) fibers) /\
              regionize_hw d nobj nsec nreg junk' work' fibers' regions' = Ok (out, map (skipn nobj) fibers').
Proof. exact @regionize_hw_local. Qed.
Print Assumptions C41_firmware_local.
Example C41_hyp : Forall (dims2 18 5) [rx_regions 5; rx_regions 5; rx_regions 5] /\ (forall fib, In fib rx_fibers15 -> (3 * (5 / 1) <= length fib)%nat) /\
  exists outs rest, calls (regionize_ref tt 5 7 5 1) [rx_regions 5; rx_regions 5; rx_regions 5] (rx_work 7) rx_fibers15 = Ok (outs, rest) /\ rest = repeat [] 12.
Proof.
  split; [repeat constructor; try reflexivity; intros a Ha; apply repeat_spec in Ha; subst; reflexivity|].
  split; [intros fib H; apply repeat_spec in H; subst; cbn; lia|]. eexists _, _. split; [vm_compute; reflexivity|]. vm_compute. reflexivity.
Qed.

(** ** C42 *)
Theorem C42_merge_of_12_into_4 : forall A (d : A) nmu input out, dims2 12 nmu input -> dims2 4 nmu out ->
  exists fibers, merge_muon_in d nmu input out = Ok fibers /\ dims2 4 nmu fibers /\
    forall m, (m < 4)%nat -> kept d nmu (shifted (-120) (nth (3 * m) input []) ++ shifted 0 (nth (3 * m + 1) input []) ++ shifted 120 (nth (3 * m + 2) input [])) (nth m fibers []).
Proof. exact @merge_muon_in_kept. Qed.
Print Assumptions C42_merge_of_12_into_4.
(** content of every region: sorted, only muons of its slice and window with
    global coordinates kept, and all of them while slots last *)
Theorem C42_muon_regions : forall A (d : A) nmu work fibers regions,
  dims3 4 3 nmu work -> dims2 18 nmu regions -> length fibers = 4%nat -> (forall fib, In fib fibers -> (nmu <= length fib)%nat) ->
  (forall fib x, In fib fibers -> In x (firstn nmu fib) -> 0 < r_pt x -> -180 < r_phi x <= 180) ->
  exists out static, regionize_muon_ref d nmu work fibers regions = Ok (out, map (skipn nmu) fibers, static) /\ dims2 18 nmu out /\
    forall ie ip, (ie < 3)%nat -> (ip < 6)%nat ->
      sorted_slots d nmu (nth (6 * ie + ip) out []) /\
      (forall o, In o (nth (6 * ie + ip) out []) -> 0 < r_pt o ->
         exists m x, (m < 4)%nat /\ In x (firstn nmu (nth m fibers [])) /\ in_slice ie x = true /\ r_pt o = r_pt x /\ r_rest o = r_rest x /\
           region_eta ie (r_eta o) = r_eta x /\ region_phi ip (r_phi o) = muon_phi m (r_phi x) /\ -180 < r_phi o <= 180) /\
      (forall m x, (m < 4)%nat -> In x (firstn nmu (nth m fibers [])) -> 0 < r_pt x -> in_slice ie x = true -> -180 < muon_local ip m (r_phi x) <= 180 ->
         In (mkR (r_pt x) (r_eta x - slice_centre ie) (muon_local ip m (r_phi x)) (r_rest x)) (nth (6 * ie + ip) out []) \/
         (length (nth (6 * ie + ip) out []) = nmu /\ forall o, In o (nth (6 * ie + ip) out []) -> r_pt x <= r_pt o)).
Proof. exact @muon_regions. Qed.
Print Assumptions C42_muon_regions.
Theorem C42_muon_chain : forall A (d : A) nmu input out0 fibers work regions,
  dims2 12 nmu input -> dims2 4 nmu out0 -> merge_muon_in d nmu input out0 = Ok fibers ->
  (forall s x, (s < 12)%nat -> In x (nth s input []) -> 0 < r_pt x -> -60 < r_phi x <= 60) ->
  dims3 4 3 nmu work -> dims2 18 nmu regions ->
  exists out rest static, regionize_muon_ref d nmu work fibers regions = Ok (out, rest, static) /\
    forall ie ip o, (ie < 3)%nat -> (ip < 6)%nat -> In o (nth (6 * ie + ip) out []) -> 0 < r_pt o ->
      exists s x, (s < 12)%nat /\ In x (nth s input []) /\ in_slice ie x = true /\ r_pt o = r_pt x /\ r_rest o = r_rest x /\
        region_eta ie (r_eta o) = r_eta x /\ region_phi ip (r_phi o) = sector_phi s (r_phi x) /\ -180 < r_phi o <= 180.
Proof. exact @muon_chain. Qed.
Print Assumptions C42_muon_chain.
Definition rx_mu : list (list (robj unit)) := [mkR 5 0 60 tt; rclear tt] :: [mkR 9 (-100) (-59) tt; mkR 3 100 7 tt] :: repeat [rclear tt; rclear tt] 9 ++ [[mkR 8 0 50 tt; rclear tt]].
Example C42_hyp : dims2 12 2 rx_mu /\ (forall s x, (s < 12)%nat -> In x (nth s rx_mu []) -> 0 < r_pt x -> -60 < r_phi x <= 60) /\
  exists fibers out rest static, merge_muon_in tt 2 rx_mu (repeat [mkR 1 1 1 tt; mkR 2 2 2 tt] 4) = Ok fibers /\
    fibers = [[mkR 9 (-100) (-59) tt; mkR 5 0 (-60) tt]; [rclear tt; rclear tt]; [rclear tt; rclear tt]; [mkR 8 0 170 tt; rclear tt]] /\
    regionize_muon_ref tt 2 (repeat (repeat [rclear tt; rclear tt] 3) 4) fibers (rx_regions 2) = Ok (out, rest, static) /\
    nth 11 out [] = [mkR 8 0 50 tt; mkR 5 0 180 tt] /\ nth 6 out [] = [mkR 9 (-100) (-59) tt; mkR 5 0 (-60) tt].
Proof.
  split; [split; [reflexivity|]; intros a Ha; cbn in Ha; repeat (destruct Ha as [<-|Ha]; [reflexivity|]); destruct Ha|].
  split.
  - intros s x Hs Hx P. do 12 (destruct s; [cbn in Hx; repeat (destruct Hx as [<-|Hx]; [cbn in *; lia|]); destruct Hx|]). lia.
  - eexists _, _, _, _. split; [vm_compute; reflexivity|]. split; [reflexivity|]. split; [vm_compute; reflexivity|]. vm_compute. split; reflexivity.
Qed.
