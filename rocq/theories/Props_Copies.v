(** C96: the regionizers neither invent nor duplicate objects.  [A] is the
    payload type of the objects, [d] the payload of a cleared one. *)
From Coq Require Import Permutation.
From Verif Require Import Base Data SpecSort Regionizer SpecRegion SpecCopies CopiesProofs Props_Region.

(** Every region holds a part of what it is offered, each object at most as often
    as it arrived, and all of it if it fits.  So no quantity carried by the
    objects exceeds the sum over the arrivals, each counted once for every region
    it belongs to, and if everything fits the two are equal. *)
Theorem C96_regions : forall A (d : A) nobj nsec nreg nf work fibers regions,
  dims3 12 3 nsec work -> dims2 18 nreg regions -> length fibers = (nf * 12)%nat -> (forall fib, In fib fibers -> (nobj / nf <= length fib)%nat) ->
  let objs := arrivals nf (nobj / nf) fibers in
  exists out rest static, regionize_ref d nobj nsec nreg nf work fibers regions = Ok (out, rest, static) /\
    (forall ie ip, (ie < 3)%nat -> (ip < 6)%nat -> exists lost, Permutation (held (nth (6 * ie + ip) out []) ++ lost) (offered objs ie ip) /\ (fits_in nsec nreg objs ie ip -> lost = [])) /\
    (forall f, (forall p r, 0 <= f p r) -> total_out f out <= total_in copies f 12 objs) /\
    ((forall ie ip, (ie < 3)%nat -> (ip < 6)%nat -> fits_in nsec nreg objs ie ip) -> forall f, total_out f out = total_in copies f 12 objs).
Proof. exact @c96_ref. Qed.
Print Assumptions C96_regions.
Theorem C96_regions_firmware : forall A (d : A) nobj nsec nreg junk work fibers regions,
  (nsec <= nreg)%nat -> dims3 12 3 nsec work -> dims2 18 nreg regions -> length fibers = 12%nat -> (forall fib, In fib fibers -> (nobj <= length fib)%nat) ->
  let objs := fun s => firstn nobj (nth s fibers []) in
  exists out rest, regionize_hw d nobj nsec nreg junk work fibers regions = Ok (out, rest) /\
    (forall ie ip, (ie < 3)%nat -> (ip < 6)%nat -> exists lost, Permutation (held (nth (6 * ie + ip) out []) ++ lost) (offered objs ie ip) /\ (fits_in nsec nreg objs ie ip -> lost = [])) /\
    (forall f, (forall p r, 0 <= f p r) -> total_out f out <= total_in copies f 12 objs) /\
    ((forall ie ip, (ie < 3)%nat -> (ip < 6)%nat -> fits_in nsec nreg objs ie ip) -> forall f, total_out f out = total_in copies f 12 objs).
Proof. exact @c96_hw. Qed.
Print Assumptions C96_regions_firmware.
(** The muon regions, from the four muon fibres. *)
Theorem C96_muon_regions : forall A (d : A) nmu work fibers regions,
  dims3 4 3 nmu work -> dims2 18 nmu regions -> length fibers = 4%nat -> (forall fib, In fib fibers -> (nmu <= length fib)%nat) ->
  (forall fib x, In fib fibers -> In x (firstn nmu fib) -> 0 < r_pt x -> -180 < r_phi x <= 180) ->
  let objs := fun m => firstn nmu (nth m fibers []) in
  exists out rest static, regionize_muon_ref d nmu work fibers regions = Ok (out, rest, static) /\
    (forall ie ip, (ie < 3)%nat -> (ip < 6)%nat -> exists lost, Permutation (held (nth (6 * ie + ip) out []) ++ lost) (mu_offered objs ie ip) /\ ((length (mu_offered objs ie ip) <= nmu)%nat -> lost = [])) /\
    (forall f, (forall p r, 0 <= f p r) -> total_out f out <= total_in mu_copies f 4 objs) /\
    ((forall ie ip, (ie < 3)%nat -> (ip < 6)%nat -> (length (mu_offered objs ie ip) <= nmu)%nat) -> forall f, total_out f out = total_in mu_copies f 4 objs).
Proof. exact @c96_muon. Qed.
Print Assumptions C96_muon_regions.
(** From the twelve sectors of the dump: with at most [nmu] muons in the event
    none is lost. *)
Theorem C96_muon_chain : forall A (d : A) nmu input out0 fibers work regions,
  dims2 12 nmu input -> dims2 4 nmu out0 -> merge_muon_in d nmu input out0 = Ok fibers ->
  (forall s x, (s < 12)%nat -> In x (nth s input []) -> 0 < r_pt x -> -60 < r_phi x <= 60) ->
  (length (flat_map held input) <= nmu)%nat ->
  dims3 4 3 nmu work -> dims2 18 nmu regions ->
  exists out rest static, regionize_muon_ref d nmu work fibers regions = Ok (out, rest, static) /\
    forall f, total_out f out = total_in mu_copies12 f 12 (fun s => nth s input []).
Proof. exact @c96_muon_chain. Qed.
Print Assumptions C96_muon_chain.

(** Sector 2 receives four objects: two belong in four regions, two in two (one
    slice, shared sector).  Total pt 4 (9 + 7) + 2 (5 + 8) = 90; everything fits in
    four slots per sector and nine per region.  With one slot per sector and region
    the softer ones are lost. *)
Definition cx_fibers : list (list (robj nat)) := mapi (fun s _ => if (s =? 2)%nat then [mkR 5 0 10 1%nat; mkR 9 100 0 2%nat; mkR 0 0 0 0%nat; mkR 7 (-170) 3 3%nat; mkR 8 200 1 4%nat] else repeat (rclear 0%nat) 5) (seq 0 12).
Definition cx_work (n : nat) : list (list (list (robj nat))) := repeat (repeat (repeat (mkR 3 3 3 9%nat) n) 3) 12.
Definition cx_regions (n : nat) : list (list (robj nat)) := repeat (repeat (mkR 3 3 3 9%nat) n) 18.
Lemma cx_dims3 m n : dims3 m 3 n (repeat (repeat (repeat (mkR 3 3 3 9%nat) n) 3) m).
Proof. split; [apply repeat_length|]. intros a Ha. apply repeat_spec in Ha. subst. split; [reflexivity|]. intros b Hb. apply repeat_spec in Hb. subst. apply repeat_length. Qed.
Lemma cx_dims2 m n : dims2 m n (repeat (repeat (mkR 3 3 3 9%nat) n) m).
Proof. split; [apply repeat_length|]. intros a Ha. apply repeat_spec in Ha. subst. apply repeat_length. Qed.
Example C96_hyp : dims3 12 3 4 (cx_work 4) /\ dims2 18 9 (cx_regions 9) /\ length cx_fibers = 12%nat /\ (forall fib, In fib cx_fibers -> (5 <= length fib)%nat) /\
  (forall ie ip, (ie < 3)%nat -> (ip < 6)%nat -> fits_in 4 9 (fun s => firstn 5 (nth s cx_fibers [])) ie ip) /\
  total_in copies (fun p _ => p) 12 (fun s => firstn 5 (nth s cx_fibers [])) = 90 /\
  (exists out rest, regionize_hw 0%nat 5 4 9 (fun _ _ => mkR 77 0 0 5%nat) (cx_work 4) cx_fibers (cx_regions 9) = Ok (out, rest) /\
    total_out (fun p _ => p) out = 90 /\ total_out (fun _ r => if (r =? 3)%nat then 1 else 0) out = 4 /\ length (filter (fun r => match held r with [] => false | _ => true end) out) = 6%nat) /\
  (exists out rest, regionize_hw 0%nat 5 1 1 (fun _ _ => mkR 77 0 0 5%nat) (cx_work 1) cx_fibers (cx_regions 1) = Ok (out, rest) /\ total_out (fun p _ => p) out = 50).
Proof.
  split; [apply cx_dims3|]. split; [apply cx_dims2|]. split; [reflexivity|]. split.
  { intros fib H. apply (In_nth _ _ []) in H as (s & Hs & <-). change (length cx_fibers) with 12%nat in Hs. do 12 (destruct s as [|s]; [cbn; lia|]). lia. }
  split.
  { intros ie ip He Hp. assert (G : forallb (fun ie => forallb (fun ip => forallb (fun j => Nat.leb (length (slice_cands ie (firstn 5 (nth (region_sector ip j) cx_fibers [])))) 4) [0; 1; 2]%nat &&
      Nat.leb (length (offered (fun s => firstn 5 (nth s cx_fibers [])) ie ip)) 9) (seq 0 6)) (seq 0 3) = true) by (vm_compute; reflexivity).
    rewrite forallb_forall in G. specialize (G ie ltac:(apply in_seq; lia)). rewrite forallb_forall in G. specialize (G ip ltac:(apply in_seq; lia)). apply andb_true_iff in G as [G1 G2]. split; [|apply Nat.leb_le, G2].
    intros j Hj. rewrite forallb_forall in G1. apply Nat.leb_le, (G1 j). destruct j as [|[|[|]]]; [left|right; left|right; right; left|lia]; reflexivity. }
  split; [vm_compute; reflexivity|]. split.
  - eexists _, _. split; [vm_compute; reflexivity|]. split; [vm_compute; reflexivity|]. split; vm_compute; reflexivity.
  - eexists _, _. split; [vm_compute; reflexivity|]. vm_compute. reflexivity.
Qed.

(** Two muons: one near the centre of a region, in the overlap of two eta slices
    (two copies), one between two regions and in the overlap (four copies).  A
    third muon, in the second half of the ring, is left out in the last case. *)
Definition cm_input : list (list (robj nat)) := mapi (fun s _ => if (s =? 1)%nat then [mkR 12 (-60) 0 1%nat; rclear 0%nat] else if (s =? 4)%nat then [mkR 6 100 (-30) 2%nat; rclear 0%nat] else
  if (s =? 6)%nat then [rclear 0%nat; mkR 4 0 0 3%nat] else repeat (rclear 0%nat) 2) (seq 0 12).
Example C96_muon_hyp : dims2 12 2 cm_input /\ (length (flat_map held (firstn 6 cm_input)) <= 2)%nat /\ length (flat_map held cm_input) = 3%nat /\
  (forall s x, (s < 12)%nat -> In x (nth s cm_input []) -> 0 < r_pt x -> -60 < r_phi x <= 60) /\
  (let input := firstn 6 cm_input ++ repeat (repeat (rclear 0%nat) 2) 6 in dims2 12 2 input /\ (length (flat_map held input) <= 2)%nat /\
    exists fibers out rest static, merge_muon_in 0%nat 2 input (repeat (repeat (mkR 3 3 3 9%nat) 2) 4) = Ok fibers /\ regionize_muon_ref 0%nat 2 (repeat (repeat (repeat (mkR 3 3 3 9%nat) 2) 3) 4) fibers (cx_regions 2) = Ok (out, rest, static) /\
      total_out (fun p _ => p) out = 48 /\ total_in mu_copies12 (fun p _ => p) 12 (fun s => nth s input []) = 48).
Proof.
  assert (D : forall l : list (list (robj nat)), length l = 12%nat -> forallb (fun a => Nat.eqb (length a) 2) l = true -> dims2 12 2 l).
  { intros l L F. split; [exact L|]. intros a Ha. rewrite forallb_forall in F. apply Nat.eqb_eq, F, Ha. }
  split; [apply D; reflexivity|]. split; [vm_compute; lia|]. split; [reflexivity|]. split.
  - intros s x Hs. do 12 (destruct s as [|s]; [cbn; intros [<-|[<-|[]]]; cbn; lia|]). lia.
  - split; [apply D; reflexivity|]. split; [vm_compute; lia|]. eexists _, _, _, _. split; [vm_compute; reflexivity|]. split; [vm_compute; reflexivity|]. split; vm_compute; reflexivity.
Qed.
