(** C37 to C41 assembled for whole calls. *)
From Coq Require Import Permutation Sorted.
From Verif Require Import Base BaseFacts Data PFHw SortFacts SpecSort RankFacts TabFacts Regionizer SpecRegion RegionFacts RegionMerge RegionLoops RegionProofs RegionMuon RegionMuonProps.

Section final.
Context {A : Type} (d : A).
Implicit Types (x y o : robj A).

Lemma c39 nobj nsec nreg nf work fibers regions :
  dims3 12 3 nsec work -> dims2 18 nreg regions -> length fibers = (nf * 12)%nat -> (forall fib, In fib fibers -> (nobj / nf <= length fib)%nat) ->
  (forall fib x, In fib fibers -> In x (firstn (nobj / nf) fib) -> 0 < r_pt x -> -392 <= r_phi x <= 391) ->
  exists out rest static, regionize_ref d nobj nsec nreg nf work fibers regions = Ok (out, rest, static) /\
    forall ie ip o, (ie < 3)%nat -> (ip < 6)%nat -> In o (nth (6 * ie + ip) out []) -> 0 < r_pt o ->
      exists j x, (j < 3)%nat /\ In x (arrivals nf (nobj / nf) fibers (region_sector ip j)) /\ in_slice ie x = true /\
        r_pt o = r_pt x /\ r_rest o = r_rest x /\ region_eta ie (r_eta o) = r_eta x /\ region_phi ip (r_phi o) = sector_phi (region_sector ip j) (r_phi x).
Proof.
  intros H1 H2 H3 H4 HN. destruct (regionize_ref_spec d nobj nsec nreg nf work fibers regions H1 H2 H3 H4) as (out & static & E & _ & _ & G).
  exists out, (map (skipn (nobj / nf)) fibers), static. split; [exact E|]. intros ie ip o He Hp Ho P.
  destruct (region_origin d _ _ _ _ _ _ _ He Hp (G ie ip He Hp) Ho P) as (j & x & Hj & Hx & Sx & ->). exists j, x.
  assert (Rx : -392 <= r_phi x <= 391).
  { unfold arrivals in Hx. apply in_flat_map in Hx as (io & Hio & Hx). apply in_flat_map in Hx as (f & Hf & Hx).
    destruct (nth_error (nth (nf * region_sector ip j + f) fibers []) io) as [z|] eqn:Ez; [|destruct Hx]. destruct Hx as [->|[]].
    apply in_seq in Hio, Hf. assert (Hs : (region_sector ip j < 12)%nat) by (unfold region_sector; lia).
    apply (HN (nth (nf * region_sector ip j + f) fibers [])); [apply nth_In; nia| |assumption].
    apply (nth_error_In _ io). rewrite nth_error_firstn. destruct (Nat.ltb_spec io (nobj / nf)); [assumption|lia]. }
  destruct (local_coordinates ip ie j x Hp Hj Rx) as [L1 L2]. repeat split; try assumption; try reflexivity.
Qed.

Lemma c40 nobj nsec nreg nf work fibers regions :
  dims3 12 3 nsec work -> dims2 18 nreg regions -> length fibers = (nf * 12)%nat -> (forall fib, In fib fibers -> (nobj / nf <= length fib)%nat) ->
  exists out rest static, regionize_ref d nobj nsec nreg nf work fibers regions = Ok (out, rest, static) /\
    forall s x, (s < 12)%nat -> In x (arrivals nf (nobj / nf) fibers s) -> 0 < r_pt x -> -342 <= r_eta x <= 342 ->
      (exists ie ip j, (ie < 3)%nat /\ (ip < 6)%nat /\ (j < 3)%nat /\ region_sector ip j = s /\ in_slice ie x = true) /\
      (forall ie ip j, (ie < 3)%nat -> (ip < 6)%nat -> (j < 3)%nat -> region_sector ip j = s -> in_slice ie x = true ->
        let region := nth (6 * ie + ip) out [] in
        In (local_phi j (local_eta ie x)) region \/
        (nsec < length (filter (fun y => (r_pt x <=? r_pt y)%Z && in_slice ie y) (arrivals nf (nobj / nf) fibers s)))%nat \/
        (length region = nreg /\ forall o, In o region -> r_pt x <= r_pt o)).
Proof.
  intros H1 H2 H3 H4. destruct (regionize_ref_spec d nobj nsec nreg nf work fibers regions H1 H2 H3 H4) as (out & static & E & _ & _ & G).
  exists out, (map (skipn (nobj / nf)) fibers), static. split; [exact E|]. intros s x Hs Hx P He. split.
  - destruct (region_cover s (r_eta x) Hs He) as (ie & ip & j & B1 & B2 & B3 & B4 & B5). exists ie, ip, j. repeat split; try assumption. unfold in_slice. lia.
  - intros ie ip j B1 B2 B3 <- Sx. apply (region_complete d nsec nreg _ ie ip j); try assumption. apply G; assumption.
Qed.

(** the firmware computes the same regions *)
Lemma hw_is_ref nobj nsec nreg junk work fibers regions work' regions' out rest static :
  (nsec <= nreg)%nat -> dims3 12 3 nsec work -> dims3 12 3 nsec work' -> dims2 18 nreg regions -> dims2 18 nreg regions' ->
  length fibers = 12%nat -> (forall fib, In fib fibers -> (nobj <= length fib)%nat) ->
  regionize_ref d nobj nsec nreg 1 work' fibers regions' = Ok (out, rest, static) ->
  regionize_hw d nobj nsec nreg junk work fibers regions = Ok (out, rest).
Proof.
  intros H0 H1 H2 H3 H4 H5 H6 E. destruct (regionize_equal d nobj nsec nreg junk work work' fibers regions regions') as (o & r & s & E1 & E2); try assumption.
  congruence.
Qed.

Lemma c38_configs :
  (NCALO_PER_SECTOR_PER_ETA <= NCALO cfg_TESTMP7)%nat /\ (NCALO cfg_TESTCTP7 < NCALO_PER_SECTOR_PER_ETA)%nat /\ (NCALO cfg_default < NCALO_PER_SECTOR_PER_ETA)%nat.
Proof. vm_compute. repeat split; lia. Qed.

Lemma c38_hadcalo cfg junk work fibers regions :
  dims3 12 3 7 work -> dims2 18 (NCALO cfg) regions -> length fibers = 12%nat -> (forall fib, In fib fibers -> (15 <= length fib)%nat) ->
  if (7 <=? NCALO cfg)%nat then exists out, regionize_hadcalo cfg d junk work fibers regions = Ok out
  else regionize_hadcalo cfg d junk work fibers regions = UB OutOfBounds.
Proof.
  intros H1 H2 H3 H4. unfold regionize_hadcalo. change NCALO_PER_SECTOR with 15%nat. change NCALO_PER_SECTOR_PER_ETA with 7%nat.
  destruct (Nat.leb_spec 7 (NCALO cfg)).
  - eexists. apply regionize_hw_R; assumption.
  - apply regionize_hw_oob; assumption.
Qed.

Lemma c37_hadcalo cfg junk work work' fibers regions regions' : (7 <= NCALO cfg)%nat ->
  dims3 12 3 7 work -> dims3 12 3 7 work' -> dims2 18 (NCALO cfg) regions -> dims2 18 (NCALO cfg) regions' -> length fibers = 12%nat -> (forall fib, In fib fibers -> (15 <= length fib)%nat) ->
  exists out rest static, regionize_hadcalo cfg d junk work fibers regions = Ok (out, rest) /\ regionize_hadcalo_ref cfg d work' fibers regions' = Ok (out, rest, static).
Proof. intros. apply regionize_equal; assumption. Qed.

Lemma c38_default_refuted fibers regions junk work work' : dims3 12 3 7 work -> dims3 12 3 7 work' -> dims2 18 5 regions -> length fibers = 12%nat -> (forall fib, In fib fibers -> (15 <= length fib)%nat) ->
  regionize_hadcalo cfg_default d junk work fibers regions = UB OutOfBounds /\ exists r, regionize_hadcalo_ref cfg_default d work' fibers regions = Ok r.
Proof.
  intros H1 H1' H2 H3 H4. split; [apply regionize_hw_oob; try assumption; vm_compute; lia|].
  eexists. apply (regionize_ref_R d 15 7 5 1); try assumption.
Qed.

End final.
