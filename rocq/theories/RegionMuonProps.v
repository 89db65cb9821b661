(** Property lemmas about the muon regionizer (C41, C42). *)
From Coq Require Import Permutation Sorted.
From Verif Require Import Base BaseFacts Data PFHw SortFacts SpecSort RankFacts TabFacts Regionizer SpecRegion RegionFacts RegionMerge RegionLoops RegionProofs RegionMuon.

Section muonprops.
Context {A : Type} (d : A).
Implicit Types (x y o : robj A).

Lemma regionize_muon_calls nmu regs static fibers :
  dims3 4 3 nmu static -> Forall (dims2 18 nmu) regs -> length fibers = 4%nat ->
  (forall fib, In fib fibers -> (length regs * nmu <= length fib)%nat) ->
  exists outs, calls (regionize_muon_ref (A := A) d nmu) regs static fibers = Ok (outs, map (skipn (length regs * nmu)) fibers) /\ length outs = length regs /\
    forall k out, nth_error outs k = Some out -> forall static' regions', dims3 4 3 nmu static' -> dims2 18 nmu regions' ->
      exists s'', regionize_muon_ref d nmu static' (chunk nmu k fibers) regions' = Ok (out, map (fun _ => []) fibers, s'').
Proof.
  intros. apply (calls_spec _ 4 nmu (dims3 4 3 nmu) (dims2 18 nmu)
     (fun fibers => tab 18 (fun ir => K d nmu (mcands nmu (arrivals 1 nmu fibers) (ir / 6) (ir mod 6))))); try assumption.
  - intros. eexists. split; [apply regionize_muon_K; assumption|apply W_dims].
  - intros fb fb' E. apply tab_ext. intros ir _. f_equal. unfold mcands, mt. rewrite !(arrivals_chunk 1 nmu fb fb') by assumption. reflexivity.
Qed.

Lemma muon_regions nmu work fibers regions :
  dims3 4 3 nmu work -> dims2 18 nmu regions -> length fibers = 4%nat -> (forall fib, In fib fibers -> (nmu <= length fib)%nat) ->
  (forall fib x, In fib fibers -> In x (firstn nmu fib) -> 0 < r_pt x -> -180 < r_phi x <= 180) ->
  exists out static, regionize_muon_ref d nmu work fibers regions = Ok (out, map (skipn nmu) fibers, static) /\ dims2 18 nmu out /\
    forall ie ip, (ie < 3)%nat -> (ip < 6)%nat ->
      sorted_slots d nmu (nth (6 * ie + ip) out []) /\
      (forall o, In o (nth (6 * ie + ip) out []) -> 0 < r_pt o ->
         exists m x, (m < 4)%nat /\ In x (firstn nmu (nth m fibers [])) /\ in_slice ie x = true /\ r_pt o = r_pt x /\ r_rest o = r_rest x /\
           region_eta ie (r_eta o) = r_eta x /\ region_phi ip (r_phi o) = muon_phi m (r_phi x) /\ -180 < r_phi o <= 180) /\
      (forall m x, (m < 4)%nat -> In x (firstn nmu (nth m fibers [])) -> 0 < r_pt x -> in_slice ie x = true -> -180 < muon_local ip m (r_phi x) <= 180 ->
         In (mkR (r_pt x) (r_eta x - slice_centre ie) (muon_local ip m (r_phi x)) (r_rest x)) (nth (6 * ie + ip) out []) \/
         (length (nth (6 * ie + ip) out []) = nmu /\ forall o, In o (nth (6 * ie + ip) out []) -> r_pt x <= r_pt o)).
Proof.
  intros H1 H2 H3 H4 HN. destruct (regionize_muon_spec d nmu work fibers regions H1 H2 H3 H4) as (out & static & E & D & G).
  exists out, static. split; [exact E|]. split; [exact D|]. intros ie ip He Hp. destruct (G ie ip He Hp) as [S EK]. clear G. split; [exact S|].
  assert (HN' : forall m x, (m < 4)%nat -> In x (arrivals 1 nmu fibers m) -> 0 < r_pt x -> -180 < r_phi x <= 180).
  { intros m x Hm Hx P. rewrite arrivals_one in Hx. apply (HN (nth m fibers [])); try assumption. apply nth_In. lia. }
  split.
  - intros o Ho P. rewrite EK in Ho. apply (kept_in d _ _ _ _ (kept_K d nmu _)) in Ho; [|assumption].
    destruct (mcands_origin nmu _ ie ip o He Hp HN' Ho) as (m & x & Hm & Hx & H). rewrite arrivals_one in Hx. exists m, x. tauto.
  - intros m x Hm Hx P Sx Hw. assert (Hx' : In x (arrivals 1 nmu fibers m)) by (rewrite arrivals_one; assumption).
    assert (Hc := mcands_complete nmu _ ie ip m x He Hp Hm (muon_fibre_length nmu fibers m) Hx' P Sx (HN' m x Hm Hx' P) Hw).
    rewrite EK. set (c := mcands nmu (arrivals 1 nmu fibers) ie ip) in *.
    destruct (kept_K d nmu c) as (top & T & ->). destruct (top_n_displaced _ _ _ _ _ T Hc) as [Hi|(Hl & Hg & _)].
    + left. apply in_or_app; left; assumption.
    + right. rewrite Hl, Nat.sub_diag. cbn [repeat]. rewrite app_nil_r. split; [assumption|]. exact Hg.
Qed.

(** the 12-to-4 merge followed by the regionizer *)
Lemma muon_chain nmu input out0 fibers work regions :
  dims2 12 nmu input -> dims2 4 nmu out0 -> merge_muon_in d nmu input out0 = Ok fibers ->
  (forall s x, (s < 12)%nat -> In x (nth s input []) -> 0 < r_pt x -> -60 < r_phi x <= 60) ->
  dims3 4 3 nmu work -> dims2 18 nmu regions ->
  exists out rest static, regionize_muon_ref d nmu work fibers regions = Ok (out, rest, static) /\
    forall ie ip o, (ie < 3)%nat -> (ip < 6)%nat -> In o (nth (6 * ie + ip) out []) -> 0 < r_pt o ->
      exists s x, (s < 12)%nat /\ In x (nth s input []) /\ in_slice ie x = true /\ r_pt o = r_pt x /\ r_rest o = r_rest x /\
        region_eta ie (r_eta o) = r_eta x /\ region_phi ip (r_phi o) = sector_phi s (r_phi x) /\ -180 < r_phi o <= 180.
Proof.
  intros HI HO EM HN HW HR. destruct (merge_muon_in_kept d nmu input out0 HI HO) as (fibers' & EM' & [DF1 DF2] & KF).
  assert (fibers' = fibers) by congruence. subst fibers'. clear EM'.
  assert (OR : forall m y, (m < 4)%nat -> In y (nth m fibers []) -> 0 < r_pt y ->
     exists s x, (s < 12)%nat /\ In x (nth s input []) /\ r_pt y = r_pt x /\ r_rest y = r_rest x /\ r_eta y = r_eta x /\ muon_phi m (r_phi y) = sector_phi s (r_phi x) /\ -180 < r_phi y <= 180).
  { intros m y Hm Hy P. apply (kept_in d _ _ _ _ (KF m Hm)) in Hy; [|assumption].
    assert (G : forall k s, (k < 3)%nat -> s = 120 * (Z.of_nat k - 1) -> In y (shifted s (nth (3 * m + k) input [])) ->
      exists s x, (s < 12)%nat /\ In x (nth s input []) /\ r_pt y = r_pt x /\ r_rest y = r_rest x /\ r_eta y = r_eta x /\ muon_phi m (r_phi y) = sector_phi s (r_phi x) /\ -180 < r_phi y <= 180).
    { intros k s Hk Es Hin. unfold shifted in Hin. apply in_map_iff in Hin as (x & <- & Hx). apply filter_In in Hx as [Hx Px]. exists (3 * m + k)%nat, x.
      pose proof (HN (3 * m + k)%nat x ltac:(lia) Hx ltac:(lia)). cbn [r_pt r_rest r_eta r_phi]. rewrite wrapS10_small by lia.
      split; [lia|]. split; [assumption|]. repeat split; try lia. unfold muon_phi, sector_phi. lia. }
    apply in_app_or in Hy as [Hy|Hy]; [apply (G 0%nat (-120)); [lia|lia|rewrite Nat.add_0_r; exact Hy]|].
    apply in_app_or in Hy as [Hy|Hy]; [apply (G 1%nat 0); [lia|lia|exact Hy]|apply (G 2%nat 120); [lia|lia|exact Hy]]. }
  destruct (muon_regions nmu work fibers regions) as (out & static & E & _ & G); try assumption.
  - intros fib Hf. rewrite (DF2 fib Hf). lia.
  - intros fib y Hf Hy P. apply In_nth with (d := []) in Hf as (m & Hm & <-).
    assert (Hy' : In y (nth m fibers [])) by (rewrite <- (firstn_skipn nmu); apply in_or_app; left; exact Hy).
    destruct (OR m y ltac:(lia) Hy' P) as (s & x & H). tauto.
  - exists out. eexists _, _. split; [exact E|]. intros ie ip o He Hp Ho P. destruct (G ie ip He Hp) as (_ & G1 & _).
    destruct (G1 o Ho P) as (m & y & Hm & Hy & Sy & Py & Ry & Ey & Fy & B).
    assert (Hy' : In y (nth m fibers [])) by (rewrite <- (firstn_skipn nmu); apply in_or_app; left; exact Hy).
    destruct (OR m y Hm Hy' ltac:(lia)) as (s & x & Hs & Hx & P2 & R2 & E2 & F2 & _).
    exists s, x. split; [assumption|]. split; [assumption|]. split; [unfold in_slice in *; rewrite <- E2; assumption|].
    repeat split; try congruence; try lia.
Qed.
End muonprops.
