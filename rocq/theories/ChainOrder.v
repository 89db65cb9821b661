(** C100: the order of arrival in the chain. *)
From Coq Require Import Permutation.
From Verif Require Import Base BaseFacts Data PFHw PFRef SpecPF Regionizer SpecRegion SpecRegMove RegMoveProofs RegTest SpecChain SpecChainSym ChainProofs ChainSym ChainKept ChainEnergy.

Lemma counted_present {A T} (pt eta : T -> Z) (to : T -> robj A) ie l : (forall x, r_pt (to x) = pt x) -> (forall x, r_eta (to x) = eta x) -> present ie (map to l) = map to (counted pt eta ie l).
Proof.
  intros E1 E2. unfold present, counted, in_slice. induction l as [|a l IH]; [reflexivity|]. cbn [map filter]. rewrite E1, E2, IH. destruct ((0 <? pt a) && _); reflexivity.
Qed.
Lemma reordered_present {A T} (pt eta : T -> Z) (to : T -> robj A) ie l l' a a' : (forall x, r_pt (to x) = pt x) -> (forall x, r_eta (to x) = eta x) -> Permutation a (map to l) -> Permutation a' (map to l') ->
  reordered pt eta ie l l' -> Permutation (present ie a) (present ie a') /\ NoDup (map r_pt (present ie a)).
Proof.
  intros E1 E2 P P' [R D].
  assert (Q : forall b m, Permutation b (map to m) -> Permutation (present ie b) (map to (counted pt eta ie m))) by (intros b m H; rewrite <- (counted_present pt eta to ie m E1 E2); apply filter_permut; exact H).
  split.
  - etransitivity; [exact (Q _ _ P)|]. etransitivity; [|symmetry; exact (Q _ _ P')]. apply Permutation_map. exact R.
  - eapply Permutation_NoDup; [apply Permutation_map; symmetry; exact (Q _ _ P)|]. rewrite map_map. erewrite map_ext; [exact D|]. exact E1.
Qed.

Lemma c100_order c e e' had em tk mu had' em' tk' mu' ie ip mem : complete c e -> complete c e' -> reordered_near ie ip e e' -> ev_mu e = ev_mu e' ->
  had_reference c e had -> other_regions c e em tk mu -> had_reference c e' had' -> other_regions c e' em' tk' mu' -> (ie < 3)%nat -> (ip < 6)%nat ->
  let r := (6 * ie + ip)%nat in
  pfalgo3_full mem (NSELCALO c) (nth r em' []) (nth r had' []) (nth r tk' []) (nth r mu' []) = pfalgo3_full mem (NSELCALO c) (nth r em []) (nth r had []) (nth r tk []) (nth r mu []) /\
  pfalgo3_full_ref mem (NSELCALO c) (nth r em' []) (nth r had' []) (nth r tk' []) (nth r mu' []) = pfalgo3_full_ref mem (NSELCALO c) (nth r em []) (nth r had []) (nth r tk []) (nth r mu []).
Proof.
  intros C C' S M H (O1 & O2 & O3) H' (O1' & O2' & O3') He Hp r.
  assert (E1 : nth r had' [] = nth r had []).
  { destruct (had_gives c e had C H) as (o & G & ->). destruct (had_gives c e' had' C' H') as (o' & G' & ->). rewrite !nth_mm. f_equal. symmetry.
    refine (c91_order had_d 15 7 _ 1 _ _ o o' ie ip _ _ He Hp G G' _); [apply (fib_ok 15 1 15); [reflexivity|apply C]|apply (fib_ok 15 1 15); [reflexivity|apply C']|].
    intros j Hj. change (15 / 1)%nat with 15%nat. rewrite !arrivals_one, !nth_mm, !firstn_map. eapply (reordered_present h_pt h_eta r_of_had); [reflexivity|reflexivity|reflexivity|reflexivity|]. exact (proj1 (S j Hj)). }
  assert (E2 : nth r em' [] = nth r em []).
  { destruct (em_gives c e em C O1) as (o & G & ->). destruct (em_gives c e' em' C' O1') as (o' & G' & ->). rewrite !nth_mm. f_equal. symmetry.
    refine (c91_order 0 12 7 _ 1 _ _ o o' ie ip _ _ He Hp G G' _); [apply (fib_ok 12 1 12); [reflexivity|apply C]|apply (fib_ok 12 1 12); [reflexivity|apply C']|].
    intros j Hj. change (12 / 1)%nat with 12%nat. rewrite !arrivals_one, !nth_mm, !firstn_map. eapply (reordered_present e_pt e_eta r_of_em); [reflexivity|reflexivity|reflexivity|reflexivity|]. exact (proj1 (proj2 (S j Hj))). }
  assert (E3 : nth r tk' [] = nth r tk []).
  { destruct (tk_gives c e tk C O2) as (o & G & ->). destruct (tk_gives c e' tk' C' O2') as (o' & G' & ->). rewrite !nth_mm. f_equal. symmetry.
    refine (c91_order tk_d 20 9 _ 2 _ _ o o' ie ip _ _ He Hp G G' _); [apply (fib_ok 20 2 10); [reflexivity|apply C]|apply (fib_ok 20 2 10); [reflexivity|apply C']|].
    intros j Hj. change (20 / 2)%nat with 10%nat.
    assert (PM : forall e s, Permutation (arrivals 2 10 (map (map r_of_tk) (ev_tk e)) s) (map r_of_tk (sector_tracks e s))).
    { intros e0 s. etransitivity; [apply arrivals_two|]. rewrite !nth_mm. unfold sector_tracks. rewrite map_app, !firstn_map. reflexivity. }
    eapply (reordered_present t_pt t_eta r_of_tk); [reflexivity|reflexivity|apply PM|apply PM|]. exact (proj2 (proj2 (S j Hj))). }
  assert (E4 : nth r mu' [] = nth r mu []).
  { destruct (mu_gives c e mu C O3) as (o & G & ->). destruct (mu_gives c e' mu' C' O3') as (o' & G' & ->). rewrite <- M in G'. rewrite (muons_unique _ _ _ _ _ G G'). reflexivity. }
  rewrite E1, E2, E3, E4. split; reflexivity.
Qed.
