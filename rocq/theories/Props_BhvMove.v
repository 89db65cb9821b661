(** C90: how the vertex found responds to changes of the tracks. *)
From Coq Require Import Permutation.
From Verif Require Import Base Bhv SpecBhv SpecBhvMove BhvMoveProofs.

(** The vertex is found at tracks: within 4 counts of one that weighs; with
    no weight in the range, it is bin 0. *)
Theorem C90_near_a_track : forall sectors b s z, sectors_ok sectors -> finds sectors (b, s, z) ->
  (0 < s -> exists t, In t (List.concat sectors) /\ weighs t /\ z - 4 <= v_z0 t < z + 4) /\
  (s <= 0 -> (b, s, z) = (0, 0, -284) /\ forall t, In t (List.concat sectors) -> weighs t -> covered t -> False).
Proof. exact c90_near. Qed.
Print Assumptions C90_near_a_track.

(** Displacing every track along the beam by k bins displaces the vertex by
    k bins and leaves its sum. *)
Theorem C90_displaced : forall k sectors b s z, sectors_ok sectors -> sectors_ok (map (map (displaced (8 * k))) sectors) ->
  (forall t, In t (List.concat sectors) -> weighs t -> covered t /\ covered (displaced (8 * k) t)) ->
  finds sectors (b, s, z) -> 0 < s ->
  finds (map (map (displaced (8 * k))) sectors) (b + k, s, z + 8 * k).
Proof. exact c90_moves. Qed.
Print Assumptions C90_displaced.

(** One more track, in any sector: the sum grows by at most 100 and never
    falls; the vertex stays, or moves to the new track; it stays if the
    track is at the vertex, and nothing changes if the track has no weight
    or is out of range. *)
Theorem C90_one_more_track : forall l ts r t b s z, sectors_ok (l ++ (t :: ts) :: r) -> finds (l ++ ts :: r) (b, s, z) ->
  exists b' s' z', finds (l ++ (t :: ts) :: r) (b', s', z') /\ s <= s' <= s + 100 /\
    ((b', z') = (b, z) \/ z' - 4 <= v_z0 t < z' + 4) /\
    (z - 4 <= v_z0 t < z + 4 -> (b', z') = (b, z)) /\
    (~ weighs t \/ ~ covered t -> (b', s', z') = (b, s, z)).
Proof. exact c90_more. Qed.
Print Assumptions C90_one_more_track.

(** The sectors only matter where they saturate: tracks redistributed over
    any number of sectors have the same vertex if no bin weighs over 511;
    and the order of the sectors never matters. *)
Theorem C90_sectors : forall sectors sectors' r, sectors_ok sectors -> sectors_ok sectors' ->
  Permutation (List.concat sectors) (List.concat sectors') ->
  (forall b, 0 <= b < 72 -> weight_in b (List.concat sectors) <= 511) ->
  finds sectors r -> finds sectors' r.
Proof. exact c90_sectors. Qed.
Print Assumptions C90_sectors.
Theorem C90_sector_order : forall sectors sectors' r, sectors_ok sectors -> Permutation sectors sectors' ->
  finds sectors r -> finds sectors' r.
Proof. exact c90_sector_order. Qed.
Print Assumptions C90_sector_order.

(** The bin whose tracks outweigh those of every other bin is the vertex, if
    that weight is within 511. *)
Theorem C90_heaviest_wins : forall sectors b, sectors_ok sectors -> 0 <= b < 72 ->
  weight_in b (List.concat sectors) <= 511 ->
  (forall c, 0 <= c < 72 -> c <> b -> weight_in c (List.concat sectors) < weight_in b (List.concat sectors)) ->
  finds sectors (b, weight_in b (List.concat sectors), 8 * b - 284).
Proof. exact c90_outweighs. Qed.
Print Assumptions C90_heaviest_wins.

Definition mv_sectors := [[mkVtrack 100 0; mkVtrack 40 9; mkVtrack 1 400]; [mkVtrack 60 (-281); mkVtrack 0 0]; [mkVtrack 160 12]].
Example C90_hyp_displaced : sectors_ok mv_sectors /\ sectors_ok (map (map (displaced (8 * 3))) mv_sectors) /\
  (forall t, In t (List.concat mv_sectors) -> weighs t -> covered t /\ covered (displaced (8 * 3) t)) /\
  finds mv_sectors (37, 100, 12) /\ finds (map (map (displaced (8 * 3))) mv_sectors) (40, 100, 36).
Proof.
  split; [split; [repeat constructor; cbn; lia|cbn; lia]|]. split; [split; [repeat constructor; cbn; lia|cbn; lia]|].
  split; [|split; split; vm_compute; reflexivity].
  unfold weighs, covered, displaced. cbn. intros t H W. repeat destruct H as [<-|H]; cbn in *; lia.
Qed.
(** a track that moves the vertex to itself *)
Example C90_hyp_more : sectors_ok (mv_sectors ++ (mkVtrack 150 (-288) :: [mkVtrack 70 (-282)]) :: []) /\
  finds (mv_sectors ++ [mkVtrack 70 (-282)] :: []) (37, 100, 12) /\
  finds (mv_sectors ++ (mkVtrack 150 (-288) :: [mkVtrack 70 (-282)]) :: []) (0, 140, -284).
Proof. split; [split; [repeat constructor; cbn; lia|cbn; lia]|]. split; split; vm_compute; reflexivity. Qed.
Example C90_hyp_sectors : let one := [List.concat mv_sectors] in
  sectors_ok one /\ Permutation (List.concat mv_sectors) (List.concat one) /\
  (forall b, 0 <= b < 72 -> weight_in b (List.concat mv_sectors) <= 511) /\ finds one (37, 100, 12).
Proof.
  cbv zeta. split; [split; [repeat constructor; cbn; lia|cbn; lia]|]. split; [cbn; apply Permutation_refl|]. split; [|split; vm_compute; reflexivity].
  intros b _. unfold weight_in, mv_sectors. cbn. repeat match goal with |- context[if ?c then _ else _] => destruct c end; lia.
Qed.
Example C90_hyp_heaviest : forall c, 0 <= c < 72 -> c <> 37 ->
  weight_in c (List.concat mv_sectors) < weight_in 37 (List.concat mv_sectors).
Proof.
  intros c _ N. unfold weight_in, mv_sectors. cbn [List.concat app map v_z0 v_pt sumZ fold_right].
  repeat match goal with |- context[if ?b then _ else _] => destruct b eqn:? end; lia.
Qed.
(** where a sector saturates, the distribution over sectors does matter: six
    tracks of 100 in one sector count 511 only, and 590 win over them *)
Definition sat_together := [repeat (mkVtrack 200 0) 6; repeat (mkVtrack 200 40) 3; repeat (mkVtrack 200 40) 2 ++ [mkVtrack 180 40]].
Definition sat_apart := [repeat (mkVtrack 200 0) 3; repeat (mkVtrack 200 40) 3; repeat (mkVtrack 200 40) 2 ++ mkVtrack 180 40 :: repeat (mkVtrack 200 0) 3].
Theorem C90_saturation_matters : exists sectors sectors', sectors_ok sectors /\ sectors_ok sectors' /\
  Permutation (List.concat sectors) (List.concat sectors') /\
  finds sectors (41, 590, 44) /\ finds sectors' (36, 600, 4).
Proof.
  exists sat_together, sat_apart. split; [split; [repeat constructor; cbn; lia|cbn; lia]|]. split; [split; [repeat constructor; cbn; lia|cbn; lia]|].
  split; [|split; split; vm_compute; reflexivity]. unfold sat_together, sat_apart. cbn. repeat apply perm_skip.
  change [mkVtrack 200 0; mkVtrack 200 0; mkVtrack 200 0; mkVtrack 200 40; mkVtrack 200 40; mkVtrack 200 40; mkVtrack 200 40; mkVtrack 200 40; mkVtrack 180 40]
    with (repeat (mkVtrack 200 0) 3 ++ (repeat (mkVtrack 200 40) 5 ++ [mkVtrack 180 40])).
  etransitivity; [apply Permutation_app_comm|]. cbn. apply Permutation_refl.
Qed.
Print Assumptions C90_saturation_matters.
