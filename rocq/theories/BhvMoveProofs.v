(** Proofs of how the vertex found responds to changes of the tracks. *)
From Coq Require Import Permutation.
From Verif Require Import Base BaseFacts Bhv SpecBhv BhvProofs SpecBhvMove.

Definition wsum (b : Z) (ts : list vtrack) : Z := sumZ (map contrib (filter (in_bin b) ts)).

Lemma wsum_cons b t ts : wsum b (t :: ts) = (if in_bin b t then contrib t else 0) + wsum b ts.
Proof. unfold wsum. cbn [filter]. destruct (in_bin b t); cbn [map]; unfold sumZ; cbn [fold_right]; lia. Qed.
Lemma weight_wsum b ts : weight_in b ts = wsum b ts.
Proof.
  induction ts as [|t ts IH]; [reflexivity|]. rewrite wsum_cons, <- IH. unfold weight_in, in_bin, contrib, sumZ. cbn [map fold_right]. reflexivity.
Qed.
Lemma wsum_app b l l' : wsum b (l ++ l') = wsum b l + wsum b l'.
Proof. unfold wsum. rewrite filter_app, map_app, sumZ_app. reflexivity. Qed.
Lemma wsum_perm b l l' : Permutation l l' -> wsum b l = wsum b l'.
Proof. intros P. induction P; rewrite ?wsum_cons; lia. Qed.
Lemma contrib_range t : track_ok t -> 0 <= contrib t <= 100.
Proof. unfold track_ok, contrib. lia. Qed.
Lemma contrib_weighs t : track_ok t -> 0 < contrib t <-> weighs t.
Proof. unfold track_ok, contrib, weighs. lia. Qed.
Lemma wsum_nonneg b ts : Forall track_ok ts -> 0 <= wsum b ts.
Proof.
  induction 1 as [|t ts Ht H IH]; [cbn; lia|]. rewrite wsum_cons. pose proof (contrib_range t Ht). destruct (in_bin b t); lia.
Qed.

Lemma total_cons s l b : grand_total (s :: l) b = bin_total (Z.of_nat b) s + grand_total l b.
Proof. reflexivity. Qed.
Lemma total_app l l' b : grand_total (l ++ l') b = grand_total l b + grand_total l' b.
Proof. unfold grand_total. rewrite map_app, sumZ_app. reflexivity. Qed.

Lemma in_bin_z b t : in_bin b t = true <-> 8 * b - 284 - 4 <= v_z0 t < 8 * b - 284 + 4.
Proof. unfold in_bin. rewrite andb_true_iff. lia. Qed.
Lemma in_bin_unique b b' t : in_bin b t = true -> in_bin b' t = true -> b = b'.
Proof. rewrite !in_bin_z. lia. Qed.

Lemma finds_iff sectors : sectors_ok sectors ->
  exists b s, finds sectors (Z.of_nat b, s, 8 * Z.of_nat b - 284) /\ first_max (grand_total sectors) (Z.to_nat 72) b s.
Proof. intros [H L]. destruct (c28 sectors H L) as (b & s & E & E' & FM). exists b, s. split; [split|]; assumption. Qed.
Lemma finds_fun sectors r : sectors_ok sectors -> finds sectors r ->
  exists b s, r = (Z.of_nat b, s, 8 * Z.of_nat b - 284) /\ first_max (grand_total sectors) (Z.to_nat 72) b s.
Proof.
  intros O [F _]. destruct (finds_iff _ O) as (b & s & [E _] & FM). rewrite E in F. injection F as <-. exists b, s. auto.
Qed.
Lemma finds_max sectors b s : sectors_ok sectors -> first_max (grand_total sectors) (Z.to_nat 72) b s ->
  finds sectors (Z.of_nat b, s, 8 * Z.of_nat b - 284).
Proof.
  intros O FM. destruct (finds_iff _ O) as (b' & s' & F & FM'). destruct (first_max_unique _ _ _ _ _ _ FM FM') as [-> ->]. exact F.
Qed.
Lemma finds_same sectors sectors' r : sectors_ok sectors -> sectors_ok sectors' ->
  (forall b, (b < Z.to_nat 72)%nat -> grand_total sectors b = grand_total sectors' b) -> finds sectors r -> finds sectors' r.
Proof.
  intros O O' G F. destruct (finds_fun _ _ O F) as (b & s & -> & FM). apply finds_max; [exact O'|]. eapply first_max_ext; eauto.
Qed.

(** ** near a track *)
Lemma bin_total_pos b ts : Forall track_ok ts -> 0 < bin_total b ts -> exists t, In t ts /\ weighs t /\ in_bin b t = true.
Proof.
  intros H P. unfold bin_total in P. fold (wsum b ts) in P. assert (Q : 0 < wsum b ts) by lia. clear P.
  induction H as [|t ts Ht H IH]; [cbn in Q; lia|]. rewrite wsum_cons in Q. destruct (in_bin b t) eqn:E.
  - destruct (Z_lt_le_dec 0 (contrib t)) as [C|C].
    + exists t. split; [left; reflexivity|]. split; [apply contrib_weighs; assumption|exact E].
    + destruct IH as (u & I & W & B); [lia|]. exists u. split; [right; exact I|auto].
  - destruct IH as (u & I & W & B); [lia|]. exists u. split; [right; exact I|auto].
Qed.
Lemma total_pos sectors b : Forall (Forall track_ok) sectors -> 0 < grand_total sectors b ->
  exists t, In t (List.concat sectors) /\ weighs t /\ in_bin (Z.of_nat b) t = true.
Proof.
  induction 1 as [|ts l Ht H IH]; [cbn; lia|]. rewrite total_cons. intros P. cbn [List.concat].
  destruct (Z_lt_le_dec 0 (bin_total (Z.of_nat b) ts)) as [Q|Q].
  - destruct (bin_total_pos _ _ Ht Q) as (t & I & W & B). exists t. split; [apply in_or_app; left; exact I|auto].
  - destruct IH as (t & I & W & B); [lia|]. exists t. split; [apply in_or_app; right; exact I|auto].
Qed.
Lemma total_zero sectors b : Forall (Forall track_ok) sectors -> (forall t, In t (List.concat sectors) -> weighs t -> in_bin (Z.of_nat b) t = false) ->
  grand_total sectors b = 0.
Proof.
  intros H N. pose proof (grand_nonneg sectors H b) as G. destruct (Z_lt_le_dec 0 (grand_total sectors b)) as [P|P]; [|lia].
  destruct (total_pos _ _ H P) as (t & I & W & B). rewrite (N t I W) in B. discriminate.
Qed.
Lemma bin_total_track b t ts : Forall track_ok ts -> In t ts -> weighs t -> in_bin b t = true -> 0 < bin_total b ts.
Proof.
  intros H I W B. unfold bin_total. fold (wsum b ts). enough (0 < wsum b ts) by lia. revert I. induction H as [|u ts Hu H IH]; [intros []|].
  rewrite wsum_cons. pose proof (wsum_nonneg b ts H). pose proof (contrib_range u Hu). intros [<-|I].
  - rewrite B. apply contrib_weighs in W; [lia|exact Hu].
  - specialize (IH I). destruct (in_bin b u); lia.
Qed.
Lemma total_track sectors b t : Forall (Forall track_ok) sectors -> In t (List.concat sectors) -> weighs t -> in_bin (Z.of_nat b) t = true ->
  0 < grand_total sectors b.
Proof.
  induction 1 as [|ts l Ht H IH]; [intros []|]. cbn [List.concat]. rewrite total_cons. intros I W B. apply in_app_or in I as [I|I].
  - pose proof (bin_total_track _ _ _ Ht I W B). pose proof (grand_nonneg l H b). lia.
  - specialize (IH I W B). pose proof (bin_total_range (Z.of_nat b) ts Ht). lia.
Qed.
Lemma in_bin_of t : covered t -> exists b, (b < Z.to_nat 72)%nat /\ in_bin (Z.of_nat b) t = true.
Proof.
  unfold covered, in_bin. intros C. exists (Z.to_nat ((v_z0 t + 288) / 8)). rewrite andb_true_iff. lia.
Qed.

Lemma c90_near sectors b s z : sectors_ok sectors -> finds sectors (b, s, z) ->
  (0 < s -> exists t, In t (List.concat sectors) /\ weighs t /\ z - 4 <= v_z0 t < z + 4) /\
  (s <= 0 -> (b, s, z) = (0, 0, -284) /\ forall t, In t (List.concat sectors) -> weighs t -> covered t -> False).
Proof.
  intros O F. destruct (finds_fun _ _ O F) as (n & m & E & FM). apply pair_equal_spec in E as [E ->]. apply pair_equal_spec in E as [-> ->]. destruct O as [H L]. split.
  - intros P. rewrite <- (fm_val _ _ _ _ FM) in P. destruct (total_pos _ _ H P) as (t & I & W & B). exists t. split; [exact I|]. split; [exact W|].
    apply in_bin_z in B. exact B.
  - intros P. assert (m = 0) as ->. { pose proof (grand_nonneg sectors H n). pose proof (fm_val _ _ _ _ FM). lia. }
    assert (n = 0%nat) as ->.
    { destruct n as [|n]; [reflexivity|]. pose proof (fm_first _ _ _ _ FM 0%nat ltac:(lia)). pose proof (grand_nonneg sectors H 0%nat). lia. }
    split; [reflexivity|]. intros t I W C. destruct (in_bin_of t C) as (k & Hk & B). pose proof (total_track _ _ _ H I W B).
    pose proof (fm_max _ _ _ _ FM k Hk). lia.
Qed.

(** ** displacement *)
Lemma in_bin_displaced b k t : in_bin (b + k) (displaced (8 * k) t) = in_bin b t.
Proof. unfold in_bin, displaced. cbn [v_z0]. apply eq_true_iff_eq. rewrite !andb_true_iff. lia. Qed.
Lemma bin_total_displaced b k ts : bin_total (b + k) (map (displaced (8 * k)) ts) = bin_total b ts.
Proof.
  unfold bin_total. f_equal. fold (wsum b ts). fold (wsum (b + k) (map (displaced (8 * k)) ts)).
  induction ts as [|t ts IH]; [reflexivity|]. cbn [map]. rewrite !wsum_cons, IH, in_bin_displaced. reflexivity.
Qed.
Lemma total_displaced b b' k sectors : Z.of_nat b' = Z.of_nat b + k ->
  grand_total (map (map (displaced (8 * k))) sectors) b' = grand_total sectors b.
Proof.
  intros E. unfold grand_total. f_equal. rewrite map_map. apply map_ext. intros ts. rewrite E. apply bin_total_displaced.
Qed.
Lemma concat_displaced d sectors : List.concat (map (map (displaced d)) sectors) = map (displaced d) (List.concat sectors).
Proof. induction sectors as [|a l IH]; [reflexivity|]. cbn [map List.concat]. rewrite map_app, IH. reflexivity. Qed.

Lemma c90_moves k sectors b s z : sectors_ok sectors -> sectors_ok (map (map (displaced (8 * k))) sectors) ->
  (forall t, In t (List.concat sectors) -> weighs t -> covered t /\ covered (displaced (8 * k) t)) ->
  finds sectors (b, s, z) -> 0 < s ->
  finds (map (map (displaced (8 * k))) sectors) (b + k, s, z + 8 * k).
Proof.
  intros O O' C F P. destruct (finds_fun _ _ O F) as (n & m & E & FM). apply pair_equal_spec in E as [E ->]. apply pair_equal_spec in E as [-> ->].
  destruct O as [H L]. pose proof (fm_lt _ _ _ _ FM) as Hn. pose proof (fm_val _ _ _ _ FM) as Hv.
  assert (K : 0 <= Z.of_nat n + k < 72).
  { rewrite <- Hv in P. destruct (total_pos _ _ H P) as (t & I & W & B). destruct (C t I W) as [C1 C2]. apply in_bin_z in B. unfold covered, displaced in *. cbn [v_z0] in C2. lia. }
  assert (FM' : first_max (grand_total (map (map (displaced (8 * k))) sectors)) (Z.to_nat 72) (Z.to_nat (Z.of_nat n + k)) m).
  { assert (Z0 : forall j, (j < Z.to_nat 72)%nat -> ~ 0 <= Z.of_nat j - k < 72 -> grand_total (map (map (displaced (8 * k))) sectors) j = 0).
    { intros j Hj N. apply total_zero; [exact (proj1 O')|]. rewrite concat_displaced. intros t I W. apply in_map_iff in I as (u & <- & I).
      destruct (C u I W) as [C1 C2]. unfold covered, displaced in *. cbn [v_z0] in *. apply not_true_is_false. rewrite in_bin_z. cbn [v_z0]. lia. }
    split.
    - lia.
    - rewrite <- Hv. apply total_displaced. lia.
    - intros j Hj. destruct (Z_lt_le_dec (Z.of_nat j - k) 0) as [A|A]; [rewrite Z0 by lia; lia|].
      destruct (Z_lt_le_dec (Z.of_nat j - k) 72) as [A'|A']; [|rewrite Z0 by lia; lia].
      rewrite (total_displaced (Z.to_nat (Z.of_nat j - k)) j k) by lia. apply (fm_max _ _ _ _ FM). lia.
    - intros j Hj. destruct (Z_lt_le_dec (Z.of_nat j - k) 0) as [A|A]; [rewrite Z0 by lia; lia|].
      rewrite (total_displaced (Z.to_nat (Z.of_nat j - k)) j k) by lia. apply (fm_first _ _ _ _ FM). lia. }
  pose proof (finds_max _ _ _ O' FM') as F'. rewrite Z2Nat.id in F' by lia. replace (8 * Z.of_nat n - 284 + 8 * k) with (8 * (Z.of_nat n + k) - 284) by lia. exact F'.
Qed.

(** ** one more track *)
Lemma total_more l ts r t b : grand_total (l ++ (t :: ts) :: r) b =
  grand_total (l ++ ts :: r) b + (bin_total (Z.of_nat b) (t :: ts) - bin_total (Z.of_nat b) ts).
Proof. rewrite !total_app, !total_cons. lia. Qed.
Lemma bin_more b t ts : track_ok t -> Forall track_ok ts ->
  0 <= bin_total b (t :: ts) - bin_total b ts <= 100 /\
  (in_bin b t = false \/ ~ weighs t -> bin_total b (t :: ts) = bin_total b ts).
Proof.
  intros Ht H. unfold bin_total. fold (wsum b ts) (wsum b (t :: ts)). rewrite wsum_cons. pose proof (contrib_range t Ht). pose proof (wsum_nonneg b ts H).
  pose proof (contrib_weighs t Ht). unfold weighs in *. destruct (in_bin b t).
  - split; [lia|]. intros [N|N]; [discriminate|]. assert (Z0 : contrib t = 0) by lia. rewrite Z0. reflexivity.
  - split; [lia|]. intros _. reflexivity.
Qed.

Lemma c90_more l ts r t b s z : sectors_ok (l ++ (t :: ts) :: r) -> finds (l ++ ts :: r) (b, s, z) ->
  exists b' s' z', finds (l ++ (t :: ts) :: r) (b', s', z') /\ s <= s' <= s + 100 /\
    ((b', z') = (b, z) \/ z' - 4 <= v_z0 t < z' + 4) /\
    (z - 4 <= v_z0 t < z + 4 -> (b', z') = (b, z)) /\
    (~ weighs t \/ ~ covered t -> (b', s', z') = (b, s, z)).
Proof.
  intros O F.
  assert (O0 : sectors_ok (l ++ ts :: r)).
  { destruct O as [H L]. split; [|rewrite app_length in *; cbn [length] in *; exact L]. apply Forall_app in H as [H1 H2]. apply Forall_app. split; [exact H1|].
    inversion_clear H2 as [|? ? A B]. inversion_clear A. constructor; assumption. }
  assert (Ht : track_ok t /\ Forall track_ok ts).
  { destruct O as [H _]. apply Forall_app in H as [_ H]. inversion_clear H as [|? ? A B]. inversion_clear A. split; assumption. }
  destruct Ht as [Ht Hts].
  destruct (finds_fun _ _ O0 F) as (n & m & E & FM). apply pair_equal_spec in E as [E ->]. apply pair_equal_spec in E as [-> ->].
  destruct (finds_iff _ O) as (n' & m' & F' & FM'). exists (Z.of_nat n'), m', (8 * Z.of_nat n' - 284). split; [exact F'|].
  set (f := grand_total (l ++ ts :: r)) in *. set (f' := grand_total (l ++ (t :: ts) :: r)) in *.
  assert (D : forall j, 0 <= f' j - f j <= 100 /\ (in_bin (Z.of_nat j) t = false \/ ~ weighs t -> f' j = f j)).
  { intros j. unfold f', f. rewrite total_more. destruct (bin_more (Z.of_nat j) t ts Ht Hts) as [D1 D2]. split; [lia|]. intros N. rewrite (D2 N). lia. }
  destruct FM as [L1 V1 M1 S1]. destruct FM' as [L2 V2 M2 S2].
  pose proof (D n) as [Dn Dn']. pose proof (D n') as [Dp Dp']. pose proof (M1 n' L2). pose proof (M2 n L1).
  assert (Same : n' = n -> (Z.of_nat n', 8 * Z.of_nat n' - 284) = (Z.of_nat n, 8 * Z.of_nat n - 284)) by (intros ->; reflexivity).
  assert (Else : in_bin (Z.of_nat n') t = false \/ ~ weighs t -> n' = n /\ m' = m).
  { intros N. specialize (Dp' N). assert (n' = n).
    { destruct (Nat.lt_trichotomy n' n) as [A|[A|A]]; [|exact A|]; exfalso.
      - pose proof (S1 n' A). lia.
      - pose proof (S2 n A). lia. }
    subst n'. split; [reflexivity|lia]. }
  split; [lia|]. split; [|split].
  - destruct (in_bin (Z.of_nat n') t) eqn:B; [right; apply in_bin_z; exact B|]. left. apply Same. apply Else. left. reflexivity.
  - intros B. apply in_bin_z in B. destruct (in_bin (Z.of_nat n') t) eqn:B'.
    + apply Same. pose proof (in_bin_unique _ _ _ B B'). lia.
    + apply Same. apply Else. left. reflexivity.
  - intros N. destruct Else as [-> ->]; [|reflexivity]. destruct N as [N|N]; [right; exact N|]. left. apply not_true_is_false. intros B. apply N.
    apply in_bin_z in B. unfold covered. lia.
Qed.

(** ** which sector a track is in *)
Lemma unsaturated sectors b : Forall (Forall track_ok) sectors -> wsum (Z.of_nat b) (List.concat sectors) <= 511 ->
  grand_total sectors b = wsum (Z.of_nat b) (List.concat sectors).
Proof.
  induction 1 as [|ts l Ht H IH]; [reflexivity|]. cbn [List.concat]. rewrite wsum_app, total_cons. intros W.
  pose proof (wsum_nonneg (Z.of_nat b) ts Ht).
  assert (0 <= wsum (Z.of_nat b) (List.concat l)). { apply wsum_nonneg. apply Forall_concat. exact H. }
  rewrite IH by lia. unfold bin_total. fold (wsum (Z.of_nat b) ts). lia.
Qed.
Lemma c90_sectors sectors sectors' r : sectors_ok sectors -> sectors_ok sectors' ->
  Permutation (List.concat sectors) (List.concat sectors') ->
  (forall b, 0 <= b < 72 -> weight_in b (List.concat sectors) <= 511) ->
  finds sectors r -> finds sectors' r.
Proof.
  intros O O' P W. apply finds_same; [exact O|exact O'|]. intros b Hb. specialize (W (Z.of_nat b) ltac:(lia)). rewrite weight_wsum in W.
  rewrite (unsaturated sectors b (proj1 O) W). rewrite (wsum_perm _ _ _ P) in *. symmetry. apply unsaturated; [exact (proj1 O')|exact W].
Qed.
Lemma total_perm sectors sectors' b : Permutation sectors sectors' -> grand_total sectors b = grand_total sectors' b.
Proof. intros P. induction P; rewrite ?total_cons; lia. Qed.
Lemma c90_sector_order sectors sectors' r : sectors_ok sectors -> Permutation sectors sectors' -> finds sectors r -> finds sectors' r.
Proof.
  intros O P. apply finds_same; [exact O| |].
  - destruct O as [H L]. split; [rewrite <- P; exact H|]. rewrite <- (Permutation_length P). exact L.
  - intros b _. apply total_perm. exact P.
Qed.

(** ** a vertex that outweighs *)
Lemma wsum_bound b ts : Forall track_ok ts -> bin_total b ts <= wsum b ts.
Proof. intros _. unfold bin_total. fold (wsum b ts). lia. Qed.
Lemma total_bound sectors b : Forall (Forall track_ok) sectors -> grand_total sectors b <= wsum (Z.of_nat b) (List.concat sectors).
Proof.
  induction 1 as [|ts l Ht H IH]; [cbn; lia|]. cbn [List.concat]. rewrite wsum_app, total_cons. pose proof (wsum_bound (Z.of_nat b) ts Ht). lia.
Qed.
Lemma c90_outweighs sectors b : sectors_ok sectors -> 0 <= b < 72 ->
  weight_in b (List.concat sectors) <= 511 ->
  (forall c, 0 <= c < 72 -> c <> b -> weight_in c (List.concat sectors) < weight_in b (List.concat sectors)) ->
  finds sectors (b, weight_in b (List.concat sectors), 8 * b - 284).
Proof.
  intros O B W D. rewrite weight_wsum in *. replace b with (Z.of_nat (Z.to_nat b)) in W |- * by lia.
  pose proof (unsaturated sectors (Z.to_nat b) (proj1 O) W) as U. apply finds_max; [exact O|].
  assert (K : forall j, (j < Z.to_nat 72)%nat -> j <> Z.to_nat b -> grand_total sectors j < grand_total sectors (Z.to_nat b)).
  { intros j Hj N. pose proof (total_bound sectors j (proj1 O)) as T. specialize (D (Z.of_nat j) ltac:(lia) ltac:(lia)). rewrite weight_wsum in D.
    replace b with (Z.of_nat (Z.to_nat b)) in D by lia. lia. }
  split; [lia|exact U| |].
  - intros j Hj. destruct (Nat.eq_dec j (Z.to_nat b)) as [->|N]; [lia|]. pose proof (K j Hj N). lia.
  - intros j Hj. rewrite <- U. apply K; lia.
Qed.
