(** Proofs of how the vertex of the simple finder responds to changes of the tracks. *)
From Coq Require Import Permutation.
From Verif Require Import Base BaseFacts Bhv SpecBhv BhvProofs Vtx SpecVtx VtxProofs SpecVtxMove.

Definition result (tracks : list vtrack) (b : nat) (s : Z) : vtxobj :=
  mkVtx s (20 * Z.of_nat b + 10) (wrapS 5 (slice_count slice tracks b)) (if wrapS 5 (slice_count slice tracks b) >? 3 then 1 else 0).

Lemma vtx_char tracks : vtracks_ok tracks -> exists o, vertex_is tracks o /\
  (((forall b, (b < NVTXBINS)%nat -> slice_sum slice tracks b = 0) /\ o = mkVtx 0 0 0 0) \/
   exists b s, first_max (slice_sum slice tracks) NVTXBINS b s /\ 0 < s /\ o = result tracks b s).
Proof.
  intros [H L]. destruct (c32 tracks (mkVtx 0 0 0 0) H L) as [[Z0 E]|(b & s & FM & P & E)].
  - exists (mkVtx 0 0 0 0). split; [|left; split; [exact Z0|reflexivity]]. intros old. destruct (c32 tracks old H L) as [[_ E']|(b & s & FM & P & _)]; [exact E'|].
    rewrite <- (fm_val _ _ _ _ FM), (Z0 b (fm_lt _ _ _ _ FM)) in P. lia.
  - exists (result tracks b s). split; [|right; exists b, s; auto]. intros old. destruct (c32 tracks old H L) as [[Z0 _]|(b' & s' & FM' & P' & E')].
    + rewrite <- (fm_val _ _ _ _ FM), (Z0 b (fm_lt _ _ _ _ FM)) in P. lia.
    + destruct (first_max_unique _ _ _ _ _ _ FM FM') as [<- <-]. exact E'.
Qed.
Lemma vertex_unique tracks o o' : vertex_is tracks o -> vertex_is tracks o' -> o = o'.
Proof. intros H H'. specialize (H (mkVtx 0 0 0 0)). specialize (H' (mkVtx 0 0 0 0)). congruence. Qed.
Lemma vtx_some tracks o : vtracks_ok tracks -> vertex_is tracks o ->
  ((forall b, (b < NVTXBINS)%nat -> slice_sum slice tracks b = 0) /\ o = mkVtx 0 0 0 0) \/
   exists b s, first_max (slice_sum slice tracks) NVTXBINS b s /\ 0 < s /\ o = result tracks b s.
Proof. intros O V. destruct (vtx_char _ O) as (o' & V' & C). rewrite (vertex_unique _ _ _ V V'). exact C. Qed.
Lemma vtx_max tracks b s : vtracks_ok tracks -> first_max (slice_sum slice tracks) NVTXBINS b s -> 0 < s -> vertex_is tracks (result tracks b s).
Proof.
  intros O FM P. destruct (vtx_char _ O) as (o & V & [[Z0 _]|(b' & s' & FM' & _ & ->)]).
  - rewrite <- (fm_val _ _ _ _ FM), (Z0 b (fm_lt _ _ _ _ FM)) in P. lia.
  - destruct (first_max_unique _ _ _ _ _ _ FM FM') as [-> ->]. exact V.
Qed.
Lemma vtx_zero tracks : vtracks_ok tracks -> (forall b, (b < NVTXBINS)%nat -> slice_sum slice tracks b = 0) -> vertex_is tracks (mkVtx 0 0 0 0).
Proof.
  intros O Z0. destruct (vtx_char _ O) as (o & V & [[_ ->]|(b' & s' & FM' & P & _)]); [exact V|].
  rewrite <- (fm_val _ _ _ _ FM'), (Z0 b' (fm_lt _ _ _ _ FM')) in P. lia.
Qed.

Lemma slice_sum_perm f l l' b : Permutation l l' -> slice_sum f l b = slice_sum f l' b.
Proof. intros P. induction P; rewrite ?slice_sum_cons; lia. Qed.
Lemma slice_count_perm f l l' b : Permutation l l' -> slice_count f l b = slice_count f l' b.
Proof. intros P. induction P; rewrite ?slice_count_cons; lia. Qed.

Lemma c92_exists tracks : vtracks_ok tracks -> exists o, vertex_is tracks o.
Proof. intros O. destruct (vtx_char _ O) as (o & V & _). exists o. exact V. Qed.

Lemma c92_order tracks tracks' o : vtracks_ok tracks -> Permutation tracks tracks' -> vertex_is tracks o -> vertex_is tracks' o.
Proof.
  intros O P V. assert (O' : vtracks_ok tracks').
  { destruct O as [H L]. split; [rewrite <- P; exact H|rewrite <- (Permutation_length P); exact L]. }
  destruct (vtx_some _ _ O V) as [[Z0 ->]|(b & s & FM & Q & ->)].
  - apply vtx_zero; [exact O'|]. intros b Hb. rewrite <- (slice_sum_perm slice _ _ b P). apply Z0. exact Hb.
  - unfold result. rewrite (slice_count_perm slice _ _ b P). apply vtx_max; [exact O'| |exact Q].
    eapply first_max_ext; [|exact FM]. intros j _. apply slice_sum_perm. exact P.
Qed.

Lemma slice_of_sensible t : sensible t -> slice (v_z0 t) = if v_z0 t <? 20 then 0 else v_z0 t / 20.
Proof. unfold sensible. intros H. apply slice_sensible. lia. Qed.
Lemma slice_range t : vt_ok t -> 0 <= slice (v_z0 t) < 15.
Proof. intros (H & _ & N). apply (ref_bin_spec _ H). exact N. Qed.
Lemma belongs_slice t b : sensible t -> slice (v_z0 t) = Z.of_nat b <-> belongs (20 * Z.of_nat b + 10) t.
Proof. intros S. rewrite slice_of_sensible by exact S. unfold belongs, sensible in *. destruct (Z.ltb_spec (v_z0 t) 20); lia. Qed.
Lemma sum_pos f tracks b : Forall vt_ok tracks -> 0 < slice_sum f tracks b -> exists t, In t tracks /\ 0 < v_pt t /\ f (v_z0 t) = Z.of_nat b.
Proof.
  induction 1 as [|t l Ht H IH]; [cbn; lia|]. rewrite slice_sum_cons. intros P. destruct (f (v_z0 t) =? Z.of_nat b) eqn:E.
  - destruct (Z_lt_le_dec 0 (v_pt t)) as [C|C]; [exists t; split; [left; reflexivity|lia]|]. destruct IH as (u & I & Q); [lia|]. exists u. split; [right; exact I|exact Q].
  - destruct IH as (u & I & Q); [lia|]. exists u. split; [right; exact I|exact Q].
Qed.
Lemma sum_track f tracks b t : Forall vt_ok tracks -> In t tracks -> 0 < v_pt t -> f (v_z0 t) = Z.of_nat b -> 0 < slice_sum f tracks b.
Proof.
  induction 1 as [|u l Hu H IH]; [intros []|]. rewrite slice_sum_cons. destruct Hu as (_ & Hu & _).
  assert (Q : Forall (fun t => 0 <= v_pt t) l) by (eapply Forall_impl; [|exact H]; intros a (_ & Ha & _); lia).
  pose proof (slice_sum_bound f l b Q). intros [->|I] P E.
  - rewrite E, Z.eqb_refl. lia.
  - specialize (IH I P E). destruct (_ =? _); lia.
Qed.

Lemma c92_near tracks o : vtracks_ok tracks -> Forall sensible tracks -> vertex_is tracks o ->
  (0 < x_sum o -> exists t, In t tracks /\ 0 < v_pt t /\ belongs (x_z0 o) t) /\
  (x_sum o <= 0 -> o = mkVtx 0 0 0 0 /\ forall t, In t tracks -> v_pt t = 0).
Proof.
  intros O S V. destruct (vtx_some _ _ O V) as [[Z0 ->]|(b & s & FM & Q & ->)]; cbn [x_sum x_z0 result].
  - split; [lia|]. intros _. split; [reflexivity|]. intros t I. destruct O as [H L]. rewrite Forall_forall in S. pose proof H as H0. rewrite Forall_forall in H0.
    specialize (H0 t I). pose proof (slice_range t H0) as R. destruct (Z_lt_le_dec 0 (v_pt t)) as [P|P]; [|destruct H0 as (_ & ? & _); lia].
    pose proof (sum_track slice tracks (Z.to_nat (slice (v_z0 t))) t H I P ltac:(lia)) as K. rewrite Z0 in K; [lia|]. unfold NVTXBINS. lia.
  - split; [intros _|lia]. rewrite <- (fm_val _ _ _ _ FM) in Q. destruct (sum_pos _ _ _ (proj1 O) Q) as (t & I & P & E). exists t. split; [exact I|]. split; [exact P|].
    apply belongs_slice; [|exact E]. rewrite Forall_forall in S. apply S. exact I.
Qed.

(** ** displacement *)
Lemma regular_slice t : regular t -> slice (v_z0 t) = v_z0 t / 20.
Proof. unfold regular. intros H. rewrite slice_sensible by lia. destruct (Z.ltb_spec (v_z0 t) 20); lia. Qed.
Lemma along_sum k tracks b b' : Forall regular tracks -> Forall regular (map (along (20 * k)) tracks) -> Z.of_nat b' = Z.of_nat b + k ->
  slice_sum slice (map (along (20 * k)) tracks) b' = slice_sum slice tracks b /\
  slice_count slice (map (along (20 * k)) tracks) b' = slice_count slice tracks b.
Proof.
  intros H. revert b b'. induction H as [|t l Ht H IH]; intros b b' H' E; [split; reflexivity|]. cbn [map] in *. inversion_clear H' as [|? ? Ht' Hl']. destruct (IH b b' Hl' E) as [I1 I2].
  rewrite !slice_sum_cons, !slice_count_cons, I1, I2, !regular_slice by assumption. cbn [along v_z0 v_pt].
  assert (Q : ((v_z0 t + 20 * k) / 20 =? Z.of_nat b') = (v_z0 t / 20 =? Z.of_nat b)) by (apply eq_true_iff_eq; rewrite !Z.eqb_eq; lia).
  rewrite Q. split; reflexivity.
Qed.
Lemma along_zero k tracks b : Forall regular tracks -> Forall regular (map (along (20 * k)) tracks) -> ~ 0 <= Z.of_nat b - k < 15 ->
  slice_sum slice (map (along (20 * k)) tracks) b = 0.
Proof.
  intros H H' N. induction H as [|t l Ht H IH]; [reflexivity|]. cbn [map] in *. inversion_clear H' as [|? ? Ht' Hl']. rewrite slice_sum_cons, (IH Hl'), regular_slice by assumption.
  destruct (Z.eqb_spec (v_z0 (along (20 * k) t) / 20) (Z.of_nat b)) as [E|E]; [|reflexivity]. unfold regular, along in *. cbn [v_z0] in *. lia.
Qed.
Lemma c92_displaced k tracks o : vtracks_ok tracks -> vtracks_ok (map (along (20 * k)) tracks) -> Forall regular tracks -> Forall regular (map (along (20 * k)) tracks) ->
  vertex_is tracks o -> 0 < x_sum o ->
  vertex_is (map (along (20 * k)) tracks) (mkVtx (x_sum o) (x_z0 o + 20 * k) (x_mult o) (x_id o)).
Proof.
  intros O O' S S' V P. destruct (vtx_some _ _ O V) as [[_ ->]|(b & s & FM & Q & ->)]; [cbn in P; lia|]. cbn [x_sum x_z0 x_mult x_id result] in *.
  pose proof (fm_lt _ _ _ _ FM) as Hb. pose proof (fm_val _ _ _ _ FM) as Hv. unfold NVTXBINS in *.
  assert (K : 0 <= Z.of_nat b + k < 15).
  { rewrite <- Hv in Q. destruct (sum_pos _ _ _ (proj1 O) Q) as (t & I & _ & E). rewrite Forall_forall in S, S'. pose proof (S _ I) as R1. pose proof (S' _ (in_map (along (20 * k)) _ _ I)) as R2.
    rewrite regular_slice in E by exact R1. unfold regular, along in *. cbn [v_z0] in R2. lia. }
  set (b' := Z.to_nat (Z.of_nat b + k)). destruct (along_sum k tracks b b' S S' ltac:(lia)) as [E1 E2].
  assert (FM' : first_max (slice_sum slice (map (along (20 * k)) tracks)) 15 b' s).
  { split.
    - lia.
    - rewrite E1. exact Hv.
    - intros j Hj. destruct (Z_lt_le_dec (Z.of_nat j - k) 0) as [A|A]; [rewrite along_zero by (try assumption; lia); lia|].
      destruct (Z_lt_le_dec (Z.of_nat j - k) 15) as [A'|A']; [|rewrite along_zero by (try assumption; lia); lia].
      destruct (along_sum k tracks (Z.to_nat (Z.of_nat j - k)) j S S' ltac:(lia)) as [-> _]. apply (fm_max _ _ _ _ FM). lia.
    - intros j Hj. destruct (Z_lt_le_dec (Z.of_nat j - k) 0) as [A|A]; [rewrite along_zero by (try assumption; lia); lia|].
      destruct (along_sum k tracks (Z.to_nat (Z.of_nat j - k)) j S S' ltac:(lia)) as [-> _]. apply (fm_first _ _ _ _ FM). lia. }
  pose proof (vtx_max _ b' s O' FM' Q) as V'. unfold result in V'. rewrite E2 in V'. replace (20 * Z.of_nat b + 10 + 20 * k) with (20 * Z.of_nat b' + 10) by lia. exact V'.
Qed.

(** ** one more track *)
Lemma c92_more t tracks o : vtracks_ok (t :: tracks) -> Forall sensible (t :: tracks) -> vertex_is tracks o ->
  exists o', vertex_is (t :: tracks) o' /\ x_sum o <= x_sum o' <= x_sum o + 200 /\
    (x_z0 o' = x_z0 o \/ belongs (x_z0 o') t) /\
    (0 < x_sum o -> belongs (x_z0 o) t -> x_z0 o' = x_z0 o) /\
    (v_pt t = 0 -> x_sum o' = x_sum o /\ x_z0 o' = x_z0 o).
Proof.
  intros O S V. inversion_clear S as [|? ? St Sl].
  assert (O0 : vtracks_ok tracks /\ vt_ok t). { destruct O as [H L]. inversion_clear H. split; [split; [assumption|cbn [length] in L; lia]|assumption]. }
  destruct O0 as [O0 Ht]. pose proof (slice_range t Ht) as Rt. destruct Ht as (Hz & Hp & Hb).
  destruct (vtx_char _ O) as (o' & V' & C'). exists o'. split; [exact V'|].
  assert (Pos : forall b, 0 <= slice_sum slice tracks b).
  { intros b. eapply (proj1 (slice_sum_bound slice tracks b _)). Unshelve. eapply Forall_impl; [|exact (proj1 O0)]. intros a (_ & Ha & _). lia. }
  assert (D : forall b, slice_sum slice (t :: tracks) b = (if slice (v_z0 t) =? Z.of_nat b then Z.min 200 (v_pt t) else 0) + slice_sum slice tracks b) by (intros; apply slice_sum_cons).
  destruct (vtx_some _ _ O0 V) as [[Z0 ->]|(b & s & FM & Q & ->)].
  - cbn [x_sum x_z0]. destruct C' as [[Z1 ->]|(b' & s' & FM' & Q' & ->)]; cbn [x_sum x_z0 result].
    + split; [lia|]. split; [left; reflexivity|]. split; [reflexivity|]. intros; split; reflexivity.
    + pose proof (fm_val _ _ _ _ FM') as E. rewrite D, (Z0 b' (fm_lt _ _ _ _ FM')) in E.
      destruct (Z.eqb_spec (slice (v_z0 t)) (Z.of_nat b')) as [B|B]; [|lia].
      split; [lia|]. split; [right; apply belongs_slice; assumption|]. split; [intros; lia|intros; lia].
  - destruct C' as [[Z1 ->]|(b' & s' & FM' & Q' & ->)]; cbn [x_sum x_z0 result].
    { pose proof (D b) as E. rewrite (Z1 b (fm_lt _ _ _ _ FM)) in E. pose proof (fm_val _ _ _ _ FM). destruct (_ =? _); lia. }
    destruct FM as [L1 V1 M1 S1]. destruct FM' as [L2 V2 M2 S2].
    pose proof (D b) as Db. pose proof (D b') as Db'. pose proof (M1 b' L2). pose proof (M2 b L1).
    assert (Else : slice (v_z0 t) <> Z.of_nat b' \/ v_pt t = 0 -> b' = b /\ s' = s).
    { intros N. assert (E : slice_sum slice (t :: tracks) b' = slice_sum slice tracks b').
      { rewrite Db'. destruct (Z.eqb_spec (slice (v_z0 t)) (Z.of_nat b')); [|lia]. destruct N; [contradiction|lia]. }
      assert (b' = b).
      { destruct (Nat.lt_trichotomy b' b) as [A|[A|A]]; [|exact A|]; exfalso.
        - pose proof (S1 b' A). destruct (slice (v_z0 t) =? Z.of_nat b); lia.
        - pose proof (S2 b A). destruct (slice (v_z0 t) =? Z.of_nat b); lia. }
      subst b'. split; [reflexivity|]. lia. }
    split; [destruct (slice (v_z0 t) =? Z.of_nat b'), (slice (v_z0 t) =? Z.of_nat b); lia|]. split; [|split].
    + destruct (Z.eq_dec (slice (v_z0 t)) (Z.of_nat b')) as [B|B]; [right; apply belongs_slice; assumption|]. left. destruct Else as [-> _]; [left; exact B|reflexivity].
    + intros _ B. apply (belongs_slice t b St) in B. destruct (Z.eq_dec (slice (v_z0 t)) (Z.of_nat b')) as [B'|B']; [lia|]. destruct Else as [-> _]; [left; exact B'|reflexivity].
    + intros N. destruct Else as [-> ->]; [right; exact N|]. split; reflexivity.
Qed.

(** ** the optimised finder *)
Lemma slice_countp_perm f l l' b : Permutation l l' -> slice_count_pos f l b = slice_count_pos f l' b.
Proof. intros P. induction P; rewrite ?slice_countp_cons; lia. Qed.
Lemma c92_hwopt_order z0bin conv npow tracks tracks' old : Forall (zok z0bin) tracks -> length tracks = (2 ^ npow)%nat -> (npow <= 6)%nat ->
  Forall (fun t => 0 <= v_pt t) tracks -> Permutation tracks tracks' ->
  simple_vtx_hwopt z0bin conv npow tracks' old = simple_vtx_hwopt z0bin conv npow tracks old.
Proof.
  intros H L N Q P.
  assert (H' : Forall (zok z0bin) tracks') by (rewrite <- P; exact H). assert (L' : length tracks' = (2 ^ npow)%nat) by (rewrite <- (Permutation_length P); exact L).
  assert (Q' : Forall (fun t => 0 <= v_pt t) tracks') by (rewrite <- P; exact Q).
  assert (E : forall j, slice_sum z0bin tracks j = slice_sum z0bin tracks' j) by (intros; apply slice_sum_perm; exact P).
  destruct (c34 z0bin conv npow tracks old H L N Q) as [[Z0 ->]|(b & s & FM & Ps & ->)];
    destruct (c34 z0bin conv npow tracks' old H' L' N Q') as [[Z0' ->]|(b' & s' & FM' & Ps' & ->)].
  - reflexivity.
  - exfalso. rewrite <- (fm_val _ _ _ _ FM'), <- E, (Z0 _ (fm_lt _ _ _ _ FM')) in Ps'. lia.
  - exfalso. rewrite <- (fm_val _ _ _ _ FM), E, (Z0' _ (fm_lt _ _ _ _ FM)) in Ps. lia.
  - pose proof (first_max_ext _ _ _ _ _ (fun j _ => E j) FM) as FM2. destruct (first_max_unique _ _ _ _ _ _ FM2 FM') as [<- <-].
    rewrite (slice_countp_perm z0bin _ _ b P). reflexivity.
Qed.
