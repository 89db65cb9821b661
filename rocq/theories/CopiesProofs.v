(** Proofs about the copies the regionizers make (C96). *)
From Coq Require Import Permutation Sorted.
From Verif Require Import Base BaseFacts Data PFHw SortFacts SpecSort RankFacts TabFacts Regionizer SpecRegion RegionFacts RegionMerge RegionLoops RegionProofs RegionMuon SpecCopies.

Lemma perm_sumZ l l' : Permutation l l' -> sumZ l = sumZ l'.
Proof. unfold sumZ. induction 1; cbn; lia. Qed.
Lemma top_n_split {T} (pt : T -> Z) n l top : top_n pt false n l top -> exists lost, Permutation (top ++ lost) l /\ ((length l <= n)%nat -> lost = []).
Proof.
  intros H. rewrite (top_n_unique _ _ _ _ _ _ H (top_n_rsort false pt n l)). exists (skipn n (rsort false pt l)). split.
  - rewrite firstn_skipn. apply rsort_perm.
  - intros L. apply skipn_all2. rewrite (Permutation_length (rsort_perm false pt l)). exact L.
Qed.

Lemma map_scale {B} (c : Z) (h : B -> Z) (l : list B) : sumZ (map (fun y => c * h y) l) = c * sumZ (map h l).
Proof. unfold sumZ. induction l as [|y l IH]; cbn; lia. Qed.
Lemma filter_perm {T} (f : T -> bool) l l' : Permutation l l' -> Permutation (filter f l) (filter f l').
Proof. induction 1 as [|z u v P IH|z w u|u v w P1 IH1 P2 IH2]; cbn; [constructor| | |etransitivity; eassumption]. - destruct (f z); [constructor|]; exact IH. - destruct (f z), (f w); try reflexivity. constructor. Qed.
Lemma shuffle {T} (a b c x y z : list T) : Permutation ((a ++ b ++ c) ++ (x ++ y ++ z)) ((a ++ x) ++ (b ++ y) ++ (c ++ z)).
Proof.
  rewrite <- !app_assoc. apply Permutation_app_head. rewrite (Permutation_app_swap_app x b). apply Permutation_app_head.
  rewrite (Permutation_app_swap_app c x). apply Permutation_app_head. apply Permutation_app_swap_app.
Qed.

Section copies.
Context {A : Type} (d : A).
Implicit Types (x o : robj A) (l : list (robj A)) (objs : nat -> list (robj A)).

Lemma held_pos l : pos l -> held l = l.
Proof. intros P. unfold held. induction P as [|x l P _ IH]; cbn; [reflexivity|]. destruct (Z.ltb_spec 0 (r_pt x)); [f_equal; exact IH|lia]. Qed.
Lemma held_clear n : held (repeat (rclear d) n) = [].
Proof. induction n; cbn; auto. Qed.
Lemma held_app l l' : held (l ++ l') = held l ++ held l'.
Proof. apply filter_app. Qed.
Lemma pos_cands ie l : pos (slice_cands ie l).
Proof. rewrite <- selm_cands. apply pos_selm. Qed.
Lemma pos_perm l l' : Permutation l l' -> pos l' -> pos l.
Proof. intros P. apply Permutation_Forall. symmetry; exact P. Qed.
Lemma pos_left l l' : pos (l ++ l') -> pos l.
Proof. intros P. apply Forall_app in P. tauto. Qed.
Lemma pos_local j l : pos l -> pos (map (local_phi j) l).
Proof. intros P. induction P; cbn; constructor; assumption. Qed.
Lemma pos_offered objs ie ip : pos (offered objs ie ip).
Proof. unfold offered. cbn [flat_map]. repeat (apply Forall_app; split); try (apply pos_local, pos_cands). constructor. Qed.

Lemma kept_held n cands out : pos cands -> kept d n cands out -> exists lost, Permutation (held out ++ lost) cands /\ ((length cands <= n)%nat -> lost = []).
Proof.
  intros P (top & T & ->). destruct (top_n_split _ _ _ _ T) as (lost & Pm & L). exists lost. split; [|exact L].
  rewrite held_app, held_clear, app_nil_r, held_pos; [exact Pm|]. eapply pos_left, pos_perm; [exact Pm|exact P].
Qed.

(** a region holds some of what it is offered, and all of it if it fits *)
Lemma region_held nsec nreg objs ie ip out : region_spec d nsec nreg objs ie ip out ->
  exists lost, Permutation (held out ++ lost) (offered objs ie ip) /\ (fits_in nsec nreg objs ie ip -> lost = []).
Proof.
  intros (t0 & t1 & t2 & T0 & T1 & T2 & K3).
  destruct (top_n_split _ _ _ _ T0) as (l0 & P0 & E0), (top_n_split _ _ _ _ T1) as (l1 & P1 & E1), (top_n_split _ _ _ _ T2) as (l2 & P2 & E2).
  assert (PP : forall j t s l, Permutation (t ++ s) (slice_cands ie l) -> pos (map (local_phi j) t)) by (intros j t s l Q; apply pos_local; eapply pos_left, pos_perm; [exact Q|apply pos_cands]).
  destruct (kept_held nreg (map (local_phi 0) t0 ++ map (local_phi 1) t1 ++ map (local_phi 2) t2) out) as (lk & Pk & Ek); [|exact K3|].
  { repeat (apply Forall_app; split); eapply PP; eassumption. }
  exists (lk ++ (map (local_phi 0) l0 ++ map (local_phi 1) l1 ++ map (local_phi 2) l2)).
  assert (Q : Permutation ((map (local_phi 0) t0 ++ map (local_phi 1) t1 ++ map (local_phi 2) t2) ++ (map (local_phi 0) l0 ++ map (local_phi 1) l1 ++ map (local_phi 2) l2)) (offered objs ie ip)).
  { unfold offered. cbn [flat_map]. rewrite app_nil_r, <- P0, <- P1, <- P2, !map_app. apply shuffle. }
  split; [rewrite app_assoc, Pk; exact Q|]. intros [F1 F2].
  rewrite (E0 (F1 0%nat ltac:(lia))), (E1 (F1 1%nat ltac:(lia))), (E2 (F1 2%nat ltac:(lia))), app_nil_r in *. apply Ek. rewrite (Permutation_length Q). exact F2.
Qed.

(** ** sums *)
Definition g (f : Z -> A -> Z) objs (s ie : nat) : Z := sumZ (map (fun o => f (r_pt o) (r_rest o)) (slice_cands ie (objs s))).
Lemma offered_sum f objs ie ip : sumZ (map (fun o => f (r_pt o) (r_rest o)) (offered objs ie ip)) =
  g f objs (region_sector ip 0) ie + g f objs (region_sector ip 1) ie + g f objs (region_sector ip 2) ie.
Proof.
  unfold offered, g. cbn [flat_map]. rewrite app_nil_r, !map_app, !sumZ_app, !map_map. cbn [local_phi r_pt r_rest]. lia.
Qed.
Lemma slices_sum f l : sumZ (map (fun o => f (r_pt o) (r_rest o)) (slice_cands 0 l)) + sumZ (map (fun o => f (r_pt o) (r_rest o)) (slice_cands 1 l)) + sumZ (map (fun o => f (r_pt o) (r_rest o)) (slice_cands 2 l)) =
  sumZ (map (fun x => eta_copies x * f (r_pt x) (r_rest x)) (held l)).
Proof.
  unfold slice_cands, held. rewrite !map_map. cbn [local_eta r_pt r_rest]. unfold sumZ. induction l as [|x l IH]; cbn [filter map fold_right]; [reflexivity|].
  destruct (0 <? r_pt x); cbn [andb]; [|exact IH].
  set (F := f (r_pt x) (r_rest x)) in *.
  assert (C : (if in_slice 0 x then F else 0) + (if in_slice 1 x then F else 0) + (if in_slice 2 x then F else 0) = eta_copies x * F).
  { assert (C : (if in_slice 0 x then 1 else 0) + (if in_slice 1 x then 1 else 0) + (if in_slice 2 x then 1 else 0) = eta_copies x).
    { unfold eta_copies, in_slice, slice_lo, slice_hi. destruct (342 <? Z.abs (r_eta x)) eqn:E1, ((57 <=? Z.abs (r_eta x)) && (Z.abs (r_eta x) <=? 171)) eqn:E2;
        repeat match goal with |- context [if ?b then _ else _] => destruct b eqn:? end; lia. }
    rewrite <- C. destruct (in_slice 0 x), (in_slice 1 x), (in_slice 2 x); lia. }
  assert (D : forall (b : bool) (r : list (robj A)), fold_right Z.add 0 (map (fun x => f (r_pt x) (r_rest x)) (if b then x :: r else r)) = (if b then F else 0) + fold_right Z.add 0 (map (fun x => f (r_pt x) (r_rest x)) r)) by (intros [] r; reflexivity).
  rewrite !D. cbn [map fold_right]. fold F. rewrite <- IH, <- C. lia.
Qed.
Lemma in_sum f objs : total_in copies f 12 objs = sumZ (map (fun s => (if Nat.odd s then 1 else 2) * (g f objs s 0 + g f objs s 1 + g f objs s 2)) (seq 0 12)).
Proof.
  unfold total_in. f_equal. apply map_ext. intros s. unfold g. rewrite slices_sum, <- map_scale. f_equal. apply map_ext. intros x. unfold copies. lia.
Qed.
Lemma out_sum f (out : list (list (robj A))) : length out = 18%nat -> total_out f out = sumZ (map (fun ie => sumZ (map (fun ip => total f (nth (6 * ie + ip) out [])) (seq 0 6))) (seq 0 3)).
Proof.
  intros L. do 18 (destruct out as [|? out]; [discriminate|]). destruct out; [|discriminate]. unfold total_out. generalize (total f). intros h. cbn -[Z.add]. lia.
Qed.
Lemma total_offered f objs : sumZ (map (fun ie => sumZ (map (fun ip => sumZ (map (fun o => f (r_pt o) (r_rest o)) (offered objs ie ip))) (seq 0 6))) (seq 0 3)) = total_in copies f 12 objs.
Proof.
  rewrite in_sum. cbn [seq map]. rewrite !offered_sum. unfold region_sector, sumZ. cbn -[Z.mul Z.add g]. lia.
Qed.

Definition whole f l : Z := sumZ (map (fun o : robj A => f (r_pt o) (r_rest o)) l).
Lemma whole_perm f l l' : Permutation l l' -> whole f l = whole f l'.
Proof. intros P. apply perm_sumZ, Permutation_map, P. Qed.
Lemma whole_app f l l' : whole f (l ++ l') = whole f l + whole f l'.
Proof. unfold whole. rewrite map_app. apply sumZ_app. Qed.
Lemma whole_nonneg f l : (forall p r, 0 <= f p r) -> 0 <= whole f l.
Proof. intros H. apply sumZ_nonneg. intros z Hz. apply in_map_iff in Hz as (o & <- & _). apply H. Qed.
Lemma sum_seq (h h' : nat -> Z) n : (forall i, (i < n)%nat -> h i = h' i) -> sumZ (map h (seq 0 n)) = sumZ (map h' (seq 0 n)).
Proof. intros H. f_equal. apply map_ext_in. intros i Hi. apply in_seq in Hi. apply H. lia. Qed.
Lemma sum_seq_le (h h' : nat -> Z) n : (forall i, (i < n)%nat -> h i <= h' i) -> sumZ (map h (seq 0 n)) <= sumZ (map h' (seq 0 n)).
Proof.
  intros H. assert (G : forall i, In i (seq 0 n) -> h i <= h' i) by (intros i Hi; apply in_seq in Hi; apply H; lia).
  revert G. generalize (seq 0 n). unfold sumZ. induction l as [|i l IH]; intros G; cbn; [lia|]. specialize (IH (fun k Hk => G k (or_intror Hk))). specialize (G i (or_introl eq_refl)). lia.
Qed.

Definition regions_ok nsec nreg objs (out : list (list (robj A))) : Prop :=
  dims2 18 nreg out /\ forall ie ip, (ie < 3)%nat -> (ip < 6)%nat -> region_spec d nsec nreg objs ie ip (nth (6 * ie + ip) out []).
Lemma copies_exact nsec nreg objs out f : regions_ok nsec nreg objs out -> (forall ie ip, (ie < 3)%nat -> (ip < 6)%nat -> fits_in nsec nreg objs ie ip) ->
  total_out f out = total_in copies f 12 objs.
Proof.
  intros [[L _] R] F. rewrite out_sum, <- total_offered by exact L. apply sum_seq. intros ie He. apply sum_seq. intros ip Hp.
  destruct (region_held nsec nreg objs ie ip _ (R ie ip He Hp)) as (lost & P & E). rewrite (E (F ie ip He Hp)), app_nil_r in P. apply (whole_perm f _ _ P).
Qed.
Lemma copies_le nsec nreg objs out f : regions_ok nsec nreg objs out -> (forall p r, 0 <= f p r) -> total_out f out <= total_in copies f 12 objs.
Proof.
  intros [[L _] R] F. rewrite out_sum, <- total_offered by exact L. apply sum_seq_le. intros ie He. apply sum_seq_le. intros ip Hp.
  destruct (region_held nsec nreg objs ie ip _ (R ie ip He Hp)) as (lost & P & _). apply (whole_perm f) in P. rewrite whole_app in P.
  pose proof (whole_nonneg f lost F). unfold whole in *. unfold total. lia.
Qed.

Lemma c96_ref nobj nsec nreg nf work fibers regions :
  dims3 12 3 nsec work -> dims2 18 nreg regions -> length fibers = (nf * 12)%nat -> (forall fib, In fib fibers -> (nobj / nf <= length fib)%nat) ->
  let objs := arrivals nf (nobj / nf) fibers in
  exists out rest static, regionize_ref d nobj nsec nreg nf work fibers regions = Ok (out, rest, static) /\
    (forall ie ip, (ie < 3)%nat -> (ip < 6)%nat -> exists lost, Permutation (held (nth (6 * ie + ip) out []) ++ lost) (offered objs ie ip) /\ (fits_in nsec nreg objs ie ip -> lost = [])) /\
    (forall f, (forall p r, 0 <= f p r) -> total_out f out <= total_in copies f 12 objs) /\
    ((forall ie ip, (ie < 3)%nat -> (ip < 6)%nat -> fits_in nsec nreg objs ie ip) -> forall f, total_out f out = total_in copies f 12 objs).
Proof.
  intros H1 H2 H3 H4 objs. destruct (regionize_ref_spec d nobj nsec nreg nf work fibers regions H1 H2 H3 H4) as (out & static & E & _ & D & R). exists out, (map (skipn (nobj / nf)) fibers), static.
  split; [exact E|]. split; [intros ie ip He Hp; apply region_held; exact (R ie ip He Hp)|]. assert (RO : regions_ok nsec nreg objs out) by (split; [exact D|exact R]). split.
  - intros f Hf. eapply copies_le; eassumption.
  - intros F f. eapply copies_exact; eassumption.
Qed.
Lemma c96_hw nobj nsec nreg junk work fibers regions :
  (nsec <= nreg)%nat -> dims3 12 3 nsec work -> dims2 18 nreg regions -> length fibers = 12%nat -> (forall fib, In fib fibers -> (nobj <= length fib)%nat) ->
  let objs := fun s => firstn nobj (nth s fibers []) in
  exists out rest, regionize_hw d nobj nsec nreg junk work fibers regions = Ok (out, rest) /\
    (forall ie ip, (ie < 3)%nat -> (ip < 6)%nat -> exists lost, Permutation (held (nth (6 * ie + ip) out []) ++ lost) (offered objs ie ip) /\ (fits_in nsec nreg objs ie ip -> lost = [])) /\
    (forall f, (forall p r, 0 <= f p r) -> total_out f out <= total_in copies f 12 objs) /\
    ((forall ie ip, (ie < 3)%nat -> (ip < 6)%nat -> fits_in nsec nreg objs ie ip) -> forall f, total_out f out = total_in copies f 12 objs).
Proof.
  intros H0 H1 H2 H3 H4 objs. destruct (regionize_hw_spec d nobj nsec nreg junk work fibers regions H0 H1 H2 H3 H4) as (out & E & D & R). exists out, (map (skipn nobj) fibers).
  split; [exact E|]. split; [intros ie ip He Hp; apply region_held; exact (R ie ip He Hp)|]. assert (RO : regions_ok nsec nreg objs out) by (split; [exact D|exact R]). split.
  - intros f Hf. eapply copies_le; eassumption.
  - intros F f. eapply copies_exact; eassumption.
Qed.

(** ** muons *)
Lemma mt_perm nmu objs ie m : (length (objs m) <= nmu)%nat -> Permutation (mt nmu objs ie m) (slice_cands ie (objs m)).
Proof.
  intros L. unfold mt. rewrite firstn_all2; [apply rsort_perm|]. rewrite (Permutation_length (rsort_perm false r_pt (slice_cands ie (objs m)))). unfold slice_cands. rewrite map_length.
  eapply Nat.le_trans; [|exact L]. clear. induction (objs m) as [|y l IH]; cbn; [lia|]. destruct (_ && _); cbn; lia.
Qed.
Definition mu_local ie ip m x : robj A := mkR (r_pt x) (r_eta x - slice_centre ie) (muon_local ip m (r_phi x)) (r_rest x).
Definition nominal_list l : Prop := forall x, In x l -> 0 < r_pt x -> -180 < r_phi x <= 180.
Lemma part_is ie ip m (keep : Z -> bool) s l : nominal_list l ->
  (forall phi, -180 < phi <= 180 -> keep phi = (-180 <? muon_local ip m phi) && (muon_local ip m phi <=? 180)) ->
  (forall phi, -180 < phi <= 180 -> keep phi = true -> wrapS 10 (phi + s) = muon_local ip m phi) ->
  map (add_phi s) (filter (fun x => keep (r_phi x)) (slice_cands ie l)) = map (mu_local ie ip m) (filter (mu_here ie ip m) l).
Proof.
  intros N H1 H2. unfold slice_cands. induction l as [|x l IH]; [reflexivity|]. assert (IH' := IH (fun y Hy => N y (or_intror Hy))). clear IH. cbn [filter]. unfold mu_here at 1.
  destruct (Z.ltb_spec 0 (r_pt x)) as [Px|]; cbn [andb]; [|exact IH']. destruct (in_slice ie x); cbn [andb]; [|exact IH']. cbn [map filter local_eta r_phi].
  specialize (N x (or_introl eq_refl) Px). rewrite <- (H1 _ N). destruct (keep (r_phi x)) eqn:K; [|exact IH']. cbn [map]. f_equal; [|exact IH'].
  unfold add_phi, mu_local, local_eta. cbn [r_pt r_eta r_phi r_rest]. rewrite (H2 _ N K). reflexivity.
Qed.
Lemma part_whole ie ip m l : nominal_list l -> (forall phi, -180 < phi <= 180 -> muon_local ip m phi = phi) ->
  slice_cands ie l = map (mu_local ie ip m) (filter (mu_here ie ip m) l).
Proof.
  intros N H1. unfold slice_cands. induction l as [|x l IH]; [reflexivity|]. assert (IH' := IH (fun y Hy => N y (or_intror Hy))). clear IH. cbn [filter]. unfold mu_here at 1.
  destruct (Z.ltb_spec 0 (r_pt x)) as [Px|]; cbn [andb]; [|exact IH']. destruct (in_slice ie x); cbn [andb]; [|exact IH'].
  specialize (N x (or_introl eq_refl) Px). rewrite (H1 _ N). replace ((-180 <? r_phi x) && (r_phi x <=? 180)) with true by lia. cbn [map]. f_equal; [|exact IH'].
  unfold mu_local, local_eta. rewrite (H1 _ N). reflexivity.
Qed.
Lemma part_none ie ip m l : nominal_list l -> (forall phi, -180 < phi <= 180 -> (-180 <? muon_local ip m phi) && (muon_local ip m phi <=? 180) = false) -> filter (mu_here ie ip m) l = [].
Proof.
  intros N H1. induction l as [|x l IH]; [reflexivity|]. assert (IH' := IH (fun y Hy => N y (or_intror Hy))). clear IH. cbn [filter]. unfold mu_here at 1.
  destruct (Z.ltb_spec 0 (r_pt x)) as [Px|]; cbn [andb]; [|exact IH']. destruct (in_slice ie x); cbn [andb]; [|exact IH']. rewrite (H1 _ (N x (or_introl eq_refl) Px)). exact IH'.
Qed.

Local Ltac win T := intros phi Hphi; try (intros Hk; rewrite wrapS10_small by lia); rewrite T; cbn zeta; match goal with |- context [?a <=? 720] => destruct (Z.leb_spec a 720) end; lia.
Lemma mcands_perm nmu objs ie ip : (ip < 6)%nat -> (forall m, (m < 4)%nat -> (length (objs m) <= nmu)%nat) -> (forall m, (m < 4)%nat -> nominal_list (objs m)) ->
  Permutation (mcands nmu objs ie ip) (mu_offered objs ie ip).
Proof.
  intros Hp L N. unfold mu_offered. cbn [flat_map]. rewrite app_nil_r.
  change (fun x : robj A => mkR (r_pt x) (r_eta x - slice_centre ie) (muon_local ip 0 (r_phi x)) (r_rest x)) with (mu_local ie ip 0).
  change (fun x : robj A => mkR (r_pt x) (r_eta x - slice_centre ie) (muon_local ip 1 (r_phi x)) (r_rest x)) with (mu_local ie ip 1).
  change (fun x : robj A => mkR (r_pt x) (r_eta x - slice_centre ie) (muon_local ip 2 (r_phi x)) (r_rest x)) with (mu_local ie ip 2).
  change (fun x : robj A => mkR (r_pt x) (r_eta x - slice_centre ie) (muon_local ip 3 (r_phi x)) (r_rest x)) with (mu_local ie ip 3).
  assert (G0 : forall m, (m < 4)%nat -> (forall phi, -180 < phi <= 180 -> muon_local ip m phi = phi) -> Permutation (mt nmu objs ie m) (map (mu_local ie ip m) (filter (mu_here ie ip m) (objs m)))).
  { intros m Hm H. rewrite <- (part_whole ie ip m (objs m) (N m Hm) H). apply mt_perm, L, Hm. }
  assert (G1 : forall m (keep : Z -> bool) s, (m < 4)%nat -> (forall phi, -180 < phi <= 180 -> keep phi = (-180 <? muon_local ip m phi) && (muon_local ip m phi <=? 180)) ->
    (forall phi, -180 < phi <= 180 -> keep phi = true -> wrapS 10 (phi + s) = muon_local ip m phi) ->
    Permutation (map (add_phi s) (filter (fun x => keep (r_phi x)) (mt nmu objs ie m))) (map (mu_local ie ip m) (filter (mu_here ie ip m) (objs m)))).
  { intros m keep s Hm H1 H2. rewrite <- (part_is ie ip m keep s (objs m) (N m Hm) H1 H2). apply Permutation_map, filter_perm, mt_perm, L, Hm. }
  assert (G2 : forall m, (m < 4)%nat -> (forall phi, -180 < phi <= 180 -> (-180 <? muon_local ip m phi) && (muon_local ip m phi <=? 180) = false) -> map (mu_local ie ip m) (filter (mu_here ie ip m) (objs m)) = []).
  { intros m Hm H. rewrite (part_none ie ip m (objs m) (N m Hm) H). reflexivity. }
  assert (T : forall a phi, muon_local ip a phi = let d := (phi + 120 * (Z.of_nat (3 * a + 1) - Z.of_nat (2 * ip + 1))) mod 1440 in if d <=? 720 then d else d - 1440) by reflexivity.
  unfold mcands. destruct ip as [|[|[|[|[|[|]]]]]]; try lia; cbn [Nat.modulo Nat.divmod fst snd Nat.sub].
  - rewrite (G2 1%nat) by (lia || win T). rewrite (G2 2%nat) by (lia || win T). rewrite (G2 3%nat) by (lia || win T). rewrite ?app_nil_r. cbn [app]. apply G0; [lia|win T].
  - rewrite (G2 2%nat) by (lia || win T). rewrite (G2 3%nat) by (lia || win T). rewrite ?app_nil_r. cbn [app]. apply Permutation_app; [apply (G1 0%nat (fun v => v >? 60) (-240)); [lia|win T|win T]|apply (G1 1%nat (fun v => v <=? 60) (120)); [lia|win T|win T]].
  - rewrite (G2 0%nat) by (lia || win T). rewrite (G2 3%nat) by (lia || win T). rewrite ?app_nil_r. cbn [app]. apply Permutation_app; [apply (G1 1%nat (fun v => v >? -60) (-120)); [lia|win T|win T]|apply (G1 2%nat (fun v => v <=? -60) (240)); [lia|win T|win T]].
  - rewrite (G2 0%nat) by (lia || win T). rewrite (G2 1%nat) by (lia || win T). rewrite (G2 3%nat) by (lia || win T). rewrite ?app_nil_r. cbn [app]. apply G0; [lia|win T].
  - rewrite (G2 0%nat) by (lia || win T). rewrite (G2 1%nat) by (lia || win T). rewrite ?app_nil_r. cbn [app]. apply Permutation_app; [apply (G1 2%nat (fun v => v >? 60) (-240)); [lia|win T|win T]|apply (G1 3%nat (fun v => v <=? 60) (120)); [lia|win T|win T]].
  - rewrite (G2 1%nat) by (lia || win T). rewrite (G2 2%nat) by (lia || win T). rewrite ?app_nil_r. cbn [app]. rewrite Permutation_app_comm. apply Permutation_app; [apply (G1 0%nat (fun v => v <=? -60) (240)); [lia|win T|win T]|apply (G1 3%nat (fun v => v >? -60) (-120)); [lia|win T|win T]].
Qed.

Definition mu_win (ip m : nat) (phi : Z) : bool := (-180 <? muon_local ip m phi) && (muon_local ip m phi <=? 180).
Lemma mu_win_is ip m phi : (ip < 6)%nat -> (m < 4)%nat -> -180 < phi <= 180 ->
  mu_win ip m phi = match ((12 + 3 * m - 2 * ip) mod 12)%nat with 0%nat => true | 1%nat => phi <=? 60 | 11%nat => phi >? -60 | 2%nat => phi <=? -60 | 10%nat => phi >? 60 | _ => false end.
Proof.
  intros Hp Hm H. unfold mu_win, muon_local.
  destruct ip as [|[|[|[|[|[|]]]]]]; try lia; destruct m as [|[|[|[|]]]]; try lia; cbn [Nat.modulo Nat.divmod fst snd Nat.sub Nat.mul Nat.add];
    match goal with |- context [?a <=? 720] => destruct (Z.leb_spec a 720) end; lia.
Qed.
Lemma mu_win_count m phi (F : Z) : (m < 4)%nat -> -180 < phi <= 180 -> sumZ (map (fun ip => if mu_win ip m phi then F else 0) (seq 0 6)) =
  (let u := (phi + 360 * Z.of_nat m) mod 240 in if (60 <? u) && (u <=? 180) then 2 else 1) * F.
Proof.
  intros Hm H. cbn [seq map]. rewrite !mu_win_is by lia. unfold sumZ. cbn [fold_right].
  destruct m as [|[|[|[|]]]]; try lia; cbn [Nat.modulo Nat.divmod fst snd Nat.sub Nat.mul Nat.add]; cbn zeta;
    repeat match goal with |- context [if ?b then _ else _] => destruct b eqn:? end; lia.
Qed.
Lemma mu_part_sum f l m : (m < 4)%nat -> nominal_list l ->
  sumZ (map (fun ie => sumZ (map (fun ip => whole f (map (mu_local ie ip m) (filter (mu_here ie ip m) l))) (seq 0 6))) (seq 0 3)) =
  sumZ (map (fun x => mu_copies m x * f (r_pt x) (r_rest x)) (held l)).
Proof.
  intros Hm N. unfold held. induction l as [|x l IH]; [reflexivity|]. assert (IH' := IH (fun y Hy => N y (or_intror Hy))). clear IH.
  set (F := f (r_pt x) (r_rest x)). cbn [filter].
  assert (D : forall ie ip, whole f (map (mu_local ie ip m) (if mu_here ie ip m x then x :: filter (mu_here ie ip m) l else filter (mu_here ie ip m) l)) =
    (if mu_here ie ip m x then F else 0) + whole f (map (mu_local ie ip m) (filter (mu_here ie ip m) l))).
  { intros ie ip. destruct (mu_here ie ip m x); [|lia]. reflexivity. }
  replace (sumZ (map (fun ie => sumZ (map (fun ip => whole f (map (mu_local ie ip m) (if mu_here ie ip m x then x :: filter (mu_here ie ip m) l else filter (mu_here ie ip m) l))) (seq 0 6))) (seq 0 3)))
    with (sumZ (map (fun ie => sumZ (map (fun ip => if mu_here ie ip m x then F else 0) (seq 0 6))) (seq 0 3)) + sumZ (map (fun ie => sumZ (map (fun ip => whole f (map (mu_local ie ip m) (filter (mu_here ie ip m) l))) (seq 0 6))) (seq 0 3)))
    by (unfold sumZ; cbn -[Z.add whole mu_here]; rewrite !D; lia).
  rewrite IH'. clear D IH'. unfold mu_here at 1. destruct (Z.ltb_spec 0 (r_pt x)) as [Px|]; cbn [andb].
  2: { cbn. reflexivity. }
  cbn [map]. change (sumZ (?a :: ?r)) with (a + sumZ r). f_equal. specialize (N x (or_introl eq_refl) Px). fold F.
  assert (W : sumZ (map (fun ip => if (-180 <? muon_local ip m (r_phi x)) && (muon_local ip m (r_phi x) <=? 180) then F else 0) (seq 0 6)) =
    (let u := (r_phi x + 360 * Z.of_nat m) mod 240 in if (60 <? u) && (u <=? 180) then 2 else 1) * F).
  { exact (mu_win_count m (r_phi x) F Hm N). }
  assert (C : forall ie, sumZ (map (fun ip => if in_slice ie x && (-180 <? muon_local ip m (r_phi x)) && (muon_local ip m (r_phi x) <=? 180) then F else 0) (seq 0 6)) =
    if in_slice ie x then (let u := (r_phi x + 360 * Z.of_nat m) mod 240 in if (60 <? u) && (u <=? 180) then 2 else 1) * F else 0).
  { intros ie. destruct (in_slice ie x); [exact W|reflexivity]. }
  cbn [seq map]. cbn [seq map] in C. rewrite !C. unfold mu_copies. cbn zeta. set (c := if _ && _ then 2 else 1). unfold sumZ. cbn [fold_right].
  assert (E : (if in_slice 0 x then 1 else 0) + (if in_slice 1 x then 1 else 0) + (if in_slice 2 x then 1 else 0) = eta_copies x).
  { unfold eta_copies, in_slice, slice_lo, slice_hi. destruct (342 <? Z.abs (r_eta x)) eqn:E1, ((57 <=? Z.abs (r_eta x)) && (Z.abs (r_eta x) <=? 171)) eqn:E2;
      repeat match goal with |- context [if ?b then _ else _] => destruct b eqn:? end; lia. }
  rewrite <- E. destruct (in_slice 0 x), (in_slice 1 x), (in_slice 2 x); lia.
Qed.
Lemma mu_total_offered f objs : (forall m, (m < 4)%nat -> nominal_list (objs m)) ->
  sumZ (map (fun ie => sumZ (map (fun ip => whole f (mu_offered objs ie ip)) (seq 0 6))) (seq 0 3)) = total_in mu_copies f 4 objs.
Proof.
  intros N. unfold total_in. change (map ?h (seq 0 4)) with [h 0%nat; h 1%nat; h 2%nat; h 3%nat]. cbv beta. rewrite <- !(mu_part_sum f) by (try apply N; lia).
  assert (E : forall ie ip, whole f (mu_offered objs ie ip) = whole f (map (mu_local ie ip 0) (filter (mu_here ie ip 0) (objs 0%nat))) + (whole f (map (mu_local ie ip 1) (filter (mu_here ie ip 1) (objs 1%nat))) +
    (whole f (map (mu_local ie ip 2) (filter (mu_here ie ip 2) (objs 2%nat))) + whole f (map (mu_local ie ip 3) (filter (mu_here ie ip 3) (objs 3%nat)))))).
  { intros ie ip. unfold mu_offered. cbn [flat_map]. rewrite app_nil_r, !whole_app. reflexivity. }
  cbn [seq map]. rewrite !E. unfold sumZ. cbn [fold_right]. lia.
Qed.
Lemma c96_muon nmu work fibers regions :
  dims3 4 3 nmu work -> dims2 18 nmu regions -> length fibers = 4%nat -> (forall fib, In fib fibers -> (nmu <= length fib)%nat) ->
  (forall fib x, In fib fibers -> In x (firstn nmu fib) -> 0 < r_pt x -> -180 < r_phi x <= 180) ->
  let objs := fun m => firstn nmu (nth m fibers []) in
  exists out rest static, regionize_muon_ref d nmu work fibers regions = Ok (out, rest, static) /\
    (forall ie ip, (ie < 3)%nat -> (ip < 6)%nat -> exists lost, Permutation (held (nth (6 * ie + ip) out []) ++ lost) (mu_offered objs ie ip) /\ ((length (mu_offered objs ie ip) <= nmu)%nat -> lost = [])) /\
    (forall f, (forall p r, 0 <= f p r) -> total_out f out <= total_in mu_copies f 4 objs) /\
    ((forall ie ip, (ie < 3)%nat -> (ip < 6)%nat -> (length (mu_offered objs ie ip) <= nmu)%nat) -> forall f, total_out f out = total_in mu_copies f 4 objs).
Proof.
  intros H1 H2 H3 H4 H5 objs. destruct (regionize_muon_spec d nmu work fibers regions H1 H2 H3 H4) as (out & static & E & [D _] & R). exists out, (map (skipn nmu) fibers), static. split; [exact E|].
  assert (A1 : forall m, arrivals 1 nmu fibers m = objs m) by (intros m; apply arrivals_one).
  assert (L : forall m, (m < 4)%nat -> (length (objs m) <= nmu)%nat) by (intros m _; unfold objs; rewrite firstn_length; lia).
  assert (N : forall m, (m < 4)%nat -> nominal_list (objs m)).
  { intros m Hm x Hx Px. apply (H5 (nth m fibers []) x); [apply nth_In; lia|exact Hx|exact Px]. }
  assert (G : forall ie ip, (ie < 3)%nat -> (ip < 6)%nat -> exists lost, Permutation (held (nth (6 * ie + ip) out []) ++ lost) (mu_offered objs ie ip) /\ ((length (mu_offered objs ie ip) <= nmu)%nat -> lost = [])).
  { intros ie ip He Hp. destruct (R ie ip He Hp) as [_ ->].
    assert (Q : Permutation (mcands nmu (arrivals 1 nmu fibers) ie ip) (mu_offered objs ie ip)).
    { assert (EE : mcands nmu (arrivals 1 nmu fibers) ie ip = mcands nmu objs ie ip) by (unfold mcands, mt; rewrite !A1; reflexivity). rewrite EE. apply mcands_perm; assumption. }
    destruct (kept_held nmu (mcands nmu (arrivals 1 nmu fibers) ie ip) (K d nmu (mcands nmu (arrivals 1 nmu fibers) ie ip))) as (lost & P & F); [|apply kept_K|].
    - eapply pos_perm; [exact Q|]. unfold mu_offered. apply Forall_forall. intros o Ho. apply in_flat_map in Ho as (m & _ & Ho). apply in_map_iff in Ho as (x & <- & Hx). apply filter_In in Hx as [_ Hx]. unfold mu_here in Hx. cbn [r_pt]. lia.
    - exists lost. split; [rewrite P; exact Q|]. rewrite <- (Permutation_length Q). exact F. }
  split; [exact G|]. split.
  - intros f Hf. rewrite out_sum, <- mu_total_offered by assumption. apply sum_seq_le. intros ie He. apply sum_seq_le. intros ip Hp.
    destruct (G ie ip He Hp) as (lost & P & _). apply (whole_perm f) in P. rewrite whole_app in P. pose proof (whole_nonneg f lost Hf). unfold whole in *. unfold total. lia.
  - intros F f. rewrite out_sum, <- mu_total_offered by assumption. apply sum_seq. intros ie He. apply sum_seq. intros ip Hp.
    destruct (G ie ip He Hp) as (lost & P & Z0). rewrite (Z0 (F ie ip He Hp)), app_nil_r in P. apply (whole_perm f _ _ P).
Qed.

(** ** the merge of twelve sectors into four, then the regionizer *)
Lemma held_sub (p : robj A -> bool) l : (forall x, p x = true -> 0 < r_pt x) -> (length (filter p l) <= length (held l))%nat.
Proof.
  intros H. unfold held. induction l as [|x l IH]; cbn; [lia|]. destruct (p x) eqn:E; [|destruct (0 <? r_pt x); cbn; lia].
  specialize (H x E). destruct (Z.ltb_spec 0 (r_pt x)); cbn; lia.
Qed.
Lemma mu_offered_length objs ie ip : (length (mu_offered objs ie ip) <= length (held (objs 0%nat)) + length (held (objs 1%nat)) + length (held (objs 2%nat)) + length (held (objs 3%nat)))%nat.
Proof.
  unfold mu_offered. cbn [flat_map]. rewrite !app_length, !map_length. cbn [length].
  assert (G : forall m, (length (filter (mu_here ie ip m) (objs m)) <= length (held (objs m)))%nat) by (intros m; apply held_sub; intros x Hx; unfold mu_here in Hx; lia).
  pose proof (G 0%nat). pose proof (G 1%nat). pose proof (G 2%nat). pose proof (G 3%nat). lia.
Qed.
Lemma held_shifted s l : length (shifted s l) = length (held l).
Proof. unfold shifted, held. apply map_length. Qed.
Lemma pos_shifted s l : pos (shifted s l).
Proof. apply Forall_forall. intros o Ho. unfold shifted in Ho. apply in_map_iff in Ho as (x & <- & Hx). apply filter_In in Hx. cbn [r_pt]. lia. Qed.
Lemma shifted_sum f m k l : (k < 3)%nat -> (forall x, In x l -> 0 < r_pt x -> -60 < r_phi x <= 60) ->
  sumZ (map (fun x => mu_copies m x * f (r_pt x) (r_rest x)) (shifted (120 * (Z.of_nat k - 1)) l)) = sumZ (map (fun x => mu_copies12 (3 * m + k) x * f (r_pt x) (r_rest x)) (held l)).
Proof.
  intros Hk N. unfold shifted, held. rewrite map_map. f_equal. apply map_ext_in. intros x Hx. apply filter_In in Hx as [Hx Px]. specialize (N x Hx ltac:(lia)). cbn [r_pt r_rest].
  f_equal. unfold mu_copies, mu_copies12, eta_copies. cbn [r_phi r_eta]. rewrite wrapS10_small by lia. replace ((r_phi x + 120 * (Z.of_nat k - 1) + 360 * Z.of_nat m)) with (r_phi x + 120 * (Z.of_nat (3 * m + k) - 1)) by lia. reflexivity.
Qed.
Lemma c96_muon_chain nmu input out0 fibers work regions :
  dims2 12 nmu input -> dims2 4 nmu out0 -> merge_muon_in d nmu input out0 = Ok fibers ->
  (forall s x, (s < 12)%nat -> In x (nth s input []) -> 0 < r_pt x -> -60 < r_phi x <= 60) ->
  (length (flat_map held input) <= nmu)%nat ->
  dims3 4 3 nmu work -> dims2 18 nmu regions ->
  exists out rest static, regionize_muon_ref d nmu work fibers regions = Ok (out, rest, static) /\
    forall f, total_out f out = total_in mu_copies12 f 12 (fun s => nth s input []).
Proof.
  intros HI HO EM HN HL HW HR. destruct (merge_muon_in_kept d nmu input out0 HI HO) as (fibers' & EM' & [DF1 DF2] & KF). assert (fibers' = fibers) by congruence. subst fibers'. clear EM'.
  pose (I s := nth s input []). assert (LI : (length (flat_map held input) = length (held (I 0)) + length (held (I 1)) + length (held (I 2)) + length (held (I 3)) + length (held (I 4)) + length (held (I 5)) +
    length (held (I 6)) + length (held (I 7)) + length (held (I 8)) + length (held (I 9)) + length (held (I 10)) + length (held (I 11)))%nat).
  { destruct HI as [L12 _]. subst I. clear - L12. do 12 (destruct input as [|? input]; [discriminate|]). destruct input; [|discriminate]. cbn [flat_map nth]. rewrite !app_length. cbn [length]. lia. }
  assert (FL : forall m, (m < 4)%nat -> firstn nmu (nth m fibers []) = nth m fibers []) by (intros m Hm; apply firstn_all2; rewrite (DF2 (nth m fibers [])); [lia|apply nth_In; lia]).
  assert (P : forall m, (m < 4)%nat -> Permutation (held (nth m fibers [])) (shifted (-120) (I (3 * m)) ++ shifted 0 (I (3 * m + 1)) ++ shifted 120 (I (3 * m + 2)))%nat).
  { intros m Hm. destruct (kept_held nmu (shifted (-120) (nth (3 * m) input []) ++ shifted 0 (nth (3 * m + 1) input []) ++ shifted 120 (nth (3 * m + 2) input [])) (nth m fibers [])) as (lost & Q & F); [apply Forall_app; split; [apply pos_shifted|]; apply Forall_app; split; apply pos_shifted|exact (KF m Hm)|].
    rewrite F, app_nil_r in Q; [exact Q|]. rewrite !app_length, !held_shifted. fold (I (3 * m)%nat) (I (3 * m + 1)%nat) (I (3 * m + 2)%nat).
    destruct m as [|[|[|[|]]]]; try lia; cbn [Nat.mul Nat.add]; lia. }
  assert (SUM : forall f, total_in mu_copies f 4 (fun m => firstn nmu (nth m fibers [])) = total_in mu_copies12 f 12 I).
  { intros f. unfold total_in. change (map ?h (seq 0 4)) with [h 0%nat; h 1%nat; h 2%nat; h 3%nat]. cbv beta.
    assert (G : forall m, (m < 4)%nat -> sumZ (map (fun x => mu_copies m x * f (r_pt x) (r_rest x)) (held (firstn nmu (nth m fibers [])))) =
      sumZ (map (fun x => mu_copies12 (3 * m + 0) x * f (r_pt x) (r_rest x)) (held (I (3 * m + 0)%nat))) + (sumZ (map (fun x => mu_copies12 (3 * m + 1) x * f (r_pt x) (r_rest x)) (held (I (3 * m + 1)%nat))) + sumZ (map (fun x => mu_copies12 (3 * m + 2) x * f (r_pt x) (r_rest x)) (held (I (3 * m + 2)%nat))))).
    { intros m Hm. rewrite FL by exact Hm. rewrite (perm_sumZ _ _ (Permutation_map _ (P m Hm))), !map_app, !sumZ_app.
      rewrite <- !(shifted_sum f m) by (try (intros x; apply HN); lia). rewrite !Nat.add_0_r. reflexivity. }
    rewrite !G by lia. cbn [Nat.mul Nat.add seq map]. unfold sumZ. cbn [fold_right]. lia. }
  destruct (c96_muon nmu work fibers regions) as (out & rest & static & E & _ & _ & T); try assumption.
  - intros fib Hf. rewrite (DF2 fib Hf). lia.
  - intros fib y Hf Hy Py. apply In_nth with (d := []) in Hf as (m & Hm & <-). rewrite FL in Hy by lia.
    assert (Hh : In y (held (nth m fibers []))) by (apply filter_In; split; [exact Hy|lia]). apply (Permutation_in _ (P m ltac:(lia))) in Hh.
    assert (G : forall k s, (k < 3)%nat -> s = 120 * (Z.of_nat k - 1) -> In y (shifted s (I (3 * m + k)%nat)) -> -180 < r_phi y <= 180).
    { intros k s Hk Es Hin. unfold shifted in Hin. apply in_map_iff in Hin as (x & <- & Hx). apply filter_In in Hx as [Hx Px]. pose proof (HN (3 * m + k)%nat x ltac:(lia) Hx ltac:(lia)). cbn [r_phi]. rewrite wrapS10_small by lia. lia. }
    apply in_app_or in Hh as [Hh|Hh]; [apply (G 0%nat (-120)); [lia|lia|rewrite Nat.add_0_r; exact Hh]|].
    apply in_app_or in Hh as [Hh|Hh]; [apply (G 1%nat 0); [lia|lia|exact Hh]|apply (G 2%nat 120); [lia|lia|exact Hh]].
  - exists out, rest, static. split; [exact E|]. intros f. rewrite <- SUM. apply T. intros ie ip He Hp.
    eapply Nat.le_trans; [apply mu_offered_length|]. cbv beta. rewrite !FL by lia.
    rewrite (Permutation_length (P 0%nat ltac:(lia))), (Permutation_length (P 1%nat ltac:(lia))), (Permutation_length (P 2%nat ltac:(lia))), (Permutation_length (P 3%nat ltac:(lia))).
    rewrite !app_length, !held_shifted. cbn [Nat.mul Nat.add]. lia.
Qed.
End copies.
