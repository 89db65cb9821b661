(** C98: the chain from the fibres to the candidates. *)
From Verif Require Import Base BaseFacts TabFacts MapiFacts SortFacts Data PFHw PFRef SpecPF SpecPFRef SpecPFWrap SpecOut SpecLink TestUtils Puppi SpecPuppi PuppiProofs EncProofs
  SpecSort RankFacts Regionizer SpecRegion RegionFacts RegionLoops RegionProofs RegionMuon RegTest RegTestRun RegTestOk SpecChain
  Props_PFRef Props_PFWrap.

(** ** regions hold objects in range or cleared ones *)
Section good.
Context {A : Type} (d : A) (Q : A -> Prop) (HQ : Q d).
Definition good1 (x : robj A) : Prop := r_ok Q x /\ (0 < r_pt x \/ x = rclear d).
Definition good (n : nat) (o : list (list (robj A))) : Prop := length o = 18%nat /\ forall r, (r < 18)%nat -> length (nth r o []) = n /\ Forall good1 (nth r o []).

Lemma kept_good n l out : (forall x, In x l -> r_ok Q x /\ 0 < r_pt x) -> kept d n l out -> Forall good1 out.
Proof.
  intros H (top & T & ->). apply Forall_app. split; apply Forall_forall; intros x Hx.
  - apply (top_n_in _ _ _ _ _ _ T) in Hx. apply H in Hx as [? ?]. split; [assumption|left; assumption].
  - apply repeat_spec in Hx. subst. split; [apply clear_r; exact HQ|right; reflexivity].
Qed.
Lemma slice_good ie l x : Forall (r_ok Q) l -> In x (slice_cands ie l) -> r_ok Q x /\ 0 < r_pt x.
Proof.
  intros H Hx. split; [pose proof (slice_r Q ie l H) as G; rewrite Forall_forall in G; exact (G x Hx)|].
  apply in_map_iff in Hx as (y & <- & Hy). apply filter_In in Hy as [_ E]. apply andb_prop in E as [E _]. cbn [local_eta r_pt]. lia.
Qed.
Lemma region_good nsec n objs ie ip out : (forall s, Forall (r_ok Q) (objs s)) -> region_spec d nsec n objs ie ip out -> Forall good1 out.
Proof.
  intros H (t0 & t1 & t2 & T0 & T1 & T2 & K0). refine (kept_good _ _ _ _ K0).
  assert (G : forall j s t x, top_n r_pt false nsec (slice_cands ie (objs s)) t -> In x (map (local_phi j) t) -> r_ok Q x /\ 0 < r_pt x).
  { intros j s t x T Hx. apply in_map_iff in Hx as (y & <- & Hy). apply (top_n_in _ _ _ _ _ _ T) in Hy. apply (slice_good _ _ _ (H s)) in Hy as [Y P]. split; [exact (phi_r Q _ y Y)|exact P]. }
  intros x Hx. apply in_app_or in Hx as [Hx|Hx]; [exact (G _ _ _ _ T0 Hx)|]. apply in_app_or in Hx as [Hx|Hx]; [exact (G _ _ _ _ T1 Hx)|exact (G _ _ _ _ T2 Hx)].
Qed.
Lemma arrivals_ok nf cnt fibers s : Forall (Forall (r_ok Q)) fibers -> Forall (r_ok Q) (arrivals nf cnt fibers s).
Proof.
  intros H. apply Forall_forall. intros x Hx. unfold arrivals in Hx. apply in_flat_map in Hx as (io & _ & Hx). apply in_flat_map in Hx as (f & _ & Hx).
  destruct (nth_error (nth (nf * s + f) fibers []) io) eqn:E; [|destruct Hx]. destruct Hx as [<-|[]]. apply nth_error_In in E.
  destruct (nth_in_or_default (nf * s + f) fibers []) as [Hin|Hd]; [|rewrite Hd in E; destruct E]. rewrite Forall_forall in H. specialize (H _ Hin). rewrite Forall_forall in H. exact (H _ E).
Qed.
Lemma rows_good n o : dims2 18 n o -> (forall ie ip, (ie < 3)%nat -> (ip < 6)%nat -> Forall good1 (nth (6 * ie + ip) o [])) -> good n o.
Proof.
  intros [L N] H. split; [exact L|]. intros r Hr. split; [apply N; apply nth_In; lia|]. specialize (H (r / 6)%nat (r mod 6)%nat ltac:(lia) ltac:(lia)).
  replace (6 * (r / 6) + r mod 6)%nat with r in H by lia. exact H.
Qed.
Lemma ref_good nobj nsec nreg nf work fibers regions o rest static : dims3 12 3 nsec work -> dims2 18 nreg regions -> length fibers = (nf * 12)%nat ->
  (forall fib, In fib fibers -> (nobj / nf <= length fib)%nat) -> Forall (Forall (r_ok Q)) fibers ->
  regionize_ref d nobj nsec nreg nf work fibers regions = Ok (o, rest, static) -> good nreg o.
Proof.
  intros H1 H2 H3 H4 H5 E. destruct (regionize_ref_spec d nobj nsec nreg nf work fibers regions H1 H2 H3 H4) as (out & st & E' & _ & D & SP).
  rewrite E in E'. assert (o = out) by congruence. subst out. apply rows_good; [exact D|]. intros ie ip He Hp.
  refine (region_good _ _ _ _ _ _ _ (SP ie ip He Hp)). intros s. apply arrivals_ok. exact H5.
Qed.
Lemma muon_good nmu work fibers regions o rest static : dims3 4 3 nmu work -> dims2 18 nmu regions -> length fibers = 4%nat ->
  (forall fib, In fib fibers -> (nmu <= length fib)%nat) -> Forall (Forall (r_ok Q)) fibers ->
  regionize_muon_ref d nmu work fibers regions = Ok (o, rest, static) -> good nmu o.
Proof.
  intros H1 H2 H3 H4 H5 E. destruct (regionize_muon_spec d nmu work fibers regions H1 H2 H3 H4) as (out & st & E' & D & SP).
  rewrite E in E'. assert (o = out) by congruence. subst out. apply rows_good; [exact D|]. intros ie ip He Hp.
  destruct (SP ie ip He Hp) as [SS EK]. assert (R : Forall (r_ok Q) (nth (6 * ie + ip) o [])).
  { rewrite EK. refine (kept_r d Q HQ _ _ _ _ (kept_K d nmu _)). apply muon_r. intros s. apply arrivals_ok. exact H5. }
  destruct SS as (p & EP & _ & P & _). apply Forall_forall. intros x Hx. rewrite Forall_forall in R. split; [exact (R x Hx)|]. rewrite EP in Hx.
  apply in_app_or in Hx as [Hx|Hx]; [left; exact (P x Hx)|right; exact (repeat_spec _ _ _ Hx)].
Qed.
End good.

(** ** the four kinds of objects *)
Definition QH (r : Z * bool) : Prop := inS 16 (fst r) /\ 0 <= fst r.
Definition QE (r : Z) : Prop := inS 16 r /\ 0 <= r.
Definition QT (P : Z -> Prop) (r : Z * Z * bool) : Prop := inS 16 (fst (fst r)) /\ 0 <= fst (fst r) /\ P (fst (fst r)) /\ inS 10 (snd (fst r)).
Lemma lift {S T} (P : S -> Prop) (R : T -> Prop) (f : S -> T) l : (forall x, P x -> R (f x)) -> everywhere P l -> Forall (Forall R) (map (map f) l).
Proof. intros H L. apply Forall_map. eapply Forall_impl; [|exact L]. intros a La. apply Forall_map. eapply Forall_impl; [|exact La]. exact H. Qed.
Lemma fib_len {S T} n k (f : S -> T) l : fibres n k l -> length (map (map f) l) = n /\ forall b, In b (map (map f) l) -> (k <= length b)%nat.
Proof. intros [L H]. split; [rewrite map_length; exact L|]. intros b Hb. apply in_map_iff in Hb as (a & <- & Ha). rewrite map_length. exact (H a Ha). Qed.
Lemma nth_mm {S T} (f : S -> T) l r : nth r (map (map f) l) [] = map f (nth r l []).
Proof. change (@nil T) with (map f []) at 1. apply map_nth. Qed.
Lemma back {A T} (d : A) Q (P : T -> Prop) (f : robj A -> T) n o : (forall x, good1 d Q x -> P (f x)) -> good d Q n o ->
  forall r, (r < 18)%nat -> length (nth r (map (map f) o) []) = n /\ Forall P (nth r (map (map f) o) []).
Proof.
  intros H [_ G] r Hr. rewrite nth_mm, map_length. destruct (G r Hr) as [L F]. split; [exact L|]. apply Forall_map. eapply Forall_impl; [|exact F]. exact H.
Qed.

Lemma had_rows c e had : complete c e -> in_range e -> had_reference c e had -> forall r, (r < 18)%nat -> length (nth r had []) = NCALO c /\ Forall had_phys (nth r had []).
Proof.
  intros (C & _) (R & _) (w & g & o & rest & st & W & G & E & ->). destruct (fib_len _ _ r_of_had _ C) as [L1 L2].
  apply (back had_d QH).
  - intros x [(a & b & c0 & (q1 & q2)) B]. unfold had_phys, had_ok, had_of_r. cbn [h_pt h_eta h_phi h_empt]. assert (0 <= r_pt x) by (destruct B as [B| ->]; [lia|cbn; lia]). tauto.
  - eapply (ref_good had_d QH) with (nobj := 15%nat) (nsec := 7%nat) (nf := 1%nat); [split; [unfold inS; cbn; lia|cbn; lia]|exact W|exact G|exact L1|exact L2| |exact E].
    eapply lift; [|exact R]. intros h ((a & b & c0 & q) & q'). unfold r_ok, QH, r_of_had. cbn. tauto.
Qed.
Lemma em_rows c e em : complete c e -> in_range e -> em_reference c e em -> forall r, (r < 18)%nat -> length (nth r em []) = NEMCALO c /\ Forall em_phys (nth r em []).
Proof.
  intros (_ & C & _) (_ & R & _) (w & g & o & rest & st & W & G & E & ->). destruct (fib_len _ _ r_of_em _ C) as [L1 L2].
  apply (back 0 QE).
  - intros x [(a & b & c0 & (q1 & q2)) B]. unfold em_phys, em_ok, em_of_r. cbn [e_pt e_eta e_phi e_pterr]. assert (0 <= r_pt x) by (destruct B as [B| ->]; [lia|cbn; lia]). tauto.
  - eapply (ref_good 0 QE) with (nobj := 12%nat) (nsec := 7%nat) (nf := 1%nat); [split; [unfold inS; lia|lia]|exact W|exact G|exact L1|exact L2| |exact E].
    eapply lift; [|exact R]. intros h ((a & b & c0 & q) & q'). unfold r_ok, QE, r_of_em. cbn. tauto.
Qed.
Lemma tk_rows (P : Z -> Prop) c e tk : P 0 -> complete c e -> everywhere (fun t => (tk_ok t /\ 0 <= t_pterr t) /\ P (t_pterr t)) (ev_tk e) -> tk_reference c e tk ->
  forall r, (r < 18)%nat -> length (nth r tk []) = NTRACK c /\ Forall (fun t => tk_phys t /\ P (t_pterr t) /\ (t_pt t = 0 -> t = tk0)) (nth r tk []).
Proof.
  intros P0 (_ & _ & C & _) R (w & g & o & rest & st & W & G & E & ->). destruct (fib_len _ _ r_of_tk _ C) as [L1 L2].
  apply (back tk_d (QT P)).
  - intros x [(a & b & c0 & (q1 & q2 & q3 & q4)) B]. unfold tk_phys, tk_ok, tk_of_r. cbn [t_pt t_eta t_phi t_pterr t_z0]. assert (0 <= r_pt x) by (destruct B as [B| ->]; [lia|cbn; lia]).
    split; [tauto|]. split; [exact q3|]. intros Z. destruct B as [B| ->]; [lia|reflexivity].
  - eapply (ref_good tk_d (QT P)) with (nobj := 20%nat) (nsec := 9%nat) (nf := 2%nat); [unfold QT, inS; cbn; repeat split; try lia; exact P0|exact W|exact G|exact L1|exact L2| |exact E].
    eapply lift; [|exact R]. intros h (((a & b & c0 & q & z) & q') & p). unfold r_ok, QT, r_of_tk. cbn. tauto.
Qed.
Lemma mu_rows c e mu : complete c e -> in_range e -> mu_reference c e mu -> forall r, (r < 18)%nat -> length (nth r mu []) = NMU c /\ Forall mu_phys (nth r mu []).
Proof.
  intros (_ & _ & _ & C) (_ & _ & _ & R) (w & g & o & rest & st & W & G & E & ->). destruct (fib_len _ _ r_of_mu _ C) as [L1 L2].
  apply (back 0 Qem).
  - intros x [(a & b & c0 & q1) B]. unfold mu_phys, mu_ok, mu_of_r. cbn [m_pt m_eta m_phi m_pterr]. assert (0 <= r_pt x) by (destruct B as [B| ->]; [lia|cbn; lia]). unfold Qem in q1. tauto.
  - eapply (muon_good 0 Qem); [unfold Qem, inS; lia|exact W|exact G|exact L1|exact L2| |exact E].
    eapply lift; [|exact R]. intros h (a & b & c0 & q). unfold r_ok, Qem, r_of_mu. cbn. tauto.
Qed.

Lemma had_same c e had had' : (7 <= NCALO c)%nat -> complete c e -> had_firmware c e had -> had_reference c e had' -> had = had'.
Proof.
  intros N (C & _) (j & w & g & o & rest & W & G & E & ->) (w' & g' & o' & rest' & st & W' & G' & E' & ->). destruct (fib_len _ _ r_of_had _ C) as [L1 L2].
  destruct (regionize_equal had_d 15 7 (NCALO c) j w w' _ g g' N W W' G G' L1 L2) as (out & re & s & F & F'). unfold regionize_hadcalo in E. unfold regionize_hadcalo_ref in E'.
  change NCALO_PER_SECTOR with 15%nat in *. change NCALO_PER_SECTOR_PER_ETA with 7%nat in *. rewrite E in F. rewrite E' in F'. congruence.
Qed.

(** ** C98 *)
Lemma tk_range e : in_range e -> everywhere (fun t => (tk_ok t /\ 0 <= t_pterr t) /\ True) (ev_tk e).
Proof. intros (_ & _ & R & _). eapply Forall_impl; [|exact R]. intros a Ha. eapply Forall_impl; [|exact Ha]. cbn. tauto. Qed.
Lemma c98_legal c e had em tk mu r : complete c e -> in_range e -> had_reference c e had -> other_regions c e em tk mu -> (r < 18)%nat ->
  phys (nth r em []) (nth r had []) (nth r tk []) (nth r mu []) /\
  length (nth r em []) = NEMCALO c /\ length (nth r had []) = NCALO c /\ length (nth r tk []) = NTRACK c /\ length (nth r mu []) = NMU c /\
  Forall (fun t => t_pt t = 0 -> t = tk0) (nth r tk []).
Proof.
  intros C R H (E & T & M) Hr. destruct (had_rows c e had C R H r Hr) as [LH FH]. destruct (em_rows c e em C R E r Hr) as [LE FE]. destruct (mu_rows c e mu C R M r Hr) as [LM FM].
  destruct (tk_rows (fun _ => True) c e tk I C (tk_range e R) T r Hr) as [LT FT].
  split; [|repeat split; try assumption; eapply Forall_impl; [|exact FT]; cbn; tauto].
  split; [exact FE|]. split; [exact FH|]. split; [|exact FM]. eapply Forall_impl; [|exact FT]. cbn. tauto.
Qed.

Lemma legal_clean em had tk mu : Forall (fun t => t_pt t = 0 -> t = tk0) tk -> ~ DirtySlot em had tk mu.
Proof. intros H (i & t & h & E & Z & N & _). apply nth_error_In in E. rewrite Forall_forall in H. rewrite (H t E Z) in N. apply N. reflexivity. Qed.

Lemma ok_or {T} (x : res T) k I : ((exists o, x = Ok o) <-> I) -> (~ I -> x = UB k) -> (exists o, x = Ok o) \/ x = UB k.
Proof. intros A B. destruct x; [left; eexists; reflexivity|]. right. apply B. intros i. apply A in i as [o i]. discriminate. Qed.
Lemma c98_defined c e had em tk mu r mem mem' : complete c e -> in_range e -> had_reference c e had -> other_regions c e em tk mu -> (r < 18)%nat -> (NSELCALO c <= NCALO c)%nat ->
  ((exists o, pfalgo3_full mem (NSELCALO c) (nth r em []) (nth r had []) (nth r tk []) (nth r mu []) = Ok o) \/
   pfalgo3_full mem (NSELCALO c) (nth r em []) (nth r had []) (nth r tk []) (nth r mu []) = UB SignedOverflow) /\
  ((exists o, pfalgo3_full_ref mem' (NSELCALO c) (nth r em []) (nth r had []) (nth r tk []) (nth r mu []) = Ok o) \/
   pfalgo3_full_ref mem' (NSELCALO c) (nth r em []) (nth r had []) (nth r tk []) (nth r mu []) = UB SignedOverflow).
Proof.
  intros C R H O Hr N. destruct (c98_legal c e had em tk mu r C R H O Hr) as (P & _ & L & _).
  assert (N' : (NSELCALO c <= length (nth r had []))%nat) by lia.
  destruct (C72_defined_iff _ _ _ _ mem (NSELCALO c) P N') as [A B]. destruct (C73_defined_iff _ _ _ _ mem' (NSELCALO c) P N') as [A' B'].
  split; eapply ok_or; eassumption.
Qed.

(** agreeing candidates have the same weights *)
Lemma alpha_same z r o n m : Forall2 (fun a b => pf_equals_ch a b = true) r o -> n_eta n = n_eta m -> n_phi n = n_phi m -> alpha_sum z r n = alpha_sum z o m.
Proof.
  intros F E1 E2. unfold alpha_sum. f_equal. induction F as [|a b r o H F IH]; [reflexivity|]. cbn [map]. f_equal; [|exact IH].
  unfold pf_equals_ch in H. unfold alpha_term. rewrite E1, E2. destruct (Z.eqb_spec (c_pt a) 0) as [Z|Z].
  - apply Z.eqb_eq in H. rewrite Z, H. cbn [Z.mul Z.div]. change (Z.min (0 * 0 / 32) 131071) with 0. rewrite !Z.mul_0_l. destruct (_ && _), (_ && _); reflexivity.
  - repeat (apply andb_prop in H as [H ?]). repeat match goal with h : (_ =? _) = true |- _ => apply Z.eqb_eq in h end.
    replace (c_z0 b) with (c_z0 a) by assumption. replace (c_eta b) with (c_eta a) by assumption. replace (c_phi b) with (c_phi a) by assumption. replace (c_pt b) with (c_pt a) by assumption. reflexivity.
Qed.
Lemma ne_pt_same a b : pf_equals_ne a b = true -> n_pt a = n_pt b /\ (n_pt a <> 0 -> n_eta a = n_eta b /\ n_phi a = n_phi b /\ n_id a = n_id b).
Proof.
  unfold pf_equals_ne. destruct (Z.eqb_spec (n_pt a) 0) as [Z|Z]; intros H.
  - apply Z.eqb_eq in H. split; [lia|tauto].
  - repeat (apply andb_prop in H as [H ?]). repeat match goal with h : (_ =? _) = true |- _ => apply Z.eqb_eq in h end. tauto.
Qed.
Lemma ch_pt_same a b : pf_equals_ch a b = true -> c_pt a = c_pt b.
Proof.
  unfold pf_equals_ch. destruct (Z.eqb_spec (c_pt a) 0) as [Z|Z]; intros H.
  - apply Z.eqb_eq in H. lia.
  - repeat (apply andb_prop in H as [H ?]). repeat match goal with h : (_ =? _) = true |- _ => apply Z.eqb_eq in h end. assumption.
Qed.
Lemma Forall2_pt {S} (eqb : S -> S -> bool) (pt : S -> Z) (P : Z -> Prop) r o : (forall a b, eqb a b = true -> pt a = pt b) ->
  Forall2 (fun a b => eqb a b = true) r o -> Forall (fun x => P (pt x)) o -> Forall (fun x => P (pt x)) r.
Proof. intros H F. induction F as [|a b r o E F IH]; intros G; [constructor|]. inversion G; subst. constructor; [rewrite (H a b E); assumption|auto]. Qed.
Lemma puppi_same tab z rch och rne one : table_ok tab ->
  Forall2 (fun a b => pf_equals_ch a b = true) rch och -> Forall2 (fun a b => pf_equals_ne a b = true) rne one ->
  Forall (fun c => inS 16 (c_pt c)) och -> Forall (fun n => inS 16 (n_pt n)) one -> (forall n, In n one -> alpha_sum z och n < 2147483648) ->
  exists a b, simple_puppi_hw tab och one z = Ok a /\ simple_puppi_ref tab rch rne z = Ok b /\ Forall2 same_weighted a b.
Proof.
  intros HT HC HN RC RN HS. eexists _, _. split; [apply hw_spec; assumption|]. split.
  - apply ref_spec; [exact HT|exact (Forall2_pt pf_equals_ch c_pt (inS 16) _ _ ch_pt_same HC RC)|exact (Forall2_pt pf_equals_ne n_pt (inS 16) _ _ (fun a b e => proj1 (ne_pt_same a b e)) HN RN)|].
    intros n Hn Z. apply In_nth_error in Hn as (i & Hi). assert (X : exists m, nth_error one i = Some m /\ pf_equals_ne n m = true).
    { clear -HN Hi. revert i Hi. induction HN as [|a b r o E F IH]; intros [|i] Hi; try discriminate; [exists b; split; [reflexivity|]; injection Hi as ->; exact E|exact (IH i Hi)]. }
    destruct X as (m & Hm & E). apply ne_pt_same in E as [_ E]. destruct (E Z) as (E1 & E2 & _). rewrite (alpha_same z rch och n m HC E1 E2). apply HS. eapply nth_error_In; exact Hm.
  - clear RN HS. induction HN as [|a b r o E F IH]; [constructor|]. cbn [map]. constructor; [|exact IH]. apply ne_pt_same in E as [E0 E]. unfold same_weighted.
    destruct (Z.eqb_spec (n_pt a) 0) as [Z|Z]; cbn [set_puppi n_pt]; (split; [lia|]); intros Z'; [lia|]. destruct (E Z) as (E1 & E2 & E3). unfold set_puppi.
    rewrite (alpha_same z rch och a b HC E1 E2), E0, E1, E2, E3. reflexivity.
Qed.

Lemma c98_chain c e had had' em tk mu r mem mem' ref : (7 <= NCALO c)%nat -> (NSELCALO c <= NCALO c)%nat -> complete c e -> in_range e ->
  had_firmware c e had -> had_reference c e had' -> other_regions c e em tk mu -> (r < 18)%nat ->
  ~ NegativeSum (nth r em []) (nth r had' []) (nth r tk []) (nth r mu []) ->
  ~ KeepConflict_w (nth r em []) (nth r had' []) (nth r tk []) (nth r mu []) ->
  ~ ErrOneConflict (nth r em []) (nth r had' []) (nth r tk []) (nth r mu []) ->
  pfalgo3_full_ref mem' (NSELCALO c) (nth r em []) (nth r had' []) (nth r tk []) (nth r mu []) = Ok ref ->
  exists o, pfalgo3_full mem (NSELCALO c) (nth r em []) (nth r had []) (nth r tk []) (nth r mu []) = Ok o /\ agree ref o.
Proof.
  intros N7 N C R HF H O Hr H1 H2 H3 E. rewrite (had_same c e had had' N7 C HF H).
  destruct (c98_legal c e had' em tk mu r C R H O Hr) as (P & _ & L & _ & _ & Cl).
  eapply C01_agree_where_reference_defined_partial; try eassumption; [lia|apply legal_clean; exact Cl].
Qed.

Lemma c98_puppi c e had had' em tk mu r mem mem' ref tab z o : (7 <= NCALO c)%nat -> (NSELCALO c <= NCALO c)%nat -> complete c e -> in_range e ->
  had_firmware c e had -> had_reference c e had' -> other_regions c e em tk mu -> (r < 18)%nat -> (forall i, ne_ok (junk_tmp mem i)) ->
  ~ NegativeSum (nth r em []) (nth r had' []) (nth r tk []) (nth r mu []) ->
  ~ KeepConflict_w (nth r em []) (nth r had' []) (nth r tk []) (nth r mu []) ->
  ~ ErrOneConflict (nth r em []) (nth r had' []) (nth r tk []) (nth r mu []) ->
  pfalgo3_full_ref mem' (NSELCALO c) (nth r em []) (nth r had' []) (nth r tk []) (nth r mu []) = Ok ref ->
  pfalgo3_full mem (NSELCALO c) (nth r em []) (nth r had []) (nth r tk []) (nth r mu []) = Ok o ->
  table_ok tab -> (forall n, In n (o_pho o ++ o_ne o) -> alpha_sum z (o_ch o) n < 2147483648) ->
  exists a b, simple_puppi_hw tab (o_ch o) (o_pho o ++ o_ne o) z = Ok a /\ simple_puppi_ref tab (o_ch ref) (o_pho ref ++ o_ne ref) z = Ok b /\ Forall2 same_weighted a b.
Proof.
  intros N7 N C R HF H O Hr HJ H1 H2 H3 E E' HT HS.
  destruct (c98_chain c e had had' em tk mu r mem mem' ref N7 N C R HF H O Hr H1 H2 H3 E) as (o' & E'' & (A1 & A2 & A3 & _)). assert (o' = o) by congruence. subst o'.
  rewrite (had_same c e had had' N7 C HF H) in E'. destruct (c98_legal c e had' em tk mu r C R H O Hr) as ((P1 & P2 & P3 & _) & _).
  destruct (pf_ranges mem (NSELCALO c) (nth r em []) (nth r had' []) (nth r tk []) (nth r mu []) o) as (Q1 & Q2 & Q3 & _); try assumption.
  { eapply Forall_impl; [|exact P1]. intros x Hx; apply Hx. } { eapply Forall_impl; [|exact P2]. intros x Hx; apply Hx. } { eapply Forall_impl; [|exact P3]. intros x Hx; apply Hx. }
  apply puppi_same; try assumption.
  - apply Forall2_app; assumption.
  - eapply Forall_impl; [|exact Q1]. intros x Hx; apply Hx.
  - apply Forall_app. split; [eapply Forall_impl; [|exact Q2]|eapply Forall_impl; [|exact Q3]]; intros x Hx; apply Hx.
Qed.

(** ** the runs exist *)
Definition blank {A} (d : A) (n m k : nat) : list (list (list (robj A))) := repeat (repeat (repeat (rclear d) k) m) n.
Lemma dims2_blank {A} (d : A) n k : dims2 n k (repeat (repeat (rclear d) k) n).
Proof. split; [apply repeat_length|]. intros a Ha. apply repeat_spec in Ha. subst. apply repeat_length. Qed.
Lemma dims3_blank {A} (d : A) n m k : dims3 n m k (blank d n m k).
Proof. split; [apply repeat_length|]. intros a Ha. apply repeat_spec in Ha. subst. apply dims2_blank. Qed.
Lemma c98_runs c e : (7 <= NCALO c)%nat -> complete c e -> exists had em tk mu, had_firmware c e had /\ had_reference c e had /\ other_regions c e em tk mu.
Proof.
  intros N (C1 & C2 & C3 & C4).
  destruct (fib_len _ _ r_of_had _ C1) as [A1 B1]. destruct (fib_len _ _ r_of_em _ C2) as [A2 B2]. destruct (fib_len _ _ r_of_tk _ C3) as [A3 B3]. destruct (fib_len _ _ r_of_mu _ C4) as [A4 B4].
  destruct (regionize_equal had_d 15 7 (NCALO c) (fun _ _ => rclear had_d) _ _ _ _ _ N (dims3_blank had_d 12 3 7) (dims3_blank had_d 12 3 7) (dims2_blank had_d 18 (NCALO c)) (dims2_blank had_d 18 (NCALO c)) A1 B1) as (o1 & r1 & s1 & E1 & E1').
  destruct (regionize_ref_spec 0 12 7 (NEMCALO c) 1 _ _ _ (dims3_blank 0 12 3 7) (dims2_blank 0 18 (NEMCALO c)) A2 B2) as (o2 & s2 & E2 & _).
  destruct (regionize_ref_spec tk_d 20 9 (NTRACK c) 2 _ _ _ (dims3_blank tk_d 12 3 9) (dims2_blank tk_d 18 (NTRACK c)) A3 B3) as (o3 & s3 & E3 & _).
  destruct (regionize_muon_spec 0 (NMU c) _ _ _ (dims3_blank 0 4 3 (NMU c)) (dims2_blank 0 18 (NMU c)) A4 B4) as (o4 & s4 & E4 & _).
  exists (map (map had_of_r) o1), (map (map em_of_r) o2), (map (map tk_of_r) o3), (map (map mu_of_r) o4).
  split; [|split; [|split; [|split]]].
  - eexists _, _, _, _, _. split; [apply dims3_blank|]. split; [apply dims2_blank|]. split; [exact E1|reflexivity].
  - eexists _, _, _, _, _. split; [apply dims3_blank|]. split; [apply dims2_blank|]. split; [exact E1'|reflexivity].
  - eexists _, _, _, _, _. split; [apply dims3_blank|]. split; [apply dims2_blank|]. split; [exact E2|reflexivity].
  - eexists _, _, _, _, _. split; [apply dims3_blank|]. split; [apply dims2_blank|]. split; [exact E3|reflexivity].
  - eexists _, _, _, _, _. split; [apply dims3_blank|]. split; [apply dims2_blank|]. split; [exact E4|reflexivity].
Qed.

(** ** charged candidates are tracks on the fibres *)
Lemma tk_origin c e tk ie ip t : complete c e -> (ie < 3)%nat -> (ip < 6)%nat -> tk_reference c e tk ->
  everywhere (fun t => -392 <= t_phi t <= 391) (ev_tk e) -> In t (nth (6 * ie + ip) tk []) -> 0 < t_pt t ->
  exists s f u, (s < 12)%nat /\ (f < 2)%nat /\ In u (firstn 10 (nth (2 * s + f) (ev_tk e) [])) /\ t_pt t = t_pt u /\ t_z0 t = t_z0 u /\
    region_eta ie (t_eta t) = t_eta u /\ region_phi ip (t_phi t) = sector_phi s (t_phi u).
Proof.
  intros (_ & _ & C & _) He Hp (w & g & o & rest & st & W & G & E & ->) HP Ht P. destruct (fib_len _ _ r_of_tk _ C) as [L1 L2].
  destruct (regionize_ref_spec tk_d 20 9 (NTRACK c) 2 w _ g W G L1 L2) as (out & s' & E' & _ & _ & SP). unfold regionize_track_ref in E.
  change NTRACK_PER_SECTOR with 20%nat in E. change NTRACK_PER_SECTOR_PER_ETA with 9%nat in E. rewrite E in E'. assert (o = out) by congruence. subst out. clear E E'.
  rewrite nth_mm in Ht. apply in_map_iff in Ht as (y & <- & Hy).
  destruct (region_origin tk_d 9 (NTRACK c) _ ie ip _ y He Hp (SP ie ip He Hp) Hy P) as (j & x & Hj & Hx & _ & ->). clear Hy SP.
  unfold arrivals in Hx. change (20 / 2)%nat with 10%nat in Hx. apply in_flat_map in Hx as (io & Hio & Hx). apply in_flat_map in Hx as (f & Hf & Hx). apply in_seq in Hio, Hf.
  destruct (nth_error (nth (2 * region_sector ip j + f) (map (map r_of_tk) (ev_tk e)) []) io) eqn:E; [|destruct Hx]. destruct Hx as [<-|[]]. rewrite nth_mm in E.
  rewrite nth_error_map in E. destruct (nth_error (nth (2 * region_sector ip j + f) (ev_tk e) []) io) as [u|] eqn:Eu; [|discriminate]. injection E as <-.
  exists (region_sector ip j), f, u. split; [apply Nat.mod_upper_bound; lia|]. split; [lia|].
  assert (Hu : In u (firstn 10 (nth (2 * region_sector ip j + f) (ev_tk e) []))).
  { apply nth_error_In with (n := io). rewrite SortFacts.nth_error_firstn. destruct (Nat.ltb_spec io 10); [exact Eu|lia]. }
  split; [exact Hu|]. split; [reflexivity|]. split; [reflexivity|].
  assert (Hphi : -392 <= r_phi (r_of_tk u) <= 391).
  { cbn [r_of_tk r_phi]. destruct (nth_in_or_default (2 * region_sector ip j + f) (ev_tk e) []) as [Hin|Hd]; [|rewrite Hd in Eu; destruct io; discriminate].
    unfold everywhere in HP. rewrite Forall_forall in HP. specialize (HP _ Hin). rewrite Forall_forall in HP. apply HP. eapply nth_error_In; exact Eu. }
  destruct (local_coordinates ip ie j (r_of_tk u) Hp Hj Hphi) as [Q1 Q2]. cbn [tk_of_r t_eta t_phi]. split; [exact Q2|exact Q1].
Qed.

Lemma ch_from em had track mu mem nsel o x : phys em had track mu -> (nsel <= length had)%nat -> pfalgo3_full mem nsel em had track mu = Ok o \/ pfalgo3_full_ref mem nsel em had track mu = Ok o ->
  In x (o_ch o ++ o_mu o) -> c_pt x <> 0 -> exists t, In t track /\ c_pt x = t_pt t /\ c_eta x = t_eta t /\ c_phi x = t_phi t /\ c_z0 x = t_z0 t.
Proof.
  intros P N E Hx Z.
  assert (X : In x (o_mu o) -> o_mu o = map (sp_mu track) mu -> exists t, In t track /\ c_pt x = t_pt t /\ c_eta x = t_eta t /\ c_phi x = t_phi t /\ c_z0 x = t_z0 t).
  { intros Hm Em. rewrite Em in Hm. apply in_map_iff in Hm as (m & <- & _). unfold sp_mu in *. destruct (mu_match track m) as [i|]; [|cbn in Z; lia].
    destruct (nth_error track i) as [t|] eqn:Et; [|cbn in Z; lia]. exists t. split; [eapply nth_error_In; exact Et|]. repeat split. }
  destruct E as [E|E].
  - destruct (C72_result _ _ _ _ _ _ _ P N E) as (R1 & _ & _ & R4). apply in_app_or in Hx as [Hx|Hx]; [|exact (X Hx R4)].
    rewrite R1 in Hx. apply in_mapi in Hx as (i & t & Et & ->). exists t. split; [eapply nth_error_In; exact Et|]. unfold sp_ch_w in *. destruct (ch_kept_w _ _ _ _ _ _); [repeat split|cbn in Z; lia].
  - destruct (C73_result _ _ _ _ _ _ _ P N E) as (R1 & _ & _ & R4). apply in_app_or in Hx as [Hx|Hx]; [|exact (X Hx R4)].
    rewrite R1 in Hx. apply in_mapi in Hx as (i & t & Et & ->). exists t. split; [eapply nth_error_In; exact Et|]. unfold sp_ch_r in *. destruct (ch_kept_r _ _ _ _ _ _ _); [repeat split|cbn in Z; lia].
Qed.
Lemma c98_charged c e had em tk mu ie ip mem o x : (NSELCALO c <= NCALO c)%nat -> complete c e -> in_range e -> everywhere (fun t => -392 <= t_phi t <= 391) (ev_tk e) ->
  had_reference c e had -> other_regions c e em tk mu -> (ie < 3)%nat -> (ip < 6)%nat ->
  let r := (6 * ie + ip)%nat in
  pfalgo3_full mem (NSELCALO c) (nth r em []) (nth r had []) (nth r tk []) (nth r mu []) = Ok o \/
  pfalgo3_full_ref mem (NSELCALO c) (nth r em []) (nth r had []) (nth r tk []) (nth r mu []) = Ok o ->
  In x (o_ch o ++ o_mu o) -> c_pt x <> 0 -> 0 < c_pt x /\ from_track e ie ip x.
Proof.
  intros N C R HP H O He Hp r E Hx Z. assert (Hr : (r < 18)%nat) by (unfold r; lia).
  destruct (c98_legal c e had em tk mu r C R H O Hr) as (P & _ & L & _). destruct P as (P1 & P2 & P3 & P4).
  destruct (ch_from _ _ _ _ mem (NSELCALO c) o x (conj P1 (conj P2 (conj P3 P4))) ltac:(lia) E Hx Z) as (t & Ht & E1 & E2 & E3 & E4).
  rewrite Forall_forall in P3. destruct (P3 t Ht) as (_ & P0 & _). split; [lia|]. destruct O as (_ & T & _).
  destruct (tk_origin c e tk ie ip t C He Hp T HP Ht ltac:(lia)) as (s & f & u & Hs & Hf & Hu & U1 & U2 & U3 & U4).
  exists s, f, u. rewrite E1, E2, E3, E4. repeat (split; [assumption|]). assumption.
Qed.
