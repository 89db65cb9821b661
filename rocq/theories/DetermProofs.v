(** Proofs of C94: the test programs do not show what was in memory. *)
From Coq Require Import Ascii.
From Verif Require Import Base BaseFacts MapiFacts Data PFHw PFRef PFTotal Encoding SpecEnc Puppi Vtx TestUtils SpecLink SpecPF SpecOut HumanRead Discrete Convert DiscreteIO SpecIO RegionLoop PFTest SpecTest PFTestProofs SpecMemory MemProofs SpecDeterm
  Regionizer SpecRegion RegionFacts RegTest RegFiles SpecRegTest SpecRegFiles RegTestProofs RegTestRun RegPackProofs RegTestFinal Replay2Proofs Bhv SpecBhv BhvTest SpecBhvTest BhvTestProofs BhvFileProofs PuppiTest.

Lemma F2_fun {A B} (P : A -> B -> Prop) (HP : forall a b b', P a b -> P a b' -> b = b') : forall l m m', Forall2 P l m -> Forall2 P l m' -> m = m'.
Proof. induction l as [|a l IH]; intros m m' H H'; inversion H; inversion H'; subst; [reflexivity|]. f_equal; [eapply HP; eassumption|apply IH; assumption]. Qed.

(** ** The vertex finder *)
Lemma btest_fun e t t' : btest_of e t -> btest_of e t' -> t = t'.
Proof. destruct t, t'. unfold btest_of. cbn. intros (-> & H1 & H2 & H3 & H4) (-> & K1 & K2 & K3 & K4). congruence. Qed.
Lemma c94_vertex g g' arr arr' tmp tmp' evs : dims2 24 18 arr -> length tmp = 36%nat -> dims2 24 18 arr' -> length tmp' = 36%nat -> Forall event_wf evs ->
  bhv_main (Ok true) g arr tmp (Some (dump evs)) = bhv_main (Ok true) g' arr' tmp' (Some (dump evs)).
Proof.
  intros D L D' L' HE. destruct (c61_run g arr tmp evs D L HE) as (t & -> & F). destruct (c61_run g' arr' tmp' evs D' L' HE) as (t' & -> & F').
  rewrite (F2_fun _ btest_fun _ _ _ F F'). reflexivity.
Qed.
Lemma c94_vertex_files g arr tmp old old' evs code nerr tests : dims2 24 18 arr -> length tmp = 36%nat -> dims2 18 24 old -> dims2 18 24 old' -> Forall event_wf evs ->
  bhv_main (Ok true) g arr tmp (Some (dump evs)) = Ok (code, nerr, tests) -> bhv_mp7_files tests old = bhv_mp7_files tests old'.
Proof. intros D L O O' HE R. rewrite (c62_patterns _ _ _ _ _ _ _ _ D L O HE R), (c62_patterns _ _ _ _ _ _ _ _ D L O' HE R). reflexivity. Qed.

(** ** The regionizers *)
Lemma map_inj {A B} (f : A -> B) (H : forall x y, f x = f y -> x = y) : forall l m, map f l = map f m -> l = m.
Proof. induction l as [|x l IH]; intros [|y m] E; try discriminate E; [reflexivity|]. injection E as E1 E2. f_equal; auto. Qed.
Lemma had_inj x y : r_of_had x = r_of_had y -> x = y. Proof. destruct x, y. unfold r_of_had. cbn. congruence. Qed.
Lemma em_inj x y : r_of_em x = r_of_em y -> x = y. Proof. destruct x, y. unfold r_of_em. cbn. congruence. Qed.
Lemma tk_inj x y : r_of_tk x = r_of_tk y -> x = y. Proof. destruct x, y. unfold r_of_tk. cbn. congruence. Qed.
Lemma mu_inj x y : r_of_mu x = r_of_mu y -> x = y. Proof. destruct x, y. unfold r_of_mu. cbn. congruence. Qed.
Lemma regions_fun {T A} (to_r : T -> robj A) (HI : forall x y, to_r x = to_r y -> x = y) d nsec n arrays o o' : regions_of to_r d nsec n arrays o -> regions_of to_r d nsec n arrays o' -> o = o'.
Proof.
  intros ([L _] & H) ([L' _] & H'). apply (nth_ext _ _ [] []); [congruence|]. intros i Hi. rewrite L in Hi.
  replace i with (6 * (i / 6) + i mod 6)%nat by (pose proof (Nat.div_mod i 6); lia).
  assert (Q : (i / 6 < 3)%nat) by (apply Nat.div_lt_upper_bound; lia). assert (Q' : (i mod 6 < 6)%nat) by (apply Nat.mod_upper_bound; lia).
  apply (map_inj to_r HI). eapply region_spec_fun; [apply H|apply H']; assumption.
Qed.
Lemma test_fun c e t t' : test_of c e t -> test_of c e t' -> t = t'.
Proof.
  destruct t as [[a1 a2 a3 a4 a5] b1 b2 b3 b4], t' as [[x1 x2 x3 x4 x5] y1 y2 y3 y4]. unfold test_of. cbn.
  intros (-> & -> & -> & -> & ([L D] & M) & R1 & R2 & R3 & ([L4 D4] & R4)) (-> & -> & -> & -> & ([L' D'] & M') & R1' & R2' & R3' & ([L4' D4'] & R4')).
  assert (E5 : a5 = x5). { apply (nth_ext _ _ [] []); [congruence|]. intros m Hm. rewrite L in Hm. apply (map_inj _ mu_inj). eapply kept_unique; [apply (M m Hm)|apply (M' m Hm)]. }
  subst x5. rewrite (regions_fun _ had_inj _ _ _ _ _ _ R1 R1'), (regions_fun _ em_inj _ _ _ _ _ _ R2 R2'), (regions_fun _ tk_inj _ _ _ _ _ _ R3 R3').
  assert (E : b4 = y4); [|rewrite E; reflexivity].
  set (w := repeat (repeat (repeat (mkR 0 0 0 0) (NMU c)) 3) 4). set (r := repeat (repeat (mkR 0 0 0 0) (NMU c)) 18).
  assert (W : dims3 4 3 (NMU c) w). { unfold w. split; [apply repeat_length|]. intros x Hx. apply repeat_spec in Hx as ->. split; [apply repeat_length|]. intros y Hy. apply repeat_spec in Hy as ->. apply repeat_length. }
  assert (R : dims2 18 (NMU c) r). { unfold r. split; [apply repeat_length|]. intros y Hy. apply repeat_spec in Hy as ->. apply repeat_length. }
  destruct (R4 w r W R) as (s & E). destruct (R4' w r W R) as (s' & E'). rewrite E in E'. injection E' as E' _. apply (map_inj _ (map_inj _ mu_inj)). exact E'.
Qed.
Lemma c94_regions c junk junk' work work' g g' st0 st0' evs : memory_ok c st0 -> memory_ok c st0' -> (forall t, dims3 12 3 7 (work t)) -> (forall t, dims3 12 3 7 (work' t)) -> Forall event_wf evs ->
  reg_main c (Ok true) junk work g st0 (Some (dump evs)) = reg_main c (Ok true) junk' work' g' st0' (Some (dump evs)).
Proof.
  intros M M' W W' HE. pose proof (c58_main c junk work g st0 evs M W HE) as A. pose proof (c58_main c junk' work' g' st0' evs M' W' HE) as B.
  destruct (verdict (NCALO c) (firstn 50 evs)); [|congruence]. destruct A as (t & -> & F), B as (t' & -> & F'). rewrite (F2_fun _ (test_fun c) _ _ _ F F'). reflexivity.
Qed.
Lemma c94_region_files c junk work g st0 evs code tests old old' : memory_ok c st0 -> (forall t, dims3 12 3 7 (work t)) -> Forall event_wf evs -> trans_ok c old -> trans_ok c old' -> out_fits c ->
  reg_main c (Ok true) junk work g st0 (Some (dump evs)) = Ok (code, tests) -> reg_mp7_files c tests old = reg_mp7_files c tests old'.
Proof. intros M W HE O O' F R. rewrite (c60_run _ _ _ _ _ _ _ _ _ M W HE O F R), (c60_run _ _ _ _ _ _ _ _ _ M W HE O' F R). reflexivity. Qed.

(** ** PUPPI *)
Lemma scan_z0 vb sb : forall l o o', x_sum o = x_sum o' -> x_z0 o = x_z0 o' -> x_mult o = x_mult o' ->
  match foldM (vtx_ref_scan vb sb) l o, foldM (vtx_ref_scan vb sb) l o' with Ok x, Ok y => x_z0 x = x_z0 y | UB k, UB k' => k = k' | _, _ => False end.
Proof.
  induction l as [|i l IH]; intros o o' E1 E2 E3; [exact E2|]. cbn [foldM]. unfold vtx_ref_scan. rewrite <- E1. destruct (rd sb i) as [s|]; cbn [bind]; [|reflexivity].
  destruct (s >? x_sum o); [|cbn [bind]; apply IH; assumption]. destruct (rd vb i); cbn [bind]; [|reflexivity]. apply IH; reflexivity.
Qed.
Lemma vtx_z0 tks old old' : match simple_vtx_ref tks old, simple_vtx_ref tks old' with Ok x, Ok y => x_z0 x = x_z0 y | UB k, UB k' => k = k' | _, _ => False end.
Proof.
  unfold simple_vtx_ref. destruct (foldM vtx_ref_fill tks _) as [[vb sb]|]; cbn [bind]; [|reflexivity].
  pose proof (scan_z0 vb sb (seq 0 NVTXBINS) (Vtx.mkVtx 0 0 0 (x_id old)) (Vtx.mkVtx 0 0 0 (x_id old')) eq_refl eq_refl eq_refl) as H.
  destruct (foldM _ _ (Vtx.mkVtx 0 0 0 (x_id old))), (foldM _ _ (Vtx.mkVtx 0 0 0 (x_id old'))); cbn [bind]; exact H.
Qed.
Lemma zeroed l l' : Forall2 same_ne l l' -> map (fun n => mkNe (n_pt n) (n_eta n) (n_phi n) (n_id n) 0) l = map (fun n => mkNe (n_pt n) (n_eta n) (n_phi n) (n_id n) 0) l'.
Proof. induction 1 as [|x y l l' (E1 & E2 & E3 & E4) H IH]; [reflexivity|]. cbn [map]. rewrite E1, E2, E3, E4, IH. reflexivity. Qed.
Lemma pp_body_same c tab nall mr mr' vold vold' test st r : pp_body c tab nall mr vold test st r = pp_body c tab nall mr' vold' test st r.
Proof.
  unfold pp_body. pose proof (reference_same (mr test) (mr' test) (NSELCALO c) (fw_emcalo r) (fw_calo r) (fw_track r) (fw_muon r)) as H.
  destruct (pfalgo3_full_ref (mr test) _ _ _ _ _) as [q|k], (pfalgo3_full_ref (mr' test) _ _ _ _ _) as [q'|k']; cbn [same_result bind] in *; try contradiction; [|congruence].
  destruct H as (E1 & E2 & E3 & _). cbv zeta. rewrite (zeroed _ _ (Forall2_app E2 E3)), E1. destruct (mapM _ (seq 0 nall)) as [tks|]; cbn [bind]; [|reflexivity].
  pose proof (vtx_z0 tks (vold test) (vold' test)) as V. destruct (simple_vtx_ref tks (vold test)), (simple_vtx_ref tks (vold' test)); cbn [bind] in *; try contradiction; [|congruence]. rewrite V. reflexivity.
Qed.
Lemma walk_ext {S} (f h : nat -> S -> fwregion -> res (S * option Z)) : (forall t s r, f t s r = h t s r) -> forall l t s, walk f t s l = walk h t s l.
Proof. intros H. induction l as [|r l IH]; intros t s; [reflexivity|]. cbn [walk]. rewrite H. destruct (h t s r) as [[s1 [x|]]|]; cbn [bind]; auto. Qed.
Lemma c94_puppi c special tab nall mr mr' vold vold' g g' arr arr' evs : arrays_ok c arr -> arrays_ok c arr' -> Forall good_event evs ->
  exists N, forall fuel fuel', (N <= fuel)%nat -> (N <= fuel')%nat ->
    exists r, pp_main c special (Ok true) fuel tab nall mr vold g arr (Some (dump evs)) = Some r /\ pp_main c special (Ok true) fuel' tab nall mr' vold' g' arr' (Some (dump evs)) = Some r.
Proof.
  intros A A' HG. unfold pp_main. destruct (inputs_open g (Some (dump evs))) as [s|k] eqn:EO; [|discriminate EO]. destruct (inputs_open g' (Some (dump evs))) as [s'|k] eqn:EO'; [|discriminate EO'].
  destruct (loop_dump c special clear_arrays (pp_body c tab nall mr vold) (clear_ok c) PP_NTEST g evs s HG EO) as (N & HW).
  destruct (loop_dump c special clear_arrays (pp_body c tab nall mr' vold') (clear_ok c) PP_NTEST g' evs s' HG EO') as (N' & HW').
  exists (Nat.max N N'). intros fuel fuel' Hf Hf'. rewrite (HW fuel 1%nat [] arr) by (assumption || lia). rewrite (HW' fuel' 1%nat [] arr') by (assumption || lia).
  rewrite (walk_ext _ _ (pp_body_same c tab nall mr mr' vold vold')). destruct (walk _ _ _ _) as [[o x]|k]; eauto.
Qed.

(** ** Particle flow *)
Lemma same_sym a b : same_ne a b -> same_ne b a.
Proof. intros (E1 & E2 & E3 & E4). repeat split; congruence. Qed.
Lemma same_trans a b d : same_ne a b -> same_ne b d -> same_ne a d.
Proof. intros (E1 & E2 & E3 & E4) (K1 & K2 & K3 & K4). repeat split; congruence. Qed.
Lemma F2_sym {A} (R : A -> A -> Prop) (HR : forall x y, R x y -> R y x) l m : Forall2 R l m -> Forall2 R m l.
Proof. induction 1; constructor; auto. Qed.
Lemma F2_trans {A} (R : A -> A -> Prop) (HR : forall x y z, R x y -> R y z -> R x z) l m : Forall2 R l m -> forall n, Forall2 R m n -> Forall2 R l n.
Proof. induction 1; intros n H'; inversion H'; subst; constructor; eauto. Qed.
Lemma same_out_sym o q : same_out o q -> same_out q o.
Proof. intros (E1 & E2 & E3 & E4). repeat split; auto using (F2_sym same_ne same_sym). Qed.
Lemma same_out_trans o q r : same_out o q -> same_out q r -> same_out o r.
Proof. intros (E1 & E2 & E3 & E4) (K1 & K2 & K3 & K4). split; [congruence|]. split; [exact (F2_trans _ same_trans _ _ E2 _ K2)|]. split; [exact (F2_trans _ same_trans _ _ E3 _ K3)|congruence]. Qed.
Lemma agree_ne a a' : Forall2 same_ne a a' -> forall b b', Forall2 same_ne b b' -> Forall2 (fun x y => pf_equals_ne x y = true) a b -> Forall2 (fun x y => pf_equals_ne x y = true) a' b'.
Proof.
  induction 1 as [|x x' a a' E H IH]; intros b b' K F; inversion F; subst; inversion K; subst; constructor.
  - match goal with Hy : same_ne ?y ?y' |- pf_equals_ne x' ?y' = true => destruct E as (E1 & E2 & E3 & E4), Hy as (K1 & K2 & K3 & K4); unfold pf_equals_ne in *; rewrite <- E1, <- E2, <- E3, <- E4, <- K1, <- K2, <- K3, <- K4; assumption end.
  - eapply IH; eassumption.
Qed.
Lemma agree_same t u : same_run t u -> agree (pr_ref t) (pr_hw t) -> agree (pr_ref u) (pr_hw u).
Proof.
  intros (_ & _ & _ & (H1 & H2 & H3 & H4) & (R1 & R2 & R3 & R4)) (A1 & A2 & A3 & A4). unfold agree. rewrite <- H1, <- H4, <- R1, <- R4.
  split; [exact A1|]. split; [exact (agree_ne _ _ R2 _ _ H2 A2)|]. split; [exact (agree_ne _ _ R3 _ _ H3 A3)|exact A4].
Qed.
Lemma same_run_sym t u : same_run t u -> same_run u t.
Proof. intros (E1 & E2 & E3 & E4 & E5). repeat (split; [congruence|]). split; apply same_out_sym; assumption. Qed.
Lemma out_words_same o q : same_out o q -> output_words o = output_words q.
Proof.
  intros (E1 & E2 & E3 & E4). unfold output_words. rewrite E1, E4.
  assert (F : forall l l', Forall2 same_ne l l' -> flat_map ne_words l = flat_map ne_words l').
  { induction 1 as [|x y l l' (N1 & N2 & N3 & N4) H IH]; [reflexivity|]. cbn [flat_map]. rewrite IH. f_equal. destruct x, y. cbn in *. subst. reflexivity. }
  rewrite (F _ _ E2), (F _ _ E3). reflexivity.
Qed.
Lemma F2_nth {A} (R : A -> A -> Prop) : forall x y, length x = length y -> (forall i a d, nth_error x i = Some a -> nth_error y i = Some d -> R a d) -> Forall2 R x y.
Proof. induction x as [|a x IH]; intros [|d y] E H; try discriminate E; constructor; [apply (H 0%nat); reflexivity|]. apply IH; [injection E; auto|]. intros i. apply (H (S i)). Qed.
Lemma nth_agree (runs : list pfrun) i t : Forall (fun t => agree (pr_ref t) (pr_hw t)) runs -> nth_error runs i = Some t -> agree (pr_ref t) (pr_hw t).
Proof. intros F E. apply (proj1 (Forall_forall _ _) F). eapply nth_error_In. exact E. Qed.
Lemma some_nth {A} (x : list A) i : (i < length x)%nat -> exists a, nth_error x i = Some a.
Proof. intros H. destruct (nth_error x i) eqn:E; [eauto|]. apply nth_error_None in E. lia. Qed.
Lemma nth_before {A} (before : list A) bad i a : nth_error before i = Some a -> nth_error (before ++ [bad]) i = Some a.
Proof. intros E. rewrite nth_error_app1; [exact E|]. apply nth_error_Some. congruence. Qed.
Lemma nth_bad {A} (before : list A) bad : nth_error (before ++ [bad]) (length before) = Some bad.
Proof. rewrite nth_error_app2, Nat.sub_diag by lia. reflexivity. Qed.
Section pf.
Variables (b : board) (validate : bool) (c : config).
Hypothesis HN : (NSELCALO c <= NCALO c)%nat.
Definition fine (r : fwregion) : Prop := region_ok c r /\ no_negative_cluster r.
Lemma hw_same m m' r : fine r -> same_result (hw_on c m r) (hw_on c m' r).
Proof. intros (((L & _) & _) & HP). apply firmware_same; [rewrite L; exact HN|exact HP]. Qed.
Lemma run_same mh mh' mr mr' r t u : fine r -> run_ok b c mh mr r t -> run_ok b c mh' mr' r u -> same_run t u.
Proof.
  intros HF (R1 & Q1 & o & O1 & S1 & W1) (R2 & Q2 & q & O2 & S2 & W2).
  pose proof (hw_same mh mh' r HF) as H. rewrite O1, O2 in H. cbn [same_result] in H.
  pose proof (reference_same mr mr' (NSELCALO c) (fw_emcalo r) (fw_calo r) (fw_track r) (fw_muon r)) as K. unfold ref_on in Q1, Q2. rewrite Q1, Q2 in K. cbn [same_result] in K.
  split; [congruence|]. split; [destruct b, W1, W2; congruence|]. split; [destruct b, W1 as [_ ->], W2 as [_ ->]; [reflexivity|rewrite (out_words_same _ _ H); reflexivity..]|].
  split; [|exact K]. apply (same_out_trans _ o); [apply same_out_sym; exact S1|]. apply (same_out_trans _ q); assumption.
Qed.
Lemma undef_same mh mh' mr mr' r k : fine r -> undefined_on b c mh mr r k -> undefined_on b c mh' mr' r k.
Proof.
  intros HF. pose proof (hw_same mh mh' r HF) as H. pose proof (reference_same mr mr' (NSELCALO c) (fw_emcalo r) (fw_calo r) (fw_track r) (fw_muon r)) as K.
  unfold undefined_on, first_undefined, ref_on. destruct (hw_on c mh r), (hw_on c mh' r); cbn [same_result] in H; try contradiction; (destruct (pfalgo3_full_ref mr _ _ _ _ _), (pfalgo3_full_ref mr' _ _ _ _ _); cbn [same_result] in K; try contradiction; subst);
  destruct b; intros [X|(z & X & Y)]; try discriminate X; try discriminate Y; try (left; assumption); right; eauto.
Qed.
Lemma undef_fun mh mr r k k' : undefined_on b c mh mr r k -> undefined_on b c mh mr r k' -> k = k'.
Proof. unfold undefined_on, first_undefined. destruct b; intros [X|(z & X & Y)] [X'|(z' & X' & Y')]; congruence. Qed.
Lemma undef_not_run mh mr r k t : undefined_on b c mh mr r k -> ~ run_ok b c mh mr r t.
Proof. intros U (_ & Q & o & O & _). unfold undefined_on, first_undefined in U. destruct b; destruct U as [X|(z & X & Y)]; congruence. Qed.
Variables (mh mh' mr mr' : nat -> pfmem) (l : list fwregion).
Hypothesis HL : Forall fine l.
Definition recorded (mh mr : nat -> pfmem) (runs : list pfrun) : Prop :=
  forall i run, nth_error runs i = Some run -> exists r, nth_error l i = Some r /\ run_ok b c (mh (1 + i)%nat) (mr (1 + i)%nat) r run.
Lemma both i t u runs runs' : recorded mh mr runs -> recorded mh' mr' runs' -> nth_error runs i = Some t -> nth_error runs' i = Some u -> same_run t u.
Proof.
  intros A B Et Eu. destruct (A i t Et) as (r & Er & Ht). destruct (B i u Eu) as (r' & Er' & Hu). rewrite Er in Er'. injection Er' as <-.
  eapply run_same; [|exact Ht|exact Hu]. apply (proj1 (Forall_forall _ _) HL). eapply nth_error_In. exact Er.
Qed.
Lemma outcome_same runs runs' code code' : outcome b validate c mh mr 1 l runs code -> outcome b validate c mh' mr' 1 l runs' code' -> code = code' /\ Forall2 same_run runs runs'.
Proof.
  intros (O & HO) (O' & HO'). pose proof (fun i t u => both i t u runs runs' O O') as BB.
  destruct HO as [(-> & L & A)|(-> & V & before & bad & -> & A & B)], HO' as [(-> & L' & A')|(-> & V' & before' & bad' & -> & A' & B')].
  - split; [reflexivity|]. apply F2_nth; [congruence|exact BB].
  - exfalso. assert (Q : (length before' < length l)%nat). { destruct (O' _ _ (nth_bad before' bad')) as (r & Er & _). apply nth_error_Some. congruence. }
    destruct (some_nth runs (length before')) as (t & Et); [lia|]. apply B'. eapply agree_same; [exact (BB _ _ _ Et (nth_bad _ _))|]. eapply nth_agree; [apply A; exact V'|exact Et].
  - exfalso. assert (Q : (length before < length l)%nat). { destruct (O _ _ (nth_bad before bad)) as (r & Er & _). apply nth_error_Some. congruence. }
    destruct (some_nth runs' (length before)) as (t & Et); [lia|]. apply B. eapply agree_same; [apply same_run_sym; exact (BB _ _ _ (nth_bad _ _) Et)|]. eapply nth_agree; [apply A'; exact V|exact Et].
  - split; [reflexivity|]. apply F2_nth; [|exact BB]. rewrite !app_length. f_equal. destruct (Nat.lt_trichotomy (length before) (length before')) as [Q|[Q|Q]]; [exfalso| exact Q|exfalso].
    + destruct (some_nth before' _ Q) as (u & Eu). apply B. eapply agree_same; [apply same_run_sym; exact (BB _ _ _ (nth_bad _ _) (nth_before _ _ _ _ Eu))|]. eapply nth_agree; eassumption.
    + destruct (some_nth before _ Q) as (u & Eu). apply B'. eapply agree_same; [exact (BB _ _ _ (nth_before _ _ _ _ Eu) (nth_bad _ _))|]. exact (nth_agree _ _ _ A Eu).
Qed.
End pf.
Lemma outcome_undef b validate c mh mh' mr mr' l runs code k : (NSELCALO c <= NCALO c)%nat -> Forall (fine c) l ->
  outcome b validate c mh mr 1 l runs code -> reaches_undefined b validate c mh' mr' 1 l k -> False.
Proof.
  intros HN HL (O & HO) (runs' & r & Er & U & O' & A'). assert (HF : fine c r) by (apply (proj1 (Forall_forall _ _) HL); eapply nth_error_In; exact Er).
  assert (SHORT : (length runs <= length runs')%nat).
  { destruct (le_lt_dec (length runs) (length runs')) as [Q|Q]; [exact Q|exfalso]. destruct (some_nth runs _ Q) as (t & Et). destruct (O _ _ Et) as (r' & Er' & Ht). rewrite Er in Er'. injection Er' as <-.
    eapply undef_not_run; [|exact Ht]. eapply undef_same; [exact HN|exact HF|exact U]. }
  destruct HO as [(_ & L & _)|(_ & V & before & bad & -> & A & B)].
  - assert (Q : (length runs' < length l)%nat) by (apply nth_error_Some; congruence). lia.
  - rewrite app_length in SHORT. cbn [length] in SHORT. destruct (some_nth runs' (length before)) as (u & Eu); [lia|]. apply B.
    eapply agree_same; [apply same_run_sym; exact (both b c HN mh mh' mr mr' l HL _ _ _ _ _ O O' (nth_bad _ _) Eu)|]. eapply nth_agree; [apply A'; exact V|exact Eu].
Qed.
Lemma undef_undef b validate c mh mh' mr mr' l k k' : (NSELCALO c <= NCALO c)%nat -> Forall (fine c) l ->
  reaches_undefined b validate c mh mr 1 l k -> reaches_undefined b validate c mh' mr' 1 l k' -> k = k'.
Proof.
  intros HN HL (runs & r & Er & U & O & A) (runs' & r' & Er' & U' & O' & A').
  assert (HF : fine c r) by (apply (proj1 (Forall_forall _ _) HL); eapply nth_error_In; exact Er). assert (HF' : fine c r') by (apply (proj1 (Forall_forall _ _) HL); eapply nth_error_In; exact Er').
  destruct (Nat.lt_trichotomy (length runs) (length runs')) as [Q|[Q|Q]].
  - exfalso. destruct (some_nth runs' _ Q) as (t & Et). destruct (O' _ _ Et) as (x & Ex & Ht). rewrite Er in Ex. injection Ex as <-. eapply undef_not_run; [|exact Ht]. eapply undef_same; [exact HN|exact HF|exact U].
  - rewrite Q in Er, U. rewrite Er in Er'. injection Er' as <-. eapply undef_fun; [|exact U']. eapply undef_same; [exact HN|exact HF|exact U].
  - exfalso. destruct (some_nth runs _ Q) as (t & Et). destruct (O _ _ Et) as (x & Ex & Ht). rewrite Er' in Ex. injection Ex as <-. eapply undef_not_run; [|exact Ht]. eapply undef_same; [exact HN|exact HF'|exact U'].
Qed.
Lemma c94_pf b validate c special mh mh' mr mr' g g' arr arr' pho pho' ne ne' evs : build_ok b c -> (NSELCALO c <= NCALO c)%nat -> (forall t, mem_typed (mh t)) -> (forall t, mem_typed (mh' t)) ->
  arrays_ok c arr -> arrays_ok c arr' -> length pho = NEMCALO c -> length pho' = NEMCALO c -> length ne = NSELCALO c -> length ne' = NSELCALO c ->
  Forall good_event evs -> Forall no_negative_cluster (tested c special NTEST evs) ->
  exists N, forall fuel fuel', (N <= fuel)%nat -> (N <= fuel')%nat ->
    same_execution (pf_main b validate c special (Ok true) fuel mh mr g arr pho ne (Some (dump evs))) (pf_main b validate c special (Ok true) fuel' mh' mr' g' arr' pho' ne' (Some (dump evs))).
Proof.
  intros HB HN HM HM' A A' Lp Lp' Ln Ln' HG HP.
  assert (HL : Forall (fine c) (tested c special NTEST evs)). { pose proof (tested_ok c special NTEST evs) as T. apply Forall_forall. intros r Hr. split; [exact (proj1 (Forall_forall _ _) T r Hr)|exact (proj1 (Forall_forall _ _) HP r Hr)]. }
  destruct (main_total b validate c special mh mr g arr pho ne evs HB HM A Lp Ln HG) as (N & X). destruct (main_total b validate c special mh' mr' g' arr' pho' ne' evs HB HM' A' Lp' Ln' HG) as (N' & X').
  exists (Nat.max N N'). intros fuel fuel' Hf Hf'. destruct X as [(code & runs & E & O)|(k & E & U)], X' as [(code' & runs' & E' & O')|(k' & E' & U')]; rewrite E, E' by lia; cbn [same_execution].
  - eapply outcome_same; eassumption.
  - eapply outcome_undef; eassumption.
  - eapply outcome_undef; eassumption.
  - eapply undef_undef; eassumption.
Qed.

(** the files *)
Lemma put_same (f : nat -> PFNe -> list ascii) (Hf : forall i x y, same_ne x y -> f i x = f i y) : forall l l' k, Forall2 same_ne l l' -> forall s,
  foldM (fun s p => hr_put s (f (fst p) (snd p))) (combine (seq k (length l)) l) s = foldM (fun s p => hr_put s (f (fst p) (snd p))) (combine (seq k (length l')) l') s.
Proof.
  induction l as [|a l IH]; intros l' k H s; inversion H as [|? x ? l'' E F]; subst; [reflexivity|]. cbn [length seq combine foldM fst snd]. rewrite (Hf k a x E).
  destruct (hr_put s (f k x)); cbn [bind]; [|reflexivity]. apply IH. exact F.
Qed.
Lemma dump_same o q s : same_out o q -> hr_dump_outputs o s = hr_dump_outputs q s.
Proof.
  intros (E1 & E2 & E3 & E4). unfold hr_dump_outputs, indexed. rewrite E1, E4. destruct (foldM _ (combine _ (o_ch q)) s) as [s1|]; cbn [bind]; [|reflexivity].
  rewrite (put_same pho_line ltac:(intros i x y (N1 & N2 & N3 & N4); unfold pho_line; rewrite N1, N2, N3, N4; reflexivity) _ _ 0 E2). destruct (foldM _ (combine _ (o_pho q)) s1) as [s2|]; cbn [bind]; [|reflexivity].
  rewrite (put_same ne_line ltac:(intros i x y (N1 & N2 & N3 & N4); unfold ne_line; rewrite N1, N2, N3, N4; reflexivity) _ _ 0 E3). reflexivity.
Qed.
Lemma hr_same runs runs' : Forall2 same_run runs runs' -> pf_hr_file runs = pf_hr_file runs'.
Proof.
  intros H. unfold pf_hr_file, hr_session. generalize (hr_new true). induction H as [|t u l l' (E1 & E2 & E3 & E4 & E5) H IH]; intros s; [reflexivity|].
  cbn [map foldM]. assert (C : forall s, hr_call s (mkHrev (fw_emcalo (pr_region t)) (fw_calo (pr_region t)) (fw_track (pr_region t)) (fw_muon (pr_region t)) (pr_hw t)) = hr_call s (mkHrev (fw_emcalo (pr_region u)) (fw_calo (pr_region u)) (fw_track (pr_region u)) (fw_muon (pr_region u)) (pr_hw u))).
  { intros s0. unfold hr_call. cbn [he_em he_had he_tk he_mu he_out]. rewrite E1. destruct (hs_open s0); [|reflexivity]. destruct (hr_put _ _) as [s1|]; cbn [bind]; [|reflexivity].
    destruct (hr_dump_inputs _ _ _ _ s1) as [s2|]; cbn [bind]; [|reflexivity]. rewrite (dump_same _ _ s2 E4). reflexivity. }
  rewrite C. destruct (hr_call s _) as [s1|]; cbn [bind]; [apply IH|reflexivity].
Qed.
Lemma c94_pf_files runs runs' ii nin nout : Forall2 same_run runs runs' ->
  pf_mp7_files ii (map pr_in runs) = pf_mp7_files ii (map pr_in runs') /\ pf_mp7_files ii (map pr_out runs) = pf_mp7_files ii (map pr_out runs') /\
  pf_ctp7_file nin (map pr_in runs) = pf_ctp7_file nin (map pr_in runs') /\ pf_ctp7_file nout (map pr_out runs) = pf_ctp7_file nout (map pr_out runs') /\ pf_hr_file runs = pf_hr_file runs'.
Proof.
  intros H. assert (E1 : map pr_in runs = map pr_in runs') by (induction H as [|t u l l' (_ & E & _) H IH]; [reflexivity|cbn [map]; congruence]).
  assert (E2 : map pr_out runs = map pr_out runs') by (clear E1; induction H as [|t u l l' (_ & _ & E & _) H IH]; [reflexivity|cbn [map]; congruence]).
  rewrite E1, E2, (hr_same _ _ H). auto.
Qed.
