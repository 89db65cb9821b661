(** Proofs of C89. *)
From Coq Require Import QArith Qabs Qround Lqa Lia Sorted.
From Verif Require Import Base BaseFacts TabFacts MapiFacts Data Discrete DiscreteIO SpecIO Fill SpecFill FloatFacts FillProofs FillObjects Convert SpecConvert ConvertProofs PFHw PFProofs PFTotal Particle SpecParticle.
Local Open Scope Z_scope.

Lemma read_back c n x d N : (1 <= c)%Q -> (c <= 1000000 # 1)%Q -> Z.abs n <= N -> N <= 4000000 -> (Qabs (inject_Z n - x * c) <= d)%Q ->
  exists y, fdiv (of_int n) c = Fin y /\ (Qabs (y - x) * c <= d + inject_Z N * (1 # 16777216) + (1 # 1000000))%Q.
Proof.
  intros C1 C2 Hn HN D. destruct (of_int_exact n ltac:(lia)) as (m & -> & Em). assert (Bm : (Qabs m <= inject_Z N)%Q). { rewrite Em. destruct (inject_bound n N Hn) as (A & B). apply Qabs_Qle_condition. lra. }
  assert (BN : (inject_Z N <= 4000000 # 1)%Q) by (apply injZ_le in HN; exact HN).
  unfold fdiv. pose proof (div_bound m c C1) as DB. set (q := (m / c)%Q) in *. assert (Eq : (q * c == m)%Q) by (unfold q; field; lra).
  destruct (f32_fin q) as (q' & -> & Eq'). { change (p2 126) with (85070591730234615865843651857942052864 # 1)%Q. lra. }
  pose proof (rnd32_error q) as E. rewrite <- Eq' in E. pose proof t32_small as (T0 & TS). unfold u32 in E.
  exists q'. split; [reflexivity|].
  assert (E1 : (Qabs (q' * c - m) <= inject_Z N * (1 # 16777216) + (1 # 1000000))%Q).
  { rewrite <- Eq. setoid_replace (q' * c - q * c)%Q with ((q' - q) * c)%Q by ring. rewrite Qabs_Qmult, (Qabs_pos c) by lra. rewrite <- Eq, Qabs_Qmult, (Qabs_pos c) in Bm by lra.
    pose proof (Qabs_nonneg q). assert (S1 : (Qabs (q' - q) * c <= (Qabs q * (1 # 16777216) + t32) * c)%Q) by (apply Qmult_le_compat_r; lra).
    assert (S2 : (t32 * c <= 1 # 1000000)%Q) by nra. lra. }
  rewrite <- (Qabs_pos c) at 1 by lra. rewrite <- Qabs_Qmult. setoid_replace ((q' - x) * c)%Q with ((q' * c - m) + (m - x * c))%Q by ring.
  eapply Qle_trans; [apply Qabs_triangle|]. assert (D' : (Qabs (m - x * c) <= d)%Q) by (rewrite Em; exact D). lra.
Qed.
Lemma reads_of c n x d N tol : (1 <= c)%Q -> (c <= 1000000 # 1)%Q -> Z.abs n <= N -> N <= 4000000 -> (Qabs (inject_Z n - x * c) <= d)%Q ->
  (d + inject_Z N * (1 # 16777216) + (1 # 1000000) <= tol * c)%Q -> reads (fdiv (of_int n) c) x tol.
Proof.
  intros C1 C2 Hn HN D T. destruct (read_back c n x d N C1 C2 Hn HN D) as (y & E & B). exists y. split; [exact E|].
  apply (Qmult_le_r _ _ c); lra.
Qed.
Lemma fits_units x c k : (Qabs x <= k)%Q -> (0 < c)%Q -> (Qabs (x * c) <= k * c)%Q.
Proof. intros H C. rewrite Qabs_Qmult, (Qabs_pos c) by lra. apply Qmult_le_compat_r; lra. Qed.
Lemma int_bound n y d N : (Qabs (inject_Z n - y) <= d)%Q -> (Qabs y + d < inject_Z (N + 1))%Q -> Z.abs n <= N.
Proof.
  intros A B. assert (E : (Qabs (inject_Z n) < inject_Z (N + 1))%Q). { pose proof (Qabs_triangle (inject_Z n - y) y) as T. setoid_replace (inject_Z n - y + y)%Q with (inject_Z n) in T by ring. lra. }
  change (Qabs (inject_Z n)) with (inject_Z (Z.abs n)) in E. apply Zlt_of in E. lia.
Qed.
Lemma angle_reads x n : (Qabs x <= 22 # 10)%Q -> (Qabs (inject_Z n - x * ETAPHI_SCALE) <= (1 # 2) + (1 # 200))%Q -> Z.abs n <= 505 /\ reads (float_angle n) x (1 # 450).
Proof.
  intros B D. unfold float_angle. rewrite etaphi_value in *. assert (F := fits_units x (15019745 # 65536) _ B ltac:(reflexivity)).
  assert (K : Z.abs n <= 505). { eapply int_bound; [exact D|]. change (inject_Z (505 + 1)) with (506 # 1)%Q. lra. }
  split; [exact K|]. eapply (reads_of _ _ _ _ 505); [discriminate|discriminate|exact K|lia|exact D|]. change (inject_Z 505) with (505 # 1)%Q. lra.
Qed.
Lemma phi_small x n : (Qabs x <= 22 # 10)%Q -> fill_phi (Fin x) = Ok n -> Z.abs n <= 505 /\ reads (float_angle n) x (1 # 450).
Proof.
  intros B E. destruct (phi_ok _ _ E) as (m & Em & ->). pose proof (proj1 (eta_stores x) m Em) as (_ & C). destruct (angle_reads x m B C) as (K & R).
  rewrite (proj2 (Z.rem_small_iff m 1440 ltac:(lia))) by lia. auto.
Qed.
Lemma eta_small x n : (Qabs x <= 22 # 10)%Q -> fill_eta (Fin x) = Ok n -> Z.abs n <= 505 /\ reads (float_angle n) x (1 # 450).
Proof. intros B E. apply angle_reads; [exact B|]. apply (eta_stores x). exact E. Qed.
Lemma pt_reads x n : fill_pt (Fin x) = Ok n -> reads (float_pt n) x (1275 # 10000).
Proof.
  intros E. destruct (proj1 (pt_stores x) n E) as (R & D). unfold float_pt. change PT_SCALE with (4 # 1)%Q.
  eapply (reads_of _ _ _ _ 32768); [discriminate|discriminate|lia|lia|exact D|]. vm_compute. discriminate.
Qed.
Lemma dz_reads x n : round_i16 (fmul (Fin x) Z0_SCALE) = Ok n -> reads (float_dz n) x (51 # 2000).
Proof.
  intros E. destruct (proj1 (dz_stores x) n E) as (R & D). unfold float_dz. change Z0_SCALE with (20 # 1)%Q.
  eapply (reads_of _ _ _ _ 32768); [discriminate|discriminate|lia|lia|exact D|]. vm_compute. discriminate.
Qed.
Lemma veta_reads x n : (Qabs x <= 10 # 1)%Q -> round_i32 (fmul (Fin x) VTX_ETA_SCALE) = Ok n -> reads (float_vtxeta n) x (7 # 1000000).
Proof.
  intros B E. apply vtx_stored in E as (_ & D). unfold float_vtxeta. rewrite veta_value in *. assert (F := fits_units x (100000 # 1) _ B ltac:(reflexivity)).
  assert (D' : (Qabs (inject_Z n - x * (100000 # 1)) <= 56 # 100)%Q) by lra. eapply (reads_of _ _ _ _ 1000001); [discriminate|discriminate| |lia|exact D'|vm_compute; discriminate].
  eapply int_bound; [exact D'|]. change (inject_Z (1000001 + 1)) with (1000002 # 1)%Q. lra.
Qed.
Lemma vphi_reads x n : (Qabs x <= 4 # 1)%Q -> round_i32 (fmul (Fin x) VTX_PHI_SCALE) = Ok n -> reads (float_vtxphi n) x (2 # 1000000).
Proof.
  intros B E. apply vtx_stored in E as (_ & D). unfold float_vtxphi. rewrite vphi_value in *. assert (F := fits_units x (400000 # 1) _ B ltac:(reflexivity)).
  assert (D' : (Qabs (inject_Z n - x * (400000 # 1)) <= 596 # 1000)%Q) by lra. eapply (reads_of _ _ _ _ 1600001); [discriminate|discriminate| |lia|exact D'|vm_compute; discriminate].
  eapply int_bound; [exact D'|]. change (inject_Z (1600001 + 1)) with (1600002 # 1)%Q. lra.
Qed.

Lemma filled_wf v t : filled_from v t -> ptk_wf t.
Proof. intros (f & o & a & b & f' & op & H1 & H2 & I & P). apply ptk_filled in P as (W & _). apply W. apply itk_filled in I as (W' & _). auto. Qed.
(** a charged particle with the direction and momentum of the firmware track *)
Lemma filled_reads v t y x p : filled_from v t -> in_region v -> tk_of t y -> c_pt x = t_pt y -> c_eta x = t_eta y -> c_phi x = t_phi y -> 0 < c_pt x -> ch_of x t p -> reads_as v p.
Proof.
  intros (f & o & a & b & f' & op & H1 & H2 & I & P) (B1 & B2 & B3 & B4) (T1 & _ & T2 & T3 & _) X1 X2 X3 X0 (Q1 & Q2 & Q3 & _ & _ & Q4 & _).
  apply ptk_filled in P as (_ & _ & P1 & _ & _ & P2 & P3 & P4 & _). apply itk_filled in I as (_ & I1 & I2 & I3 & I4 & _).
  destruct (eta_small _ _ B1 P2) as (K1 & R1). destruct (phi_small _ _ B2 P3) as (K2 & R2).
  assert (E1 : t_eta y = pt_eta t) by (apply narrow_same; [exact T2|unfold inS; lia]). assert (E2 : t_phi y = pt_phi t) by (apply narrow_same; [exact T3|unfold inS; lia]).
  assert (PP : pt_pt t >? 0 = true) by (rewrite <- T1; lia).
  unfold reads_as, part_pt, part_eta, part_phi, part_vtx_eta, part_vtx_phi, part_dz, part_charge. rewrite Q4, PP, P4, Q1, Q2, Q3, X1, X2, X3, T1, E1, E2.
  split; [apply pt_reads; exact P1|]. split; [exact R1|]. split; [exact R2|]. split; [apply veta_reads; assumption|]. split; [apply vphi_reads; assumption|]. split; [apply dz_reads; exact I3|].
  rewrite I4. reflexivity.
Qed.

Lemma filtered_increasing {A} (f : nat * A -> bool) (l : list A) : forall k, StronglySorted lt (map fst (filter f (combine (seq k (length l)) l))) /\ Forall (fun i => (k <= i)%nat) (map fst (filter f (combine (seq k (length l)) l))).
Proof.
  induction l as [|x l IH]; intros k; cbn [length seq combine filter map]; [split; constructor|].
  destruct (IH (S k)) as (A1 & A2). assert (A3 : Forall (fun i => (k <= i)%nat) (map fst (filter f (combine (seq (S k) (length l)) l)))) by (eapply Forall_impl; [|exact A2]; cbn; intros; lia).
  destruct (f (k, x)); cbn [map fst]; [|split; assumption].
  split; constructor; auto. 
Qed.
Lemma chain garb vs src NMAX any track mem nsel em had mu out :
  Forall2 filled_from vs src -> Forall in_region vs -> fits src -> length any = NMAX ->
  convert_in fw_tk tk0 NMAX src any = Ok track -> pfalgo3_full mem nsel em had track mu = Ok out ->
  exists ps is, convert_ch garb NMAX (o_ch out) src [] = Ok ps /\ StronglySorted lt is /\
    Forall2 (fun i p => exists v, nth_error vs i = Some v /\ reads_as v p) is ps.
Proof.
  intros F R L LA C P. assert (W : Forall ptk_wf src). { clear -F. induction F; constructor; eauto using filled_wf. }
  destruct (c49_tracks NMAX src any L LA W) as (r & E & LT & SL). rewrite C in E. injection E as <-.
  pose proof (pf_shape mem nsel em had track mu out P) as S. destruct S as (SL1 & S). destruct S as (_ & _ & _ & S & _).
  assert (K : forall i x, nth_error (o_ch out) i = Some x -> 0 < c_pt x -> exists t y, nth_error src i = Some t /\ tk_of t y /\ c_pt x = t_pt y /\ c_eta x = t_eta y /\ c_phi x = t_phi y).
  { intros i x Hx Px. assert (I : (i < length track)%nat) by (rewrite <- SL1; apply nth_error_Some; congruence).
    destruct (nth_error track i) as [y|] eqn:Hy; [|apply nth_error_None in Hy; lia]. destruct (S i y Hy) as (c & Hc & D). rewrite Hx in Hc. injection Hc as <-.
    destruct D as [(D1 & D2 & D3 & _) | D]; [|subst x; cbn in Px; lia]. pose proof (SL i y Hy) as M. destruct (nth_error src i) as [t|]; [|subst y; cbn in D1; lia]. eauto 10. }
  destruct (c50_charged garb (o_ch out) src []) as (ps & Eps & FP).
  { intros i x Hx Px. destruct (K i x Hx Px) as (t & _ & Ht & _). apply nth_error_Some. congruence. }
  exists ps. exists (map fst (filter (fun q => c_pt (snd q) >? 0) (indexed (o_ch out)))).
  split; [rewrite <- LT, <- SL1; rewrite Eps; reflexivity|]. split; [apply (filtered_increasing (fun q => c_pt (snd q) >? 0) (o_ch out) 0)|].
  assert (Q : Forall (fun q => nth_error (o_ch out) (fst q) = Some (snd q) /\ 0 < c_pt (snd q)) (filter (fun q => c_pt (snd q) >? 0) (indexed (o_ch out)))).
  { apply Forall_forall. intros [i x] Hq. apply filter_In in Hq as (Hq & Hp). split; [apply in_indexed; exact Hq|cbn in *; lia]. }
  clear Eps. induction FP as [|[i x] p l l' Hp _ IH]; cbn [map fst]; [constructor|]. apply Forall_cons_iff in Q as ((Q1 & Q2) & Q). constructor; [|apply IH; exact Q].
  destruct Hp as (t & Ht & CO). cbn [fst snd] in *. destruct (K i x Q1 Q2) as (t' & y & Ht' & TK & X1 & X2 & X3). rewrite Ht in Ht'. injection Ht' as <-.
  destruct (nth_error vs i) as [v|] eqn:Hv. 2:{ apply nth_error_None in Hv. assert (LF : length vs = length src) by (clear -F; induction F; cbn; congruence). assert (i < length src)%nat by (apply nth_error_Some; congruence). lia. }
  exists v. split; [reflexivity|]. assert (FF : filled_from v t). { clear -F Hv Ht. revert i Hv Ht. induction F; intros [|i] Hv Ht; cbn in *; try discriminate; [congruence|eauto]. }
  eapply filled_reads; eauto. eapply Forall_forall in R; [exact R|]. eapply nth_error_In; exact Hv.
Qed.

Lemma int_reads c n tol : (1 <= c)%Q -> (c <= 1000000 # 1)%Q -> forall N, Z.abs n <= N -> N <= 4000000 -> (inject_Z N * (1 # 16777216) + (1 # 1000000) <= tol * c)%Q -> reads (fdiv (of_int n) c) (inject_Z n / c) tol.
Proof.
  intros C1 C2 N HN N4 T. eapply (reads_of c n _ 0 N); auto.
  - setoid_replace (inject_Z n - inject_Z n / c * c)%Q with 0%Q by (field; lra). discriminate.
  - lra.
Qed.
Lemma neutrals garb ins out : Forall (fun x => inS 16 (n_pt x) /\ inS 10 (n_eta x) /\ inS 10 (n_phi x)) ins ->
  exists ps, convert_ne garb (length ins) ins out = Ok (out ++ ps) /\ Forall2 reads_as_neutral (filter (fun x => n_pt x >? 0) ins) ps.
Proof.
  intros W. destruct (c50_neutrals garb ins out) as (ps & E & F). exists ps. split; [exact E|].
  assert (W' : Forall (fun x => inS 16 (n_pt x) /\ inS 10 (n_eta x) /\ inS 10 (n_phi x)) (filter (fun x => n_pt x >? 0) ins)).
  { apply Forall_forall. intros x Hx. apply filter_In in Hx as (Hx & _). eapply Forall_forall in W; eauto. }
  clear E. induction F as [|x p l l' (Q1 & Q2 & Q3 & Q4 & Q5 & Q6 & _) _ IH]; [constructor|]. apply Forall_cons_iff in W' as ((A & B & C) & W'). constructor; [|auto].
  unfold reads_as_neutral, part_pt, part_eta, part_phi, part_vtx_eta, part_vtx_phi, part_charge. rewrite Q1, Q2, Q3, Q4, Q5, Q6. cbn [Z.gtb Z.compare].
  unfold inS in *. cbn [Z.sub Z.pow Z.pow_pos Pos.iter Z.mul Pos.mul Z.opp Z.pos_sub Pos.pred_double Z.add] in *.
  split; [unfold float_pt; change PT_SCALE with (4 # 1)%Q; apply (int_reads (4 # 1) _ _ ltac:(discriminate) ltac:(discriminate) 32768); [lia|lia|vm_compute; discriminate]|].
  unfold float_angle. rewrite etaphi_value.
  split; [apply (int_reads (15019745 # 65536) _ _ ltac:(discriminate) ltac:(discriminate) 512); [lia|lia|vm_compute; discriminate]|].
  split; [apply (int_reads (15019745 # 65536) _ _ ltac:(discriminate) ltac:(discriminate) 512); [lia|lia|vm_compute; discriminate]|]. auto.
Qed.

Lemma set_puppiw_reads x p q : part_set_puppiw (Fin x) p = Ok q -> reads (part_puppiw q) x (1 # 180) /\ part_pt q = part_pt p /\ part_eta q = part_eta p /\ part_phi q = part_phi p /\ part_vtx_eta q = part_vtx_eta p /\ part_vtx_phi q = part_vtx_phi p /\ part_dz q = part_dz p /\ part_charge q = part_charge p.
Proof.
  intros H. unfold part_set_puppiw in H. destruct (set_puppiw (Fin x)) as [n|] eqn:E; cbn [bind] in H; [|discriminate H]. injection H as <-.
  split; [|repeat split]. destruct (proj1 (puppiw_stores x) n E) as (R & D). unfold part_puppiw, float_puppiw. cbn [pp_puppiw]. change PUPPI_SCALE with (100 # 1)%Q.
  eapply (reads_of _ _ _ _ 65535); [discriminate|discriminate|lia|lia|exact D|]. vm_compute. discriminate.
Qed.
Lemma set_pt_reads x p q : part_set_pt (Fin x) p = Ok q -> reads (part_pt q) x (1275 # 10000) /\ part_puppiw q = part_puppiw p /\ part_eta q = part_eta p /\ part_phi q = part_phi p /\ part_vtx_eta q = part_vtx_eta p /\ part_vtx_phi q = part_vtx_phi p /\ part_dz q = part_dz p /\ part_charge q = part_charge p.
Proof.
  intros H. unfold part_set_pt in H. destruct (fill_pt (Fin x)) as [n|] eqn:E; cbn [bind] in H; [|discriminate H]. injection H as <-.
  split; [|repeat split]. apply pt_reads. exact E.
Qed.
Lemma neutral_dz_free : exists ins garb garb' ps ps', convert_ne garb (length ins) ins [] = Ok ps /\ convert_ne garb' (length ins) ins [] = Ok ps' /\ map part_dz ps <> map part_dz ps' /\ map part_puppiw ps <> map part_puppiw ps'.
Proof.
  pose (g := fun z => mkPFPart 0 0 0 0 0 0 0 clu0 (mkPTk (mkITk 0 0 0 false z 0 0 0) 0 0 0 0 0 false false false) false z 0).
  exists [mkNe 40 1 2 1 40], (fun _ => g 0), (fun _ => g 20). eexists _, _. split; [reflexivity|]. split; [reflexivity|]. split; vm_compute; discriminate.
Qed.
Lemma charged_weight_free : exists ins src garb garb' ps ps', convert_ch garb (length ins) ins src [] = Ok ps /\ convert_ch garb' (length ins) ins src [] = Ok ps' /\ map part_puppiw ps <> map part_puppiw ps'.
Proof.
  pose (g := fun z => mkPFPart 0 0 0 0 0 0 0 clu0 ptk0 false z 0).
  exists [mkCh 40 1 2 0 0], [ptk0], (fun _ => g 0), (fun _ => g 20). eexists _, _. split; [reflexivity|]. split; [reflexivity|]. vm_compute; discriminate.
Qed.
