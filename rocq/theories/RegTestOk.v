(** The arrays recorded by the regionizer test program have the declared sizes
    and fields in range. *)
From Verif Require Import Base BaseFacts TabFacts Data PFHw Discrete Convert ConvertFacts DiscreteIO SpecIO IOFacts IOProofs
  SpecSort RankFacts Regionizer SpecRegion RegionFacts RegionLoops RegionProofs RegionMuon RegTest SpecRegTest RegTestProofs RegTestRun SpecRegFiles.

Ltac parts := repeat match goal with |- _ /\ _ => split end.
Section ranges.
Context {A : Type} (d : A) (Q : A -> Prop) (HQ : Q d).
Definition r_ok (o : robj A) : Prop := inS 16 (r_pt o) /\ inS 10 (r_eta o) /\ inS 10 (r_phi o) /\ Q (r_rest o).
Lemma clear_r : r_ok (rclear d). Proof. unfold r_ok, rclear, inS. cbn [r_pt r_eta r_phi r_rest]. repeat split; try lia. exact HQ. Qed.
Lemma kept_r n l out : Forall r_ok l -> kept d n l out -> Forall r_ok out.
Proof.
  intros H (top & T & ->). apply Forall_app. split; [|apply Forall_forall; intros x Hx; apply repeat_spec in Hx; subst; apply clear_r].
  rewrite Forall_forall in *. intros x Hx. apply H. eapply top_n_in; [exact T|exact Hx].
Qed.
Lemma phi_r s o : r_ok o -> r_ok (add_phi s o).
Proof. intros (? & ? & ? & ?). unfold r_ok. parts; try assumption. cbn [add_phi r_phi]. apply wrapS_range. lia. Qed.
Lemma shifted_r s l : Forall r_ok l -> Forall r_ok (shifted s l).
Proof. intros H. apply Forall_map. rewrite Forall_forall in *. intros x Hx. apply filter_In in Hx as [Hx _]. exact (phi_r s x (H x Hx)). Qed.
Lemma slice_r ie l : Forall r_ok l -> Forall r_ok (slice_cands ie l).
Proof.
  intros H. apply Forall_map. rewrite Forall_forall in *. intros x Hx. apply filter_In in Hx as [Hx E]. apply andb_prop in E as [_ E]. apply andb_prop in E as [E1 E2]. apply Z.leb_le in E1, E2.
  destruct (H x Hx) as (P & _ & F & R). unfold r_ok. parts; try assumption. unfold local_eta, inS. cbn [r_eta]. destruct ie as [|[|]]; cbn [slice_lo slice_hi slice_centre] in *; lia.
Qed.
Lemma region_r nsec n objs ie ip out : (forall s, Forall r_ok (objs s)) -> region_spec d nsec n objs ie ip out -> Forall r_ok out.
Proof.
  intros H (t0 & t1 & t2 & T0 & T1 & T2 & K). refine (kept_r _ _ _ _ K).
  assert (G : forall j s t, top_n r_pt false nsec (slice_cands ie (objs s)) t -> Forall r_ok (map (local_phi j) t)).
  { intros j s t T. apply Forall_map. apply Forall_forall. intros x Hx. apply (top_n_in _ _ _ _ _ _ T) in Hx. pose proof (slice_r ie _ (H s)) as S. rewrite Forall_forall in S. exact (phi_r _ x (S x Hx)). }
  repeat (apply Forall_app; split); eapply G; eassumption.
Qed.
Lemma muon_r nmu objs ie ip : (forall s, Forall r_ok (objs s)) -> Forall r_ok (mcands nmu objs ie ip).
Proof.
  intros H. assert (M : forall m, Forall r_ok (mt nmu objs ie m)).
  { intros m. unfold mt. pose proof (top_n_rsort false r_pt nmu (slice_cands ie (objs m))) as T. pose proof (slice_r ie _ (H m)) as S. rewrite Forall_forall in *. intros x Hx. apply S. eapply top_n_in; [exact T|exact Hx]. }
  assert (P : forall s p l, Forall r_ok l -> Forall r_ok (map (add_phi s) (filter p l))).
  { intros s p l L. apply Forall_map. rewrite Forall_forall in *. intros x Hx. apply filter_In in Hx as [Hx _]. apply phi_r. auto. }
  unfold mcands. destruct (ip mod 3)%nat as [|[|]]; [apply M|apply Forall_app; split; apply P; apply M..].
Qed.
End ranges.

Lemma filled_P {In Out} (P : Out -> Prop) (conv : In -> Out) clr n l : (forall x, P (conv x)) -> P clr -> Forall P (filled conv clr n l).
Proof. intros H H0. apply Forall_app. split; [apply Forall_map, Forall_forall; auto|apply Forall_forall; intros x Hx; apply repeat_spec in Hx; subst; exact H0]. Qed.
Lemma rows_P {S T} (P : S -> Prop) (R : T -> Prop) (f : S -> T) (l : list (list S)) : (forall x, P x -> R (f x)) -> Forall (Forall P) l -> forall s, Forall R (map f (nth s l [])).
Proof. intros H L s. apply Forall_map. destruct (nth_in_or_default s l []) as [Hin| ->]; [|constructor]. rewrite Forall_forall in L. eapply Forall_impl; [|exact (L _ Hin)]. exact H. Qed.
(** a 18-row array whose rows read as objects in range *)
Lemma rows_back {S A} (Q : A -> Prop) (to_r : S -> robj A) (P : S -> Prop) (l : list (list S)) : (forall x, r_ok Q (to_r x) -> P x) -> length l = 18%nat ->
  (forall ie ip, (ie < 3)%nat -> (ip < 6)%nat -> Forall (r_ok Q) (map to_r (nth (6 * ie + ip) l []))) -> Forall (Forall P) l.
Proof.
  intros H L G. apply Forall_forall. intros row Hr. destruct (In_nth _ _ [] Hr) as (i & Hi & <-). rewrite L in Hi. specialize (G (i / 6)%nat (i mod 6)%nat ltac:(lia) ltac:(lia)).
  replace (6 * (i / 6) + i mod 6)%nat with i in G by lia. rewrite Forall_map in G. eapply Forall_impl; [|exact G]. exact H.
Qed.

Definition Qhad (r : Z * bool) : Prop := inS 16 (fst r).
Definition Qem (r : Z) : Prop := inS 16 r.
Definition Qtk (r : Z * Z * bool) : Prop := inS 16 (fst (fst r)) /\ inS 10 (snd (fst r)).
Lemma had_r o : r_ok Qhad (r_of_had o) <-> had_ok o. Proof. unfold r_ok, Qhad, had_ok, r_of_had. cbn. tauto. Qed.
Lemma em_r o : r_ok Qem (r_of_em o) <-> em_ok o. Proof. unfold r_ok, Qem, em_ok, r_of_em. cbn. tauto. Qed.
Lemma tk_r o : r_ok Qtk (r_of_tk o) <-> tk_ok o. Proof. unfold r_ok, Qtk, tk_ok, r_of_tk. cbn. tauto. Qed.
Lemma mu_r o : r_ok Qem (r_of_mu o) <-> mu_ok o. Proof. unfold r_ok, Qem, mu_ok, r_of_mu. cbn. tauto. Qed.
Lemma fw_had_ok x : had_ok (fw_had x). Proof. unfold fw_had, had_ok, pt_t, etaphi_t. cbn [h_pt h_eta h_phi h_empt]. parts; apply wrapS_range; lia. Qed.
Lemma fw_em_ok x : em_ok (fw_em x). Proof. unfold fw_em, em_ok, pt_t, etaphi_t. cbn [e_pt e_eta e_phi e_pterr]. parts; apply wrapS_range; lia. Qed.
Lemma fw_tk_ok x : tk_ok (fw_tk x). Proof. unfold fw_tk, tk_ok, pt_t, etaphi_t, z0_t. cbn [t_pt t_eta t_phi t_pterr t_z0]. parts; apply wrapS_range; lia. Qed.
Lemma fw_mu_ok x : mu_ok (fw_mu x). Proof. unfold fw_mu, mu_ok, pt_t, etaphi_t. cbn [m_pt m_eta m_phi m_pterr]. parts; try (apply wrapS_range; lia); unfold inS; lia. Qed.

Lemma test_of_sized c e t : twelve e = true -> test_of c e t -> test_sized c t.
Proof.
  intros H12. apply Nat.eqb_eq in H12. unfold test_of, test_sized, regions_of. cbv zeta. intros (-> & -> & -> & -> & (DM & _) & (D1 & _) & (D2 & _) & (D3 & _) & (D4 & _)).
  parts; try assumption; apply arrays_dims; try exact H12; intros r; apply length_filled.
Qed.
Lemma test_of_ok c e t : twelve e = true -> test_of c e t -> test_ok t.
Proof.
  intros H12 HT. pose proof (test_of_sized c e t H12 HT) as SZ. unfold test_of in HT. cbv zeta in HT. destruct HT as (E1 & E2 & E3 & E4 & (DM & KM) & (D1 & R1) & (D2 & R2) & (D3 & R3) & (D4 & R4)).
  assert (Z0 : had_ok had0 /\ em_ok em0 /\ tk_ok tk0 /\ mu_ok mu0) by (unfold had_ok, em_ok, tk_ok, mu_ok, inS; cbn; lia). destruct Z0 as (Z1 & Z2 & Z3 & Z4).
  assert (I1 : Forall (Forall had_ok) (ri_calo (rt_ins t))) by (rewrite E1; apply Forall_map, Forall_forall; intros; apply filled_P; [apply fw_had_ok|exact Z1]).
  assert (I2 : Forall (Forall em_ok) (ri_em (rt_ins t))) by (rewrite E2; apply Forall_map, Forall_forall; intros; apply filled_P; [apply fw_em_ok|exact Z2]).
  assert (I3 : Forall (Forall tk_ok) (ri_tk (rt_ins t))) by (rewrite E3; apply Forall_map, Forall_forall; intros; apply filled_P; [apply fw_tk_ok|exact Z3]).
  assert (I4 : Forall (Forall mu_ok) (ri_mu12 (rt_ins t))) by (rewrite E4; apply Forall_map, Forall_forall; intros; apply filled_P; [apply fw_mu_ok|exact Z4]).
  assert (Q1 : Qhad had_d) by (unfold Qhad, inS; cbn; lia). assert (Q2 : Qem 0) by (unfold Qem, inS; lia). assert (Q3 : Qtk tk_d) by (unfold Qtk, inS; cbn; lia).
  assert (I5 : Forall (Forall mu_ok) (ri_mu (rt_ins t))).
  { apply Forall_forall. intros row Hr. destruct (In_nth _ _ [] Hr) as (m & Hm & <-). destruct DM as [LM _]. rewrite LM in Hm. specialize (KM m Hm). cbv beta zeta in KM. apply (kept_r 0 Qem Q2) in KM.
    - rewrite Forall_map in KM. eapply Forall_impl; [|exact KM]. intros x. apply mu_r.
    - repeat (apply Forall_app; split); apply shifted_r; apply (rows_P mu_ok); try exact I4; intros x; apply mu_r. }
  unfold test_ok. cbv zeta. split; [exact I1|]. split; [exact I2|]. split; [exact I3|]. split; [exact I5|]. split; [|split; [|split]].
  - apply (rows_back Qhad r_of_had); [intros x; apply had_r|apply D1|]. intros ie ip He Hp. apply (region_r had_d Qhad Q1 7 (NCALO c) (fun s => map r_of_had (nth s (ri_calo (rt_ins t)) [])) ie ip); [|apply R1; assumption]. intros s. apply (rows_P had_ok); [intros x; apply had_r|exact I1].
  - apply (rows_back Qem r_of_em); [intros x; apply em_r|apply D2|]. intros ie ip He Hp. apply (region_r 0 Qem Q2 7 (NEMCALO c) (fun s => map r_of_em (nth s (ri_em (rt_ins t)) [])) ie ip); [|apply R2; assumption]. intros s. apply (rows_P em_ok); [intros x; apply em_r|exact I2].
  - apply (rows_back Qtk r_of_tk); [intros x; apply tk_r|apply D3|]. intros ie ip He Hp. apply (region_r tk_d Qtk Q3 9 (NTRACK c) (fun s => map r_of_tk (nth s (ri_tk (rt_ins t)) [])) ie ip); [|apply R3; assumption]. intros s. apply (rows_P tk_ok); [intros x; apply tk_r|exact I3].
  - set (fib := map (map r_of_mu) (ri_mu (rt_ins t))) in *. assert (DF : dims2 4 (NMU c) fib) by (apply dims2_map; exact DM). destruct DF as [LF MF].
    set (work := repeat (repeat (repeat (rclear 0) (NMU c)) 3) 4). set (regs := repeat (repeat (rclear 0) (NMU c)) 18).
    assert (DW : dims3 4 3 (NMU c) work) by (split; [apply repeat_length|]; intros a Ha; apply repeat_spec in Ha; subst; split; [apply repeat_length|]; intros a Ha; apply repeat_spec in Ha; subst; apply repeat_length).
    assert (DR : dims2 18 (NMU c) regs) by (split; [apply repeat_length|]; intros a Ha; apply repeat_spec in Ha; subst; apply repeat_length).
    destruct (R4 work regs DW DR) as (st & ER). destruct (regionize_muon_spec 0 (NMU c) work fib regs DW DR LF) as (out & st' & ER' & _ & SP); [intros a Ha; rewrite (MF a Ha); lia|].
    rewrite ER in ER'. assert (EO : map (map r_of_mu) (rt_mu t) = out) by congruence. clear ER ER'.
    apply (rows_back Qem r_of_mu); [intros x; apply mu_r|apply D4|]. intros ie ip He Hp. destruct (SP ie ip He Hp) as [_ EK]. rewrite <- EO, nth_map_map in EK. rewrite EK. apply (kept_r 0 Qem Q2 (NMU c) (mcands (NMU c) (arrivals 1 (NMU c) fib) ie ip)); [|apply kept_K].
    apply muon_r. intros s. rewrite arrivals_one. apply Forall_forall. intros x Hx.
    assert (Hx' : In x (nth s fib [])) by (rewrite <- (firstn_skipn (NMU c)); apply in_or_app; now left). unfold fib in Hx'. rewrite nth_map_map in Hx'.
    pose proof (rows_P mu_ok (r_ok Qem) r_of_mu (ri_mu (rt_ins t)) (fun x => proj2 (mu_r x)) I5 s) as G. rewrite Forall_forall in G. exact (G x Hx').
Qed.
