(** Output ranges of pfalgo3_full for arbitrary inputs, and the wrapper theorem. *)
From Verif Require Import Base BaseFacts Data PFHw PFTotal Encoding SpecEnc EncFacts.

Lemma foldM_inv {A S} (f : S -> A -> res S) (P : S -> Prop) l s s' :
  P s -> (forall s x s1, P s -> In x l -> f s x = Ok s1 -> P s1) -> foldM f l s = Ok s' -> P s'.
Proof.
  revert s. induction l as [|x l IH]; cbn [foldM]; intros s Hs Hf H; [injection H as <-; exact Hs|].
  apply bind_Ok in H as (s1 & H1 & H2). apply (IH s1); [apply (Hf s x); cbn; auto| |exact H2].
  intros t y t1 Ht Hy. apply Hf; cbn; auto.
Qed.

Lemma Forall_upd {A} (P : A -> Prop) l i v : Forall P l -> P v -> Forall P (upd l i v).
Proof. intros H Hv. revert i. induction H as [|x l Hx Hl IH]; intros [|i]; cbn [upd]; constructor; auto. Qed.
Lemma Forall_wr {A} (P : A -> Prop) l i v l' : Forall P l -> P v -> wr l i v = Ok l' -> Forall P l'.
Proof. unfold wr. intros H Hv. destruct (_ <? _)%nat; [|discriminate]. intros [= <-]. apply Forall_upd; assumption. Qed.
Lemma Forall_rd {A} (P : A -> Prop) l i v : Forall P l -> rd l i = Ok v -> P v.
Proof. unfold rd. intros H. destruct (nth_error l i) eqn:E; [|discriminate]. intros [= <-]. eapply Forall_forall; [exact H|eapply nth_error_In; exact E]. Qed.

Lemma shift_loop_Forall {T} (P : T -> Prop) c1 c2 x n a a' : P x -> Forall P a -> shift_loop c1 c2 x n a = Ok a' -> Forall P a'.
Proof.
  intros Hx Ha. apply (foldM_inv _ (Forall P)); [exact Ha|]. intros s i s1 Hs _ E. unfold shift_body in E.
  apply bind_Ok in E as (ai & _ & E). destruct (c1 ai); [|injection E as <-; exact Hs].
  destruct i as [|j]; [exact (Forall_wr P _ _ _ _ Hs Hx E)|].
  apply bind_Ok in E as (aj & Ej & E). destruct (c2 aj); [exact (Forall_wr P _ _ _ _ Hs Hx E)|]. exact (Forall_wr P _ _ _ _ Hs (Forall_rd P _ _ _ Hs Ej) E).
Qed.

Lemma pt_t_rg x : inS 16 (pt_t x).
Proof. apply wrapS_range. lia. Qed.
Lemma inS0 n : 0 < n -> inS n 0.
Proof. intros H. unfold inS. pose proof (Z.pow_pos_nonneg 2 (n-1)). lia. Qed.

Lemma calo_ne_ok c s e old p : had_ok c -> tk2calo_caloalgo_one c s e old = Ok p -> ne_ok p.
Proof.
  intros (H1 & H2 & H3 & _) H. unfold tk2calo_caloalgo_one in H. apply bind_Ok in H as (cp & Hcp & H). injection H as <-.
  assert (R : inS 16 cp).
  { destruct (s =? 0); [injection Hcp as <-; exact H1|]. cbv zeta in Hcp. destruct (_ >? 0); [|injection Hcp as <-; apply inS0; lia].
    apply bind_Ok in Hcp as (x & _ & Hx). injection Hx as <-. destruct (_ >? _); [apply pt_t_rg|apply inS0; lia]. }
  unfold ne_ok, inU, PID_Neutral. cbn [n_pt n_eta n_phi n_id]. change (2 ^ 3) with 8.
  split; [exact R|]. destruct (negb (cp =? 0)); (split; [assumption || (apply inS0; lia)|split; [assumption || (apply inS0; lia)|lia]]).
Qed.

Lemma had_sub_ok c s k : had_ok c -> had_ok (em2calo_sub_one c s k).
Proof.
  intros (H1 & H2 & H3 & H4). unfold em2calo_sub_one. cbv zeta. destruct (_ || _).
  - repeat split; cbn; lia.
  - unfold had_ok. cbn [h_pt h_eta h_phi h_empt]. split; [apply pt_t_rg|]. split; [exact H2|]. split; [exact H3|].
    destruct (_ >? 0); [apply pt_t_rg|apply inS0; lia].
Qed.

Lemma em_res_ok c s r : em_ok c -> tk2em_emalgo_one c s = Ok r -> inS 16 (snd r).
Proof.
  intros (H1 & _) H. unfold tk2em_emalgo_one in H. destruct (s =? 0); [injection H as <-; exact H1|]. cbv zeta in H.
  apply bind_Ok in H as (a & _ & H). apply bind_Ok in H as (b & _ & H). apply bind_Ok in H as (d & _ & H). apply bind_Ok in H as (e & _ & H).
  destruct (_ || _); [injection H as <-; apply inS0; lia|]. destruct (_ >? 0); injection H as <-; [apply pt_t_rg|apply inS0; lia].
Qed.

Lemma ch0_ok : ch_ok ch0.
Proof. repeat split; cbn; lia. Qed.

Lemma pf_ranges mem nsel em had track mu out :
  Forall em_ok em -> Forall had_ok had -> Forall tk_ok track -> (forall i, ne_ok (junk_tmp mem i)) ->
  pfalgo3_full mem nsel em had track mu = Ok out ->
  Forall ch_ok (o_ch out) /\ Forall ne_ok (o_pho out) /\ Forall ne_ok (o_ne out) /\ Forall ch_ok (o_mu out).
Proof.
  intros HE HH HT HJ. unfold pfalgo3_full. cbv zeta. intros H.
  apply bind_Ok in H as ((om & isMu) & Hmu & H).
  apply bind_Ok in H as (r & Hr & H). apply bind_Ok in H as (l & Hl & H). apply bind_Ok in H as (sums & Hs & H).
  apply bind_Ok in H as (ne & Hne & H). apply bind_Ok in H as (outne & Hsort & H). injection H as <-. cbn [o_ch o_pho o_ne o_mu].
  split; [|split; [|split]].
  - apply Forall_forall. intros c Hc. unfold tk2calo_tkalgo in Hc. apply in_map_iff in Hc as ([[tk [a b]] bits] & <- & Hin).
    apply in_combine_l, in_combine_l in Hin. destruct (proj1 (Forall_forall _ _) HT tk Hin) as (P1 & P2 & P3 & P4 & P5).
    unfold tk2calo_tkalgo_one. cbv zeta. destruct (_ || _); [|exact ch0_ok].
    unfold ch_ok. cbn [c_pt c_eta c_phi c_id c_z0]. unfold inU, PID_Electron, PID_Muon, PID_Charged. change (2 ^ 3) with 8.
    split; [assumption|split; [assumption|split; [assumption|split; [destruct a, b; lia|assumption]]]].
  - apply Forall_forall. intros p Hp. unfold tk2em_photons, mapi in Hp. apply in_map_iff in Hp as ([i [c pt]] & <- & Hin). cbn [fst snd] in *.
    apply in_indexed in Hin. rewrite nth_error_combine in Hin.
    destruct (nth_error em i) as [c'|] eqn:Ec; [|discriminate]. destruct (nth_error (map snd r) i) as [pt'|] eqn:Ep; [|discriminate]. injection Hin as -> ->.
    assert (OKc : em_ok c) by (eapply Forall_forall; [exact HE|eapply nth_error_In; exact Ec]).
    assert (R : inS 16 pt).
    { rewrite nth_error_map in Ep. destruct (nth_error r i) as [rr|] eqn:Er; [|discriminate]. injection Ep as <-.
      apply mapM_Ok_inv, Forall2_nth_error in Hr as [_ Hr].
      destruct (nth_error (combine em (tk2em_sumtk track (tk2em_link em track isMu) (length em))) i) as [[c2 s2]|] eqn:E2.
      - specialize (Hr i _ _ E2 Er). cbn in Hr. eapply em_res_ok; [|exact Hr]. apply nth_error_In, in_combine_l in E2. eapply Forall_forall; eassumption.
      - exfalso. rewrite nth_error_combine in E2. rewrite Ec in E2. unfold tk2em_sumtk in E2. rewrite nth_error_map, nth_error_seq in E2.
        assert (i < length em)%nat by (apply nth_error_Some; congruence). destruct (Nat.ltb_spec i (length em)); [discriminate|lia]. }
    destruct OKc as (P1 & P2 & P3 & P4). unfold tk2em_photons_one. cbv zeta. unfold ne_ok. cbn [n_pt n_eta n_phi n_id].
    unfold inU, PID_Photon. change (2 ^ 3) with 8.
    split; [exact R|]. destruct (negb (pt =? 0)); (split; [assumption || (apply inS0; lia)|split; [assumption || (apply inS0; lia)|lia]]).
  - assert (NE : Forall ne_ok ne).
    { apply mapM_Ok_inv in Hne. apply Forall_forall. intros p Hp. apply In_nth_error in Hp as [i Hi]. apply Forall2_nth_error in Hne as [Ln Hne].
      destruct (nth_error_lt (indexed (combine (em2calo_sub had (em2calo_sumem em (map fst r) (em2calo_link em had) (length had))) sums)) i) as [[j [c [s e]]] E].
      { rewrite Ln. apply nth_error_Some. congruence. }
      specialize (Hne i _ _ E Hi). cbn in Hne. eapply calo_ne_ok; [|exact Hne].
      rewrite nth_error_indexed in E. rewrite nth_error_combine in E.
      destruct (nth_error (em2calo_sub had (em2calo_sumem em (map fst r) (em2calo_link em had) (length had))) i) as [c'|] eqn:Ec; [|discriminate].
      destruct (nth_error sums i); [|discriminate]. injection E as _ -> _.
      apply nth_error_In in Ec. unfold em2calo_sub in Ec. apply in_map_iff in Ec as ([h [s1 k1]] & <- & Hin). apply in_combine_l in Hin.
      apply had_sub_ok. eapply Forall_forall; eassumption. }
    unfold ptsort_hwopt in Hsort. revert Hsort. apply (foldM_inv _ (Forall ne_ok)).
    + apply Forall_forall. intros p Hp. apply in_map_iff in Hp as (i & <- & _). destruct (HJ i) as (J1 & J2 & J3 & J4). unfold ne_zero_pt, ne_ok. cbn [n_pt n_eta n_phi n_id].
      split; [apply inS0; lia|auto].
    + intros s x s1 Hs1 Hx E. eapply shift_loop_Forall; [|exact Hs1|exact E]. exact (proj1 (Forall_forall _ _) NE x Hx).
  - unfold spfph_mualgo in Hmu. change om with (fst (om, isMu)). revert Hmu. apply (foldM_inv _ (fun st => Forall ch_ok (fst st))); [constructor|].
    intros [o b] [m bits] s1 Hs1 _ E. cbn [fst] in Hs1. unfold spfph_mualgo_step in E.
    destruct (last_set bits) as [ib|]; [destruct (m_pt m >? 0)|].
    + apply bind_Ok in E as (tk & Etk & E). apply bind_Ok in E as (im & _ & E). injection E as <-. cbn [fst].
      apply Forall_app. split; [exact Hs1|]. constructor; [|constructor].
      destruct (Forall_rd _ _ _ _ HT Etk) as (P1 & P2 & P3 & P4 & P5). unfold ch_ok. cbn [c_pt c_eta c_phi c_id c_z0].
      unfold inU, PID_Muon. change (2 ^ 3) with 8.
      repeat (split; [assumption|]). split; [lia|assumption].
    + injection E as <-. apply Forall_app. split; [exact Hs1|]. constructor; [exact ch0_ok|constructor].
    + injection E as <-. apply Forall_app. split; [exact Hs1|]. constructor; [exact ch0_ok|constructor].
Qed.

Lemma c16 nch em had tk mu data : (2 * (length em + length had + length tk + length mu) <= length data)%nat ->
  (2 * (length em + length had + length tk + length mu) <= nch)%nat ->
  Forall em_ok em -> Forall had_ok had -> Forall tk_ok tk -> Forall mu_ok mu ->
  exists w, mp7wrapped_pack_in nch em had tk mu data = Ok w /\
            mp7wrapped_unpack_in nch (length em) (length had) (length tk) (length mu) w = Ok (em, had, tk, mu).
Proof. intros L H HE HH HT HM. eexists. split; [apply pack_in_layout; assumption|]. apply unpack_in_layout; assumption. Qed.

Lemma c17 nch ch pho ne mu data oldpho oldne : (2 * (length ch + length pho + length ne + length mu) <= length data)%nat ->
  (2 * (length ch + length pho + length ne + length mu) <= nch)%nat ->
  Forall ch_ok ch -> Forall ne_ok pho -> Forall ne_ok ne -> Forall ch_ok mu ->
  length oldpho = length pho -> length oldne = length ne ->
  exists w, mp7wrapped_pack_out nch ch pho ne mu data = Ok w /\
            mp7wrapped_unpack_out nch (length ch) (length mu) w oldpho oldne = Ok (ch, zip_puppi oldpho pho, zip_puppi oldne ne, mu).
Proof. intros L H HE HH HT HM Lp Ln. eexists. split; [apply pack_out_layout; assumption|]. apply unpack_out_layout; assumption. Qed.

Lemma c18 nch nsel mem em had tk mu data out0 oldpho oldne :
  (2 * (length em + length had + length tk + length mu) <= Nat.min nch (length data))%nat ->
  (2 * (length tk + length em + nsel + length mu) <= Nat.min nch (length out0))%nat ->
  Forall em_ok em -> Forall had_ok had -> Forall tk_ok tk -> Forall mu_ok mu ->
  (forall i, ne_ok (junk_tmp mem i)) -> length oldpho = length em -> length oldne = nsel ->
  exists w, mp7wrapped_pack_in nch em had tk mu data = Ok w /\
  match pfalgo3_full mem nsel em had tk mu with
  | Ok o => exists d, mp7wrapped_pfalgo3_full nch (length em) (length had) (length tk) (length mu) nsel mem w out0 = Ok d /\
              mp7wrapped_unpack_out nch (length tk) (length mu) d oldpho oldne
              = Ok (o_ch o, zip_puppi oldpho (o_pho o), zip_puppi oldne (o_ne o), o_mu o)
  | UB k => mp7wrapped_pfalgo3_full nch (length em) (length had) (length tk) (length mu) nsel mem w out0 = UB k
  end.
Proof.
  intros H H' HE HH HT HM HJ Lp Ln.
  destruct (c16 nch em had tk mu data ltac:(lia) ltac:(lia) HE HH HT HM) as (w & Hw & Hu). exists w. split; [exact Hw|].
  unfold mp7wrapped_pfalgo3_full. rewrite Hu. cbn [bind].
  destruct (pfalgo3_full mem nsel em had tk mu) as [o|k] eqn:E; [|reflexivity]. cbn [bind].
  destruct (pf_ranges _ _ _ _ _ _ _ HE HH HT HJ E) as (R1 & R2 & R3 & R4).
  destruct (pf_shape _ _ _ _ _ _ _ E) as (L1 & L2 & L3 & L4 & _).
  rewrite <- L1, <- L4. apply c17; try assumption; lia.
Qed.

Lemma mapM_total {A B} (f : A -> res B) (P : B -> Prop) l :
  (forall x, In x l -> exists y, f x = Ok y /\ P y) -> exists r, mapM f l = Ok r /\ length r = length l /\ Forall P r.
Proof.
  induction l as [|x l IH]; intros H; [exists []; repeat split; constructor|].
  destruct (H x (or_introl eq_refl)) as (y & Hy & Py). destruct IH as (r & Hr & Lr & Fr); [intros z Hz; apply H; right; exact Hz|].
  exists (y :: r). cbn [mapM]. rewrite Hy. cbn [bind]. rewrite Hr. cbn [bind length]. repeat split; [lia|constructor; assumption].
Qed.

Lemma mapM_total_seq {B} (f : nat -> res B) (P : B -> Prop) n :
  (forall i, (i < n)%nat -> exists y, f i = Ok y /\ P y) -> exists r, mapM f (seq 0 n) = Ok r /\ length r = n /\ Forall P r.
Proof.
  intros H. destruct (mapM_total f P (seq 0 n)) as (r & H1 & H2 & H3); [intros i Hi; apply in_seq in Hi; apply H; lia|].
  rewrite seq_length in H2. eauto.
Qed.

Lemma rd_two {A} (data : list A) i offs : (2*i+1+offs < length data)%nat -> exists x y, rd data (2*i+0+offs) = Ok x /\ rd data (2*i+1+offs) = Ok y.
Proof.
  intros H. destruct (nth_error_lt data (2*i+0+offs)) as [x Hx]; [lia|]. destruct (nth_error_lt data (2*i+1+offs)) as [y Hy]; [lia|].
  exists x, y. unfold rd. rewrite Hx, Hy. auto.
Qed.


Lemma wrapS_ok n x : 0 < n -> inS n (wrapS n x).
Proof. apply wrapS_range. Qed.

Lemma unp_em n offs data : (2 * n + offs <= length data)%nat -> exists r, mp7_unpack_em n offs data = Ok r /\ length r = n /\ Forall em_ok r.
Proof.
  intros H. apply mapM_total_seq. intros i Hi.
  destruct (rd_two data i offs) as (x & y & E0 & E1); [lia|]. eexists. rewrite E0. cbn [bind]. rewrite E1. cbn [bind]. split; [reflexivity|].
  split; [|split; [|split]]; apply wrapS_ok; lia.
Qed.
Lemma unp_mu n offs data : (2 * n + offs <= length data)%nat -> exists r, mp7_unpack_mu n offs data = Ok r /\ length r = n /\ Forall mu_ok r.
Proof.
  intros H. apply mapM_total_seq. intros i Hi.
  destruct (rd_two data i offs) as (x & y & E0 & E1); [lia|]. eexists. rewrite E0. cbn [bind]. rewrite E1. cbn [bind]. split; [reflexivity|].
  split; [|split; [|split]]; apply wrapS_ok; lia.
Qed.
Lemma unp_had n offs data : (2 * n + offs <= length data)%nat -> exists r, mp7_unpack_had n offs data = Ok r /\ length r = n /\ Forall had_ok r.
Proof.
  intros H. apply mapM_total_seq. intros i Hi.
  destruct (rd_two data i offs) as (x & y & E0 & E1); [lia|]. eexists. rewrite E0. cbn [bind]. rewrite E1. cbn [bind]. split; [reflexivity|].
  split; [|split; [|split]]; apply wrapS_ok; lia.
Qed.
Lemma unp_tk n offs data : (2 * n + offs <= length data)%nat -> exists r, mp7_unpack_tk n offs data = Ok r /\ length r = n /\ Forall tk_ok r.
Proof.
  intros H. apply mapM_total_seq. intros i Hi.
  destruct (rd_two data i offs) as (x & y & E0 & E1); [lia|]. eexists. rewrite E0. cbn [bind]. rewrite E1. cbn [bind]. split; [reflexivity|].
  split; [|split; [|split; [|split]]]; apply wrapS_ok; lia.
Qed.

Lemma unpack_in_total nch nem nhad ntk nmu data : length data = nch -> (2 * (nem + nhad + ntk + nmu) <= nch)%nat ->
  exists em had tk mu, mp7wrapped_unpack_in nch nem nhad ntk nmu data = Ok (em, had, tk, mu) /\
    length em = nem /\ length had = nhad /\ length tk = ntk /\ length mu = nmu /\
    Forall em_ok em /\ Forall had_ok had /\ Forall tk_ok tk /\ Forall mu_ok mu.
Proof.
  intros L H. unfold mp7wrapped_unpack_in. rewrite assert_Ok by lia. cbn [bind].
  destruct (unp_em nem 0 data) as (em & E1 & L1 & F1); [lia|]. rewrite E1. cbn [bind].
  destruct (unp_had nhad (2 * nem) data) as (had & E2 & L2 & F2); [lia|]. rewrite E2. cbn [bind].
  destruct (unp_tk ntk (2 * nhad + 2 * nem) data) as (tk & E3 & L3 & F3); [lia|]. rewrite E3. cbn [bind].
  destruct (unp_mu nmu (2 * ntk + (2 * nhad + 2 * nem)) data) as (mu & E4 & L4 & F4); [lia|]. rewrite E4. cbn [bind].
  exists em, had, tk, mu. repeat (split; [assumption || reflexivity|]). assumption.
Qed.

Lemma misfit_in nch em had tk mu data : (nch < 2 * (length em + length had + length tk + length mu))%nat ->
  mp7wrapped_pack_in nch em had tk mu data = UB AssertFail.
Proof. intros H. unfold mp7wrapped_pack_in, assert_fits. destruct (Nat.leb_spec (2 * length em + 2 * length tk + 2 * length had + 2 * length mu) nch); [lia|reflexivity]. Qed.
Lemma misfit_out nch ch pho ne mu data : (nch < 2 * (length ch + length pho + length ne + length mu))%nat ->
  mp7wrapped_pack_out nch ch pho ne mu data = UB AssertFail.
Proof. intros H. unfold mp7wrapped_pack_out, assert_fits. destruct (Nat.leb_spec (2 * length ch + 2 * length pho + 2 * length ne + 2 * length mu) nch); [lia|reflexivity]. Qed.

Lemma configs_fit :
  Forall (fun c => (2 * (NEMCALO c + NCALO c + NTRACK c + NMU c) <= MP7_NCHANN)%nat /\
                   (2 * (NTRACK c + NEMCALO c + NSELCALO c + NMU c) <= MP7_NCHANN)%nat) [cfg_TESTMP7; cfg_TESTCTP7; cfg_default] /\
  (2 * (NEMCALO cfg_TESTCTP7 + NCALO cfg_TESTCTP7 + NTRACK cfg_TESTCTP7 + NMU cfg_TESTCTP7) <= CTP7_NCHANN_IN)%nat /\
  (2 * (NTRACK cfg_TESTCTP7 + NEMCALO cfg_TESTCTP7 + NSELCALO cfg_TESTCTP7 + NMU cfg_TESTCTP7) <= CTP7_NCHANN_OUT)%nat.
Proof. unfold MP7_NCHANN, CTP7_NCHANN_IN, CTP7_NCHANN_OUT. repeat split; try (repeat constructor); cbn; lia. Qed.
