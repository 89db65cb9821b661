(** Proofs about the PUPPI test program. *)
From Verif Require Import Base BaseFacts MapiFacts Data PFHw PFRef PFTotal SpecPF Puppi SpecPuppi PuppiProofs Bhv Vtx EncFacts EncProofs
  Discrete Convert DiscreteIO SpecIO RegionLoop SpecTest PFTestProofs PuppiTest SpecPuppiTest.

(** ** The two programs agree whenever both are defined *)
Lemma ref_sum_inv pfch z n s t : Forall (fun c => inS 16 (c_pt c)) pfch -> 0 <= s ->
  foldM (fun sum c =>
    if (z - c_z0 c >? DZMAX) || (z - c_z0 c <? - DZMAX) then Ok sum
    else let dr2 := dr2_int (c_eta c) (c_phi c) (n_eta n) (n_phi n) in
         if dr2 <=? DR2MAX
         then let dr2short := wrapU 9 (Z.shiftr dr2 5) in
              let pt2 := wrapS 32 (c_pt c * c_pt c) in
              let term := 32768 / (if dr2short >? 0 then dr2short else 1) in
              do term <- i32 (Z.min (Z.shiftr pt2 5) 131071 * term);
              i32 (sum + term)
         else Ok sum) pfch s = Ok t -> s < 2147483648 -> s + alpha_sum z pfch n < 2147483648.
Proof.
  intros HF. revert s. induction HF as [|c l Hc HF IH]; intros s Hs H S31; [cbn; lia|].
  change (alpha_sum z (c :: l) n) with (alpha_term z c n + alpha_sum z l n) in *.
  pose proof (alpha_term_nonneg z c n) as T0. cbn [foldM] in H. rewrite cut_eq in H. cbv zeta in H. change dr2_int with dist2 in H. unfold DR2MAX in H.
  unfold alpha_term in T0 |- * at 1. set (d := dist2 (c_eta c) (c_phi c) (n_eta n) (n_phi n)) in *.
  assert (D0 : 0 <= d) by apply dist2_nonneg. clearbody d.
  destruct (Z.abs (z - c_z0 c) <=? 256); cbn [negb andb] in *; [|cbn [bind] in H; apply IH in H; lia].
  destruct (Z.leb_spec d 8404) as [Hd|Hd]; [|cbn [bind] in H; apply IH in H; lia].
  unfold inS in Hc. change (2 ^ (16 - 1)) with 32768 in Hc.
  rewrite !shiftr5, wrapU9 in H by lia. rewrite (wrapS32 (c_pt c * c_pt c)) in H by nia.
  replace (if d / 32 >? 0 then d / 32 else 1) with (Z.max 1 (d / 32)) in H by (destruct (Z.gtb_spec (d / 32) 0); lia).
  assert (P0 : 0 <= c_pt c * c_pt c / 32) by (apply Z.div_pos; nia).
  apply bind_Ok in H as (s1 & H1 & H). apply bind_Ok in H1 as (tm & H0 & H1).
  apply i32_inv in H0 as (-> & B0). apply i32_inv in H1 as (-> & B1).
  apply IH in H; lia.
Qed.
Lemma eq_when_defined tab pfch pfne z r r' : table_ok tab -> Forall (fun c => inS 16 (c_pt c)) pfch -> Forall (fun n => inS 16 (n_pt n)) pfne -> (forall n, In n pfne -> n_pt n = 0 -> n_puppi n = 0) ->
  simple_puppi_hw tab pfch pfne z = Ok r -> simple_puppi_ref tab pfch pfne z = Ok r' ->
  r = r' /\ r = map (fun n => set_puppi n (puppi_pt tab (n_pt n) (alpha_sum z pfch n))) pfne.
Proof.
  intros HT HC HP H0 Hh Hr.
  assert (E1 : r' = map (fun n => set_puppi n (puppi_pt tab (n_pt n) (alpha_sum z pfch n))) pfne).
  { assert (S : forall n, In n pfne -> n_pt n <> 0 -> alpha_sum z pfch n < 2147483648).
    { intros n Hn Np. unfold simple_puppi_ref in Hr. apply mapM_Ok_inv, Forall2_nth_error in Hr as [L Hr]. apply In_nth_error in Hn as [i Hi].
      destruct (nth_error_lt r' i) as [m Hm]; [rewrite <- L; apply nth_error_Some; congruence|]. specialize (Hr i n m Hi Hm). cbv beta in Hr.
      destruct (Z.eqb_spec (n_pt n) 0); [contradiction|]. apply bind_Ok in Hr as (s & Hs & _). unfold ref_sum in Hs. apply ref_sum_inv in Hs; [lia|exact HC|lia|lia]. }
    rewrite ref_spec in Hr by auto. injection Hr as <-. apply map_ext_in. intros n Hn. destruct (Z.eqb_spec (n_pt n) 0) as [E|E]; [|reflexivity].
    rewrite E, puppi_pt_0. destruct n as [a b c d e]. unfold set_puppi. cbn [n_pt n_eta n_phi n_id] in *. specialize (H0 _ Hn E). cbn [n_puppi] in H0. congruence. }
  assert (E2 : r = map (fun n => set_puppi n (puppi_pt tab (n_pt n) (alpha_sum z pfch n))) pfne).
  { assert (L : length r = length pfne) by (unfold simple_puppi_hw in Hh; apply bind_Ok in Hh as (es & He & Hh); apply length_mapM in He, Hh; rewrite combine_length in Hh; lia).
    apply nth_error_ext. intros i. destruct (nth_error pfne i) as [n|] eqn:En.
    - rewrite nth_error_map, En. cbn [option_map]. destruct (hw_one _ _ _ _ _ _ _ Hh En) as (s & m & Hs & Hm & Ha). rewrite Hm. f_equal.
      destruct (Z.eq_dec (n_pt n) 0) as [E|E].
      + rewrite E, puppi_pt_0. unfold hw_apply in Ha. cbv zeta in Ha. rewrite E in Ha. unfold set_puppi. rewrite E.
        destruct (_ <? PUPPI_TABLE_SIZE); [apply bind_Ok in Ha as (w & _ & Ha)|]; injection Ha as <-; reflexivity.
      + assert (A : alpha_sum z pfch n < 2147483648).
        { unfold simple_puppi_ref in Hr. apply mapM_Ok_inv, Forall2_nth_error in Hr as [L' Hr].
          destruct (nth_error_lt r' i) as [m' Hm']; [rewrite <- L'; apply nth_error_Some; congruence|]. specialize (Hr i n m' En Hm'). cbv beta in Hr.
          destruct (Z.eqb_spec (n_pt n) 0); [contradiction|]. apply bind_Ok in Hr as (s' & Hs' & _). unfold ref_sum in Hs'. apply ref_sum_inv in Hs'; [lia|exact HC|lia|lia]. }
        pose proof (alpha_sum_nonneg z pfch n). unfold hw_sum in Hs. rewrite hw_sum_eq in Hs by lia. injection Hs as <-.
        rewrite hw_apply_eq in Ha; [|exact HT|exact (proj1 (Forall_forall _ _) HP n (nth_error_In _ _ En))|lia]. injection Ha as <-. reflexivity.
    - rewrite (proj2 (nth_error_None _ _)), (proj2 (nth_error_None _ _)); [reflexivity| |]; rewrite ?map_length, ?L; apply nth_error_None; exact En. }
  split; congruence.
Qed.

(** ** Ranges of the reference's outputs *)
Lemma em_ref_rg c s r : em_ok c -> em_ref_photon c s = Ok r -> inS 16 (snd r).
Proof.
  intros (H1 & _) H. unfold em_ref_photon in H. destruct (s >? 0); [|injection H as <-; exact H1]. cbv zeta in H.
  apply bind_Ok in H as (a & _ & H). apply bind_Ok in H as (b & _ & H). apply bind_Ok in H as (d & _ & H). apply bind_Ok in H as (e & _ & H).
  destruct (_ || _); [injection H as <-; apply inS0; lia|]. destruct (_ >? 0); injection H as <-; [apply pt_t_rg|apply inS0; lia].
Qed.
Lemma em_ref_had_rg kv em isem e2c i h : had_ok h -> inS 16 (h_pt (em_ref_had kv em isem e2c i h)).
Proof.
  intros (H1 & _). unfold em_ref_had. destruct (fold_left _ _ _) as [sub keep]. cbv zeta.
  destruct (_ <=? _); [apply inS0; lia|]. destruct (_ && _); [apply inS0; lia|]. apply pt_t_rg.
Qed.
Lemma ref_ranges mem nsel em had track mu out : Forall em_ok em -> Forall had_ok had -> Forall tk_ok track ->
  pfalgo3_full_ref mem nsel em had track mu = Ok out ->
  Forall (fun c => inS 16 (c_pt c)) (o_ch out) /\ Forall (fun n => inS 16 (n_pt n)) (o_pho out ++ o_ne out).
Proof.
  intros HE HH HT H. unfold pfalgo3_full_ref, pfalgo3_full_ref_gen in H.
  apply bind_Ok in H as ((om & isMu) & E1 & H). apply bind_Ok in H as (((isEle & op) & calo) & E2 & H). apply bind_Ok in H as (((good & sums) & errs) & E3 & H).
  apply bind_Ok in H as (subpt & E4 & H). apply bind_Ok in H as (on & E5 & H). injection H as <-. cbn [o_ch o_pho o_ne o_mu].
  unfold pfalgo3_em_ref in E2. apply bind_Ok in E2 as ((tk2em & sumtk) & F1 & E2). apply bind_Ok in E2 as (emres & F2 & E2). apply bind_Ok in E2 as (ie & F3 & E2). injection E2 as <- <- <-.
  split; [|apply Forall_app; split].
  - apply Forall_forall. intros c Hc. apply in_map_iff in Hc as ([[tk [a b]] g] & <- & Hin). apply in_combine_l, in_combine_l in Hin.
    destruct (proj1 (Forall_forall _ _) HT tk Hin) as (P1 & _). unfold had_ref_ch. destruct g; [exact P1|apply inS0; lia].
  - apply Forall_forall. intros p Hp. unfold mapi in Hp. apply in_map_iff in Hp as ([i [c [b pt]]] & <- & Hin). cbn [n_pt snd fst] in *.
    apply in_indexed in Hin. apply nth_error_In, in_combine_r in Hin. apply mapM_Ok_inv in F2. apply In_nth_error in Hin as [j Hj]. apply Forall2_nth_error in F2 as [L F2].
    destruct (nth_error_lt (combine em sumtk) j) as [[c2 s2] E]; [rewrite L; apply nth_error_Some; congruence|]. specialize (F2 j _ _ E Hj). cbn in F2.
    change pt with (snd (b, pt)). eapply em_ref_rg; [|exact F2]. apply nth_error_In, in_combine_l in E. eapply Forall_forall; eassumption.
  - assert (NE : Forall (fun n => inS 16 (n_pt n)) (mapi (fun i '(c, p) => had_ref_ne c p (junk_ne_all mem i)) (combine (mapi (em_ref_had true em (map fst emres) (map (best_match_em_ref DR2MAX_EM_CALO had) em)) had) subpt))).
    { apply Forall_forall. intros p Hp. unfold mapi at 1 in Hp. apply in_map_iff in Hp as ([i [c sp]] & <- & Hin). cbn [fst snd] in *. apply in_indexed in Hin. apply nth_error_In, in_combine_r in Hin.
      unfold had_ref_ne. destruct (sp >? 0); [|apply inS0; lia]. cbn [n_pt]. apply In_nth_error in Hin as [j Hj]. apply mapM_Ok_inv, Forall2_nth_error in E4 as [L E4].
      match type of L with length ?l = _ => destruct (nth_error_lt l j) as [[c2 [s2 e2]] E] end; [rewrite L; apply nth_error_Some; congruence|]. specialize (E4 j _ _ E Hj). cbn in E4.
      apply nth_error_In, in_combine_l in E. unfold mapi in E. apply in_map_iff in E as ([k h] & <- & E). apply in_indexed, nth_error_In in E. cbn [fst snd] in *.
      assert (HO : had_ok h) by (eapply Forall_forall; eassumption).
      unfold had_ref_subpt in E4. destruct (s2 >? 0); [|injection E4 as <-; apply em_ref_had_rg; exact HO]. cbv zeta in E4. apply bind_Ok in E4 as (x & _ & E4). injection E4 as <-.
      destruct (_ && _); [apply pt_t_rg|apply inS0; lia]. }
    unfold ptsort_ref in E5. revert E5. apply (foldM_inv _ (Forall (fun n => inS 16 (n_pt n)))).
    + apply Forall_forall. intros p Hp. apply in_map_iff in Hp as (i & <- & _). apply inS0. lia.
    + intros s x s1 Hs Hx E. unfold ptsort_ref_step in E. destruct (find _ _); [|injection E as <-; exact Hs]. apply bind_Ok in E as (o' & Ef & E).
      eapply Forall_wr; [|exact (proj1 (Forall_forall _ _) NE x Hx)|exact E]. revert Ef. apply (foldM_inv _ (Forall (fun n => inS 16 (n_pt n)))); [exact Hs|].
      intros a i a1 Ha _ Ea. apply bind_Ok in Ea as (v & Ev & Ea). eapply Forall_wr; [exact Ha| |exact Ea]. exact (Forall_rd _ _ _ _ Ha Ev).
Qed.

(** ** One test *)
Lemma read_tracks {A B} (f : A -> B) l n : (n <= length l)%nat -> mapM (fun i => rmap f (rd l i)) (seq 0 n) = Ok (firstn n (map f l)).
Proof.
  intros H. assert (G : forall k m, (k + m <= length l)%nat -> mapM (fun i => rmap f (rd l i)) (seq k m) = Ok (firstn m (skipn k (map f l)))).
  { intros k m. revert k. induction m as [|m IH]; intros k Hk; [reflexivity|]. cbn [seq mapM].
    destruct (nth_error_lt l k ltac:(lia)) as [x Hx]. unfold rd at 1. rewrite Hx. cbn [rmap bind]. rewrite IH by lia. cbn [bind].
    assert (S : skipn k (map f l) = f x :: skipn (S k) (map f l)).
    { assert (Hf : nth_error (map f l) k = Some (f x)) by (rewrite nth_error_map, Hx; reflexivity). clear -Hf. revert Hf. generalize (map f l). induction k; intros [|y l0]; cbn; intros; try discriminate; [congruence|apply IHk; assumption]. }
    rewrite S. reflexivity. }
  exact (G 0%nat n H).
Qed.
Lemma read_beyond {A B} (f : A -> B) l n : (length l < n)%nat -> mapM (fun i => rmap f (rd l i)) (seq 0 n) = UB OutOfBounds.
Proof.
  intros H. replace n with (length l + (1 + (n - length l - 1)))%nat by lia. generalize (n - length l - 1)%nat as m. intros m.
  assert (G : forall d k, (k + d = length l)%nat -> mapM (fun i => rmap f (rd l i)) (seq k (d + (1 + m))) = UB OutOfBounds).
  { induction d as [|d IH]; intros k Hk; cbn [Nat.add seq mapM].
    - unfold rd at 1. rewrite (proj2 (nth_error_None l k)) by lia. reflexivity.
    - destruct (nth_error_lt l k ltac:(lia)) as [x Hx]. unfold rd at 1. rewrite Hx. cbn [rmap bind]. rewrite IH by lia. reflexivity. }
  apply G. lia.
Qed.
Section test.
Variables (c : config) (tab : list Z) (nall : nat) (mr : nat -> pfmem) (vold : nat -> vtxobj).
Lemma zeroed_in l n : In n (map (fun n => mkNe (n_pt n) (n_eta n) (n_phi n) (n_id n) 0) l) -> n_puppi n = 0.
Proof. intros H. apply in_map_iff in H as (m & <- & _). reflexivity. Qed.
Lemma zeroed_pt l : Forall (fun n => inS 16 (n_pt n)) l -> Forall (fun n => inS 16 (n_pt n)) (map (fun n => mkNe (n_pt n) (n_eta n) (n_phi n) (n_id n) 0) l).
Proof. intros H. apply Forall_forall. intros n Hn. apply in_map_iff in Hn as (m & <- & Hm). exact (proj1 (Forall_forall _ _) H m Hm). Qed.
Lemma lines_eq z ch l : let r := map (fun n => set_puppi n (puppi_pt tab (n_pt n) (alpha_sum z ch n))) (map (fun n => mkNe (n_pt n) (n_eta n) (n_phi n) (n_id n) 0) l) in
  pp_lines r r = map (fun n => let p := puppi_pt tab (n_pt n) (alpha_sum z ch n) in (n_pt n, p, p)) l.
Proof. cbv zeta. unfold pp_lines. induction l as [|n l IH]; [reflexivity|]. cbn [map combine]. f_equal. exact IH. Qed.
Lemma body_Ok test st r st' ex : table_ok tab -> region_ok c r -> pp_body c tab nall mr vold test st r = Ok (st', ex) ->
  (nall <= NTRACK c)%nat /\ ex = None /\ exists lines, st' = st ++ [lines] /\ report c tab nall (mr test) (vold test) r lines.
Proof.
  intros HT ((A1 & A2 & A3 & A4) & HE & HH & HK & HU) H. unfold pp_body in H. apply bind_Ok in H as (q & Hq & H). apply bind_Ok in H as (tks & Ht & H). apply bind_Ok in H as (v & Hv & H).
  apply bind_Ok in H as (ref & Hr & H). apply bind_Ok in H as (hw & Hh & H). injection H as <- <-.
  destruct (Nat.le_gt_cases nall (NTRACK c)) as [L|L]; [|rewrite read_beyond in Ht by (rewrite A3; exact L); discriminate Ht].
  rewrite read_tracks in Ht by (rewrite A3; exact L). injection Ht as <-.
  split; [exact L|]. split; [reflexivity|]. eexists. split; [reflexivity|]. exists q, v. split; [exact Hq|]. split; [exact Hv|].
  destruct (ref_ranges _ _ _ _ _ _ _ HE HH HK Hq) as (R1 & R2).
  destruct (eq_when_defined tab (o_ch q) _ (x_z0 v) hw ref HT R1 (zeroed_pt _ R2) (fun n Hn _ => zeroed_in _ n Hn) Hh Hr) as (<- & ->). apply lines_eq.
Qed.
Lemma body_total test st r : table_ok tab -> region_ok c r -> (nall <= NTRACK c)%nat -> computable c nall (mr test) (vold test) r -> exists st', pp_body c tab nall mr vold test st r = Ok (st', None).
Proof.
  intros HT ((A1 & A2 & A3 & A4) & HE & HH & HK & HU) L (q & v & Hq & Hv & Hs). unfold pp_body. unfold ref_on in Hq. rewrite Hq. cbn [bind]. rewrite read_tracks by (rewrite A3; exact L). cbn [bind]. rewrite Hv. cbn [bind].
  destruct (ref_ranges _ _ _ _ _ _ _ HE HH HK Hq) as (R1 & R2).
  destruct (hw_eq_ref tab (o_ch q) (map (fun n => mkNe (n_pt n) (n_eta n) (n_phi n) (n_id n) 0) (o_pho q ++ o_ne q)) (x_z0 v) HT R1 (zeroed_pt _ R2)) as (r0 & -> & ->).
  - intros n Hn. apply in_map_iff in Hn as (m & <- & Hm). exact (Hs m Hm).
  - intros n Hn _. exact (zeroed_in _ n Hn).
  - cbn [bind]. eexists. reflexivity.
Qed.
Lemma body_beyond test st r : region_ok c r -> (NTRACK c < nall)%nat -> exists k, pp_body c tab nall mr vold test st r = UB k /\ (forall q, ref_on c (mr test) r = Ok q -> k = OutOfBounds).
Proof.
  intros ((A1 & A2 & A3 & A4) & _) L. unfold pp_body, ref_on. destruct (pfalgo3_full_ref _ _ _ _ _ _) as [q|k]; cbn [bind].
  - rewrite read_beyond by (rewrite A3; exact L). exists OutOfBounds. split; reflexivity.
  - exists k. split; [reflexivity|discriminate].
Qed.
Lemma walk_Ok : table_ok tab -> forall l test st st' ex, Forall (region_ok c) l -> walk (pp_body c tab nall mr vold) test st l = Ok (st', ex) ->
  ex = None /\ exists out, st' = st ++ out /\ length out = length l /\ forall i r, nth_error l i = Some r -> exists lines, nth_error out i = Some lines /\ report c tab nall (mr (test + i)%nat) (vold (test + i)%nat) r lines.
Proof.
  intros HT. induction l as [|r l IH]; intros test st st' ex HF H; cbn [walk] in H.
  - injection H as <- <-. split; [reflexivity|]. exists []. rewrite app_nil_r. split; [reflexivity|]. split; [reflexivity|]. intros [|i] r; discriminate.
  - inversion HF as [|? ? HR HF']; subst. apply bind_Ok in H as ((st1 & e1) & H1 & H). destruct (body_Ok _ _ _ _ _ HT HR H1) as (_ & -> & lines & -> & R).
    destruct (IH _ _ _ _ HF' H) as (-> & out & -> & L & HO). split; [reflexivity|]. exists (lines :: out). split; [rewrite <- app_assoc; reflexivity|]. split; [cbn [length]; congruence|].
    intros [|i] r' E; cbn [nth_error] in *.
    + injection E as <-. exists lines. rewrite Nat.add_0_r. auto.
    + destruct (HO i r' E) as (ls & H2 & H3). exists ls. replace (test + S i)%nat with (S test + i)%nat by lia. auto.
Qed.
Lemma walk_total : table_ok tab -> (nall <= NTRACK c)%nat -> forall l test st, Forall (region_ok c) l -> (forall i r, nth_error l i = Some r -> computable c nall (mr (test + i)%nat) (vold (test + i)%nat) r) ->
  exists st', walk (pp_body c tab nall mr vold) test st l = Ok (st', None).
Proof.
  intros HT L. induction l as [|r l IH]; intros test st HF H; [eexists; reflexivity|]. inversion HF as [|? ? HR HF']; subst. cbn [walk].
  pose proof (H 0%nat r eq_refl) as H0. rewrite Nat.add_0_r in H0. destruct (body_total test st r HT HR L H0) as (st1 & ->). cbn [bind]. apply IH; [exact HF'|].
  intros i r' E. replace (S test + i)%nat with (test + S i)%nat by lia. exact (H (S i) r' E).
Qed.
End test.

(** ** The program *)
Lemma main_walk c special tab nall mr vold g arr evs : arrays_ok c arr -> Forall good_event evs ->
  exists N, forall fuel, (N <= fuel)%nat -> pp_main c special (Ok true) fuel tab nall mr vold g arr (Some (dump evs)) =
    Some (match walk (pp_body c tab nall mr vold) 1 [] (tested c special PP_NTEST evs) with Ok (out, _) => Ok (0, out) | UB k => UB k end).
Proof.
  intros HA HG. unfold pp_main. destruct (inputs_open g (Some (dump evs))) as [s|k] eqn:EO; [|discriminate EO].
  destruct (loop_dump c special clear_arrays (pp_body c tab nall mr vold) (clear_ok c) PP_NTEST g evs s HG EO) as (N & HW). exists N. intros fuel Hf.
  rewrite (HW fuel 1%nat [] arr Hf HA). destruct (walk _ _ _ _) as [[out ex]|k]; reflexivity.
Qed.
Lemma c68_refuted c special tab mr vold g arr evs r l : In c [cfg_TESTMP7; cfg_TESTCTP7; cfg_default] -> arrays_ok c arr -> Forall good_event evs -> tested c special PP_NTEST evs = r :: l ->
  exists N k, (forall fuel, (N <= fuel)%nat -> pp_main c special (Ok true) fuel tab NALLTRACK mr vold g arr (Some (dump evs)) = Some (UB k)) /\ (forall q, ref_on c (mr 1%nat) r = Ok q -> k = OutOfBounds).
Proof.
  intros Hc HA HG HE. destruct (main_walk c special tab NALLTRACK mr vold g arr evs HA HG) as (N & HN).
  assert (HR : region_ok c r) by (pose proof (tested_ok c special PP_NTEST evs) as F; rewrite HE in F; inversion F; assumption).
  destruct (body_beyond c tab NALLTRACK mr vold 1 [] r HR) as (k & Hk & Hq); [cbn in Hc; unfold NALLTRACK; intuition subst; cbn; lia|].
  exists N, k. split; [|exact Hq]. intros fuel Hf. rewrite HN by exact Hf. rewrite HE. cbn [walk]. rewrite Hk. reflexivity.
Qed.
Lemma c68_empty c special tab nall mr vold g arr evs : arrays_ok c arr -> Forall good_event evs -> tested c special PP_NTEST evs = [] ->
  exists N, forall fuel, (N <= fuel)%nat -> pp_main c special (Ok true) fuel tab nall mr vold g arr (Some (dump evs)) = Some (Ok (0, [])).
Proof. intros HA HG HE. destruct (main_walk c special tab nall mr vold g arr evs HA HG) as (N & HN). exists N. intros fuel Hf. rewrite HN by exact Hf. rewrite HE. reflexivity. Qed.
Lemma c68_partial c special tab nall mr vold g arr evs : table_ok tab -> arrays_ok c arr -> Forall good_event evs ->
  exists N, forall fuel, (N <= fuel)%nat ->
    (forall code out, pp_main c special (Ok true) fuel tab nall mr vold g arr (Some (dump evs)) = Some (Ok (code, out)) ->
       code = 0 /\ length out = length (tested c special PP_NTEST evs) /\
       forall i r, nth_error (tested c special PP_NTEST evs) i = Some r -> exists lines, nth_error out i = Some lines /\ report c tab nall (mr (1 + i)%nat) (vold (1 + i)%nat) r lines) /\
    ((nall <= NTRACK c)%nat -> (forall i r, nth_error (tested c special PP_NTEST evs) i = Some r -> computable c nall (mr (1 + i)%nat) (vold (1 + i)%nat) r) ->
       exists out, pp_main c special (Ok true) fuel tab nall mr vold g arr (Some (dump evs)) = Some (Ok (0, out))).
Proof.
  intros HT HA HG. destruct (main_walk c special tab nall mr vold g arr evs HA HG) as (N & HN). exists N. intros fuel Hf. rewrite HN by exact Hf. split.
  - intros code out E. destruct (walk _ _ _ _) as [[o ex]|k] eqn:EW; [|discriminate E]. injection E as <- <-. destruct (walk_Ok c tab nall mr vold HT _ _ _ _ _ (tested_ok c special PP_NTEST evs) EW) as (_ & out & -> & L & H).
    split; [reflexivity|]. split; [exact L|exact H].
  - intros L H. destruct (walk_total c tab nall mr vold HT L _ 1 [] (tested_ok c special PP_NTEST evs) H) as (st' & ->). exists st'. reflexivity.
Qed.
