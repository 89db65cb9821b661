(** The firmware's and the reference's matchings in terms of SpecPF's candidate lists. *)
From Verif Require Import Base BaseFacts Data PFHw PFRef SpecLink SpecPF LinkFacts.
Ltac Zify.zify_post_hook ::= Z.div_mod_to_equations.

Lemma dr2_nonneg a b c d : 0 <= dist2 a b c d.
Proof. unfold dist2; cbv zeta. nia. Qed.

Lemma cap_lt nb a b c d M : 0 <= M < 2 ^ nb ->
  dr2_int_cap nb a b c d M = if dist2 a b c d <? M then dist2 a b c d else M.
Proof.
  intros H. unfold dr2_int_cap, dist2; cbv zeta.
  set (x := _ + _). assert (0 <= x) by (unfold x; nia). clearbody x.
  destruct (Z.ltb_spec x M); [|reflexivity]. apply wrapU_id. unfold inU; lia.
Qed.

Lemma map_map_ext {A B} (f g : A -> B) l : (forall x, In x l -> f x = g x) -> map f l = map g l.
Proof. intros; apply map_ext_in; assumption. Qed.

(** ** track - EM *)
Definition tk_em_match (em : list EmCalo) (tk : Tk) (mu : bool) : option nat :=
  if mu then None else best (cand_tk_em em tk).

Lemma tk2em_row em tk (mu : bool) :
  pick_closest_row (wrapU 7 DR2MAX_TK_EM)
    (map (fun c => if mu then wrapU 7 DR2MAX_TK_EM
                   else dr2_int_cap 7 (t_eta tk) (t_phi tk) (e_eta c) (e_phi c) (wrapU 7 DR2MAX_TK_EM)) em)
  = onehot (length em) (tk_em_match em tk mu).
Proof.
  change (wrapU 7 DR2MAX_TK_EM) with 84.
  rewrite pick_closest_row_onehot.
  - rewrite map_length. f_equal. unfold tk_em_match. destruct mu.
    + apply best_None. intros (j & w & Hj). rewrite nth_error_map' in Hj. rewrite nth_error_map' in Hj.
      destruct (nth_error em j); discriminate.
    + f_equal. rewrite map_map. apply map_ext; intros c. rewrite cap_lt by (simpl; lia). cbv zeta.
      destruct (Z.ltb_spec (dist2 (t_eta tk) (t_phi tk) (e_eta c) (e_phi c)) 84) as [L|L].
      * destruct (Z.ltb_spec (dist2 (t_eta tk) (t_phi tk) (e_eta c) (e_phi c)) 84); [reflexivity|lia].
      * reflexivity.
  - intros v Hv. apply in_map_iff in Hv as (c & <- & _). destruct mu; [lia|].
    rewrite cap_lt by (simpl; lia). destruct (Z.ltb_spec (dist2 (t_eta tk) (t_phi tk) (e_eta c) (e_phi c)) 84); lia.
Qed.

Lemma tk2em_link_spec em track isMu :
  tk2em_link em track isMu = map (fun '(tk, mu) => onehot (length em) (tk_em_match em tk mu)) (combine track isMu).
Proof.
  unfold tk2em_link, pick_closest, tk2em_drvals. rewrite map_map. apply map_ext; intros [tk mu]. apply tk2em_row.
Qed.

Lemma best_match_ref_em em tk :
  best_match_ref e_pt e_eta e_phi DR2MAX_TK_EM false em tk = best (cand_tk_em em tk).
Proof.
  unfold best_match_ref. cbv zeta.
  rewrite (fold_left_ext _ (fun s p => (fun '(m, b) '(i, c) =>
                    match c with
                    | None => (m, b)
                    | Some v => if v <? m then (v, Some i) else (m, b)
                    end) s (fst p, Some (dist2 (t_eta tk) (t_phi tk) (e_eta (snd p)) (e_phi (snd p)))))).
  2:{ intros [m b] [i c] _. reflexivity. }
  rewrite <- (fold_indexed_map _ (fun c => Some (dist2 (t_eta tk) (t_phi tk) (e_eta c) (e_phi c)))).
  rewrite running_min_best. f_equal. rewrite map_map. unfold cand_tk_em. apply map_ext; intros c. reflexivity.
Qed.

(** ** EM - hadronic *)
Definition em_had_match (had : list HadCalo) (em : EmCalo) : option nat := best (cand_em_had had em).

Lemma emptmin em : em_ok em -> pt_t (Z.shiftr (e_pt em) 1) = e_pt em / 2.
Proof.
  intros (H & _). unfold inS in H; simpl in H. rewrite Z.shiftr_div_pow2 by lia. change (2 ^ 1) with 2.
  unfold pt_t. apply wrapS16_id. lia.
Qed.

Lemma em2calo_link_spec em had : Forall em_ok em ->
  em2calo_link em had = map (fun e => onehot (length had) (em_had_match had e)) em.
Proof.
  intros F. unfold em2calo_link, pick_closest, em2calo_drvals. rewrite map_map. apply map_ext_in; intros e He.
  rewrite Forall_forall in F. specialize (F e He). cbv zeta. rewrite (emptmin e F).
  change (wrapU 10 DR2MAX_EM_CALO) with 525.
  rewrite pick_closest_row_onehot.
  - rewrite map_length. f_equal. unfold em_had_match. f_equal. rewrite map_map. apply map_ext; intros h.
    rewrite cap_lt by (simpl; lia). cbv zeta.
    replace (h_empt h >? e_pt e / 2) with (e_pt e / 2 <? h_empt h) by lia.
    destruct (e_pt e / 2 <? h_empt h); cbn [andb]; [|reflexivity].
    destruct (Z.ltb_spec (dist2 (e_eta e) (e_phi e) (h_eta h) (h_phi h)) 525); [|reflexivity].
    destruct (Z.ltb_spec (dist2 (e_eta e) (e_phi e) (h_eta h) (h_phi h)) 525); [reflexivity|lia].
  - intros v Hv. apply in_map_iff in Hv as (h & <- & _). destruct (h_empt h >? e_pt e / 2); [|lia].
    rewrite cap_lt by (simpl; lia). destruct (Z.ltb_spec (dist2 (e_eta e) (e_phi e) (h_eta h) (h_phi h)) 525); lia.
Qed.

Lemma best_match_em_ref_spec had em : em_ok em ->
  best_match_em_ref DR2MAX_EM_CALO had em = em_had_match had em.
Proof.
  intros F. unfold best_match_em_ref, em_had_match. cbv zeta. rewrite (emptmin em F).
  set (g := fun h => cand_if (e_pt em / 2 <? h_empt h) (dist2 (e_eta em) (e_phi em) (h_eta h) (h_phi h))).
  rewrite (fold_left_ext _ (fun s p => (fun '(m, b) '(i, c) =>
                    match c with
                    | None => (m, b)
                    | Some v => if v <? m then (v, Some i) else (m, b)
                    end) s (fst p, g (snd p)))).
  2:{ intros [m b] [i c] _. cbn [fst snd]. unfold g, cand_if.
      destruct (Z.leb_spec (h_empt c) (e_pt em / 2)); destruct (Z.ltb_spec (e_pt em / 2) (h_empt c)); try lia; reflexivity. }
  rewrite <- (fold_indexed_map _ g). rewrite running_min_best. f_equal. rewrite map_map. unfold cand_em_had.
  apply map_ext; intros c. unfold g, cand_if, below, DR2MAX_EM_CALO. cbv zeta.
  destruct (e_pt em / 2 <? h_empt c); cbn [andb]; reflexivity.
Qed.

(** ** track - hadronic *)
Lemma caloPtMin_floor tk : caloPtMin tk = pt_floor tk.
Proof. unfold caloPtMin, pt_floor, pt_t. destruct (Z.ltb_spec (wrapS 16 (t_pt tk - 2 * t_pterr tk)) 0); lia. Qed.

Lemma tk2calo_link_dronly_spec had track :
  tk2calo_link_dronly had track = map (fun tk => onehot (length had) (best (cand_tk_had_dr had tk))) track.
Proof.
  unfold tk2calo_link_dronly, pick_closest, tk2calo_drvals. rewrite map_map. apply map_ext; intros tk.
  rewrite caloPtMin_floor. change (wrapU 10 DR2MAX_TK_CALO) with 756.
  rewrite pick_closest_row_onehot.
  - rewrite map_length. f_equal. f_equal. rewrite map_map. apply map_ext; intros h.
    rewrite cap_lt by (simpl; lia). cbv zeta.
    replace (h_pt h >? pt_floor tk) with (pt_floor tk <? h_pt h) by lia.
    destruct (pt_floor tk <? h_pt h); cbn [andb]; [|reflexivity].
    destruct (Z.ltb_spec (dist2 (t_eta tk) (t_phi tk) (h_eta h) (h_phi h)) 756); [|reflexivity].
    destruct (Z.ltb_spec (dist2 (t_eta tk) (t_phi tk) (h_eta h) (h_phi h)) 756); [reflexivity|lia].
  - intros v Hv. apply in_map_iff in Hv as (h & <- & _). destruct (h_pt h >? pt_floor tk); [|lia].
    rewrite cap_lt by (simpl; lia). destruct (Z.ltb_spec (dist2 (t_eta tk) (t_phi tk) (h_eta h) (h_phi h)) 756); lia.
Qed.

Lemma best_match_ref_had had tk :
  best_match_ref h_pt h_eta h_phi DR2MAX_TK_CALO true had tk = best (cand_tk_had_dr had tk).
Proof.
  unfold best_match_ref. cbv zeta. cbn [andb].
  change (if pt_t (t_pt tk - 2 * t_pterr tk) <? 0 then 0 else pt_t (t_pt tk - 2 * t_pterr tk)) with (caloPtMin tk).
  rewrite caloPtMin_floor.
  set (g := fun h => cand_if (pt_floor tk <? h_pt h) (dist2 (t_eta tk) (t_phi tk) (h_eta h) (h_phi h))).
  rewrite (fold_left_ext _ (fun s p => (fun '(m, b) '(i, c) =>
                    match c with
                    | None => (m, b)
                    | Some v => if v <? m then (v, Some i) else (m, b)
                    end) s (fst p, g (snd p)))).
  2:{ intros [m b] [i c] _. cbn [fst snd]. unfold g, cand_if.
      destruct (Z.leb_spec (h_pt c) (pt_floor tk)); destruct (Z.ltb_spec (pt_floor tk) (h_pt c)); try lia; reflexivity. }
  rewrite <- (fold_indexed_map _ g). rewrite running_min_best. f_equal. rewrite map_map. unfold cand_tk_had_dr.
  apply map_ext; intros c. unfold g, cand_if, below, DR2MAX_TK_CALO. cbv zeta.
  destruct (pt_floor tk <? h_pt c); cbn [andb]; reflexivity.
Qed.

(** scale factor *)
Definition hwscale (err : Z) : Z := Z.min 131071 (756 * 256 / Z.max 1 (err * err)).

Lemma hwscale_rg err : 0 <= hwscale err <= 131071.
Proof.
  unfold hwscale. assert (0 <= 756 * 256 / Z.max 1 (err * err)) by (apply Z.div_pos; lia). lia.
Qed.

Lemma hwscale_big err : 512 <= err -> hwscale err = 0.
Proof.
  intros H. unfold hwscale. rewrite Z.div_small; [lia|]. nia.
Qed.

Lemma calc_dptscale_spec err : 0 <= err -> calc_dptscale DR2MAX_TK_CALO err = Ok (hwscale err).
Proof.
  intros H. unfold calc_dptscale. destruct (Z.ltb_spec err 512) as [L|L].
  - unfold rdZ. destruct (Z.ltb_spec err 0); [lia|].
    unfold rd, init_dr2max_times_pterr2_inv. rewrite nth_error_map', nth_error_seq.
    destruct (Nat.ltb_spec (Z.to_nat err) 512); [|lia]. cbn [option_map]. f_equal.
    rewrite Nat.add_0_l, Z2Nat.id by lia. cbv zeta. unfold hwscale, DR2MAX_TK_CALO. change (2 ^ 17 - 1) with 131071.
    set (q := 756 * 256 / (if err =? 0 then 1 else err * err)).
    assert (E : 756 * 256 / Z.max 1 (err * err) = q).
    { unfold q. f_equal. destruct (Z.eqb_spec err 0); [subst; reflexivity|]. nia. }
    rewrite E. clearbody q. destruct (Z.gtb_spec q 131071); lia.
  - rewrite hwscale_big by lia. reflexivity.
Qed.

Lemma err_scale err : 0 <= err -> err * err * hwscale err <= 193536.
Proof.
  intros H. pose proof (hwscale_rg err).
  assert (hwscale err <= 193536 / Z.max 1 (err * err)) by (apply Z.le_min_r).
  pose proof (Z.mul_div_le 193536 (Z.max 1 (err * err)) ltac:(lia)).
  set (q := 193536 / Z.max 1 (err * err)) in *. clearbody q. set (s := hwscale err) in *. clearbody s.
  destruct (Z.eq_dec err 0); [subst; lia|]. rewrite Z.max_r in * by nia. nia.
Qed.

Lemma dpt_lt_2err tk h : tk_phys tk -> pt_floor tk < h_pt h ->
  let d := Z.max 0 (t_pt tk - h_pt h) in
  0 <= d /\ (d < 2 * t_pterr tk \/ (d = 0 /\ t_pterr tk = 0)).
Proof.
  intros [(P & E & _) [HP HE]] H. cbv zeta. split; [lia|].
  unfold inS in P, E. simpl in P, E.
  unfold pt_floor in H.
  destruct (Z.eq_dec (t_pterr tk) 0) as [Z0|N].
  - right. rewrite Z0 in H. rewrite wrapS16_id in H by lia. lia.
  - left. destruct (Z.le_gt_cases 0 (t_pt tk - 2 * t_pterr tk)).
    + rewrite wrapS16_id in H by lia. lia.
    + lia.
Qed.

Lemma metric_bound tk h : tk_phys tk -> pt_floor tk < h_pt h ->
  dist2 (t_eta tk) (t_phi tk) (h_eta h) (h_phi h) < 756 ->
  0 <= metric (Some 131071) tk h < 3780.
Proof.
  intros Ht Hf Hd. pose proof (dpt_lt_2err tk h Ht Hf) as Hb. cbv zeta in Hb.
  unfold metric. cbv zeta. fold (hwscale (t_pterr tk)).
  pose proof (dr2_nonneg (t_eta tk) (t_phi tk) (h_eta h) (h_phi h)).
  pose proof (hwscale_rg (t_pterr tk)) as Hs. destruct Ht as [_ [_ HE]].
  pose proof (err_scale (t_pterr tk) HE) as HES.
  set (d := Z.max 0 (t_pt tk - h_pt h)) in *. set (s := hwscale (t_pterr tk)) in *. set (e := t_pterr tk) in *.
  destruct Hb as [Hd0 Hb].
  assert (A : d * d * s <= 774144).
  { destruct Hb as [Hb|[-> _]]; [|lia].
    assert (d * d <= 4 * (e * e)) by nia. nia. }
  assert (B : 0 <= d * d * s) by nia.
  assert (d * d * s / 256 <= 3024) by (apply Z.div_le_upper_bound; lia).
  assert (0 <= d * d * s / 256) by (apply Z.div_pos; lia). lia.
Qed.

Lemma dr2_dpt_cap_spec tk h : tk_phys tk -> had_phys h -> pt_floor tk < h_pt h ->
  dr2_dpt_int_cap 12 (t_eta tk) (t_phi tk) (h_eta h) (h_phi h) (t_pt tk) (h_pt h)
     (wrapS 18 (hwscale (t_pterr tk))) 756 3780
  = if dist2 (t_eta tk) (t_phi tk) (h_eta h) (h_phi h) <? 756 then metric (Some 131071) tk h else 3780.
Proof.
  intros Ht Hh Hf. unfold dr2_dpt_int_cap. cbv zeta.
  change (etaphi_t (t_eta tk - h_eta h) * etaphi_t (t_eta tk - h_eta h) +
          etaphi_t (t_phi tk - h_phi h) * etaphi_t (t_phi tk - h_phi h))
    with (dist2 (t_eta tk) (t_phi tk) (h_eta h) (h_phi h)).
  destruct (Z.ltb_spec (dist2 (t_eta tk) (t_phi tk) (h_eta h) (h_phi h)) 756) as [L|L]; [|reflexivity].
  cbn [andb].
  pose proof (metric_bound tk h Ht Hf L) as MB.
  pose proof (dpt_lt_2err tk h Ht Hf) as Hb. cbv zeta in Hb.
  pose proof (hwscale_rg (t_pterr tk)) as Hs.
  unfold metric in *. cbv zeta in *. fold (hwscale (t_pterr tk)) in *.
  destruct Ht as [(P & _) [HP HE]]. destruct Hh as [(PH & _) [HPH _]].
  unfold inS in P, PH; simpl in P, PH.
  unfold pt_t. rewrite wrapS16_id by lia.
  assert (Ed : (if t_pt tk - h_pt h <? 0 then 0 else t_pt tk - h_pt h) = Z.max 0 (t_pt tk - h_pt h))
    by (destruct (Z.ltb_spec (t_pt tk - h_pt h) 0); lia).
  rewrite Ed. set (d := Z.max 0 (t_pt tk - h_pt h)) in *.
  rewrite (wrapS_id 18) by (unfold inS; simpl; lia).
  set (D := dist2 _ _ _ _) in *.
  assert (E2 : (if d >? 5792 then wrapS 26 (2 ^ 25 - 1) else wrapS 26 (d * d)) * hwscale (t_pterr tk)
               = d * d * hwscale (t_pterr tk)).
  { destruct (Z.gtb_spec d 5792) as [G|G].
    - rewrite (hwscale_big (t_pterr tk)) by lia. lia.
    - rewrite wrapS_id; [reflexivity|lia|]. unfold inS; change (2 ^ (26 - 1)) with 33554432. nia. }
  rewrite E2. rewrite Z.shiftr_div_pow2 by lia. change (2 ^ 8) with 256.
  rewrite (wrapS_id 32) by (unfold inS; simpl; lia).
  destruct (Z.ltb_spec (D + d * d * hwscale (t_pterr tk) / 256) 3780); [|lia].
  apply wrapU_id. unfold inU; simpl; lia.
Qed.

Lemma drdpt_row had tk : tk_phys tk -> Forall had_phys had ->
  rmap (pick_closest_row (wrapU 12 (5 * DR2MAX_TK_CALO))) (tk2calo_drdptvals_row DR2MAX_TK_CALO had tk)
  = Ok (onehot (length had) (best (cand_tk_had (Some 131071) had tk))).
Proof.
  intros Ht Hh. unfold tk2calo_drdptvals_row. cbv zeta.
  rewrite calc_dptscale_spec by (destruct Ht as [_ [_ ?]]; assumption). cbn [bind rmap]. f_equal.
  rewrite caloPtMin_floor. change (wrapU 12 DR2MAX_TK_CALO) with 756. change (wrapU 12 (5 * DR2MAX_TK_CALO)) with 3780.
  rewrite Forall_forall in Hh.
  rewrite (map_ext_in _ (fun h => if (pt_floor tk <? h_pt h) && (dist2 (t_eta tk) (t_phi tk) (h_eta h) (h_phi h) <? 756)
                                  then metric (Some 131071) tk h else 3780)).
  2:{ intros h Hin. destruct (Z.gtb_spec (h_pt h) (pt_floor tk)) as [G|G].
      - destruct (Z.ltb_spec (pt_floor tk) (h_pt h)); [|lia]. cbn [andb].
        apply dr2_dpt_cap_spec; auto; lia.
      - destruct (Z.ltb_spec (pt_floor tk) (h_pt h)); [lia|]. reflexivity. }
  rewrite pick_closest_row_onehot.
  - rewrite map_length. f_equal. f_equal. rewrite map_map. apply map_ext_in; intros h Hin. cbv zeta.
    destruct (Z.ltb_spec (pt_floor tk) (h_pt h)) as [A|A]; cbn [andb]; [|reflexivity].
    destruct (Z.ltb_spec (dist2 (t_eta tk) (t_phi tk) (h_eta h) (h_phi h)) 756) as [B|B]; [|reflexivity].
    pose proof (metric_bound tk h Ht A B).
    destruct (Z.ltb_spec (metric (Some 131071) tk h) 3780); [reflexivity|lia].
  - intros v Hv. apply in_map_iff in Hv as (h & <- & Hin).
    destruct (Z.ltb_spec (pt_floor tk) (h_pt h)) as [A|A]; cbn [andb]; [|lia].
    destruct (Z.ltb_spec (dist2 (t_eta tk) (t_phi tk) (h_eta h) (h_phi h)) 756) as [B|B]; [|lia].
    pose proof (metric_bound tk h Ht A B). lia.
Qed.

Lemma tk2calo_link_drdpt_spec had track : Forall tk_phys track -> Forall had_phys had ->
  tk2calo_link_drdpt had track =
  Ok (map (fun tk => onehot (length had) (best (cand_tk_had (Some 131071) had tk))) track).
Proof.
  intros Ht Hh. unfold tk2calo_link_drdpt, tk2calo_drdptvals, pick_closest.
  induction Ht as [|tk track Htk Ht IH]; [reflexivity|].
  cbn [mapM map]. pose proof (drdpt_row had tk Htk Hh) as R.
  destruct (tk2calo_drdptvals_row DR2MAX_TK_CALO had tk) as [row|k]; [|discriminate]. cbn [rmap] in R.
  inversion R as [R']. cbn [bind].
  destruct (mapM (tk2calo_drdptvals_row DR2MAX_TK_CALO had) track) as [rows|k]; cbn [bind] in *; [|discriminate].
  inversion IH as [IH']. cbn [map]. f_equal.
Qed.

(** *** reference, combined metric *)
Definition rstep (st : Z * option nat) (p : nat * option Z) := bstep st p.

Lemma foldM_indexed_best {A} (f : A -> res (option Z)) (g : A -> option Z) l :
  (forall x, In x l -> f x = Ok (g x)) ->
  foldM (fun st '(i, x) => do c <- f x; Ok (bstep st (i, c))) (indexed l) (0, None) = Ok (best_st (map g l)).
Proof.
  intros H. unfold best_st. rewrite fold_indexed_map.
  eapply (foldM_Ok _ (fun s p => bstep s (fst p, g (snd p))) (fun _ => True)); [exact I|].
  intros s [i x] _ Hin. split; [|exact I]. cbn [fst snd]. rewrite H; [reflexivity|].
  apply in_indexed in Hin. eapply nth_error_In; eauto.
Qed.

Lemma metric_bound_ref tk h : tk_phys tk -> pt_floor tk < h_pt h ->
  dist2 (t_eta tk) (t_phi tk) (h_eta h) (h_phi h) < 756 ->
  let d := Z.max 0 (t_pt tk - h_pt h) in
  let s := 756 * 256 / Z.max 1 (t_pterr tk * t_pterr tk) in
  0 <= d * d <= 1073741824 /\ 0 <= d * d * s <= 774144.
Proof.
  intros Ht Hf Hd. cbv zeta. pose proof (dpt_lt_2err tk h Ht Hf) as Hb. cbv zeta in Hb.
  set (d := Z.max 0 (t_pt tk - h_pt h)) in *. set (e := t_pterr tk) in *.
  assert (HP : 0 <= h_pt h) by (unfold pt_floor in Hf; lia).
  assert (Hd' : 0 <= d <= 32767).
  { unfold d. destruct Ht as [(P & _) [HP' _]]. unfold inS in P; simpl in P. lia. }
  split; [nia|].
  set (s := 756 * 256 / Z.max 1 (e * e)).
  assert (0 <= s) by (unfold s; apply Z.div_pos; lia).
  assert (s * Z.max 1 (e * e) <= 193536).
  { unfold s. pose proof (Z.mul_div_le (756 * 256) (Z.max 1 (e * e)) ltac:(lia)). lia. }
  destruct Hb as [_ [Hb|[-> _]]]; [|lia].
  assert (0 <= e) by (destruct Ht as [_ [_ ?]]; assumption).
  assert (d * d <= 4 * (e * e)) by nia. nia.
Qed.

Lemma best_match_with_pt_ref_spec had tk : tk_phys tk ->
  best_match_with_pt_ref DR2MAX_TK_CALO had tk = Ok (best (cand_tk_had None had tk)).
Proof.
  intros Ht. unfold best_match_with_pt_ref. cbv zeta. change dr2_int with dist2.
  change (if pt_t (t_pt tk - 2 * t_pterr tk) <? 0 then 0 else pt_t (t_pt tk - 2 * t_pterr tk)) with (caloPtMin tk).
  rewrite caloPtMin_floor. change (DR2MAX_TK_CALO) with 756. change (756 * 256) with 193536.
  match goal with |- (do _ <- foldM ?F _ _; _) = _ => set (F0 := F) end.
  assert (E : foldM F0 (indexed had) (0, None) = Ok (best_st (cand_tk_had None had tk))).
  { unfold best_st. unfold cand_tk_had. rewrite fold_indexed_map.
    eapply (foldM_Ok _ (fun s p => bstep s (fst p, _)) (fun _ => True)); [exact I|].
    intros [m b] [i h] _ Hin. split; [|exact I]. cbn [fst snd]. unfold F0.
    destruct (Z.leb_spec (h_pt h) (pt_floor tk)) as [A|A]; destruct (Z.ltb_spec (pt_floor tk) (h_pt h)); try lia; [reflexivity|].
    cbn [andb]. destruct (Z.geb_spec (dist2 (t_eta tk) (t_phi tk) (h_eta h) (h_phi h)) 756) as [B|B];
      destruct (Z.ltb_spec (dist2 (t_eta tk) (t_phi tk) (h_eta h) (h_phi h)) 756) as [C|C]; try lia; [reflexivity|].
    pose proof (metric_bound_ref tk h Ht A C) as [MB1 MB2].
    change (756 * 256) with 193536 in MB2.
    pose proof (dr2_nonneg (t_eta tk) (t_phi tk) (h_eta h) (h_phi h)).
    unfold metric. cbv zeta. change (756 * 256) with 193536. rewrite (Z.max_comm (t_pt tk - h_pt h) 0).
    set (d := Z.max 0 (t_pt tk - h_pt h)) in *. set (s := 193536 / Z.max 1 (t_pterr tk * t_pterr tk)) in *.
    rewrite (i32_Ok (d * d)) by lia. cbn [bind]. rewrite (i32_Ok (d * d * s)) by lia. cbn [bind].
    rewrite Z.shiftr_div_pow2 by lia. change (2 ^ 8) with 256.
    assert (0 <= d * d * s / 256 <= 3024) by (split; [apply Z.div_pos; lia|apply Z.div_le_upper_bound; lia]).
    rewrite i32_Ok by lia. cbn [bind]. unfold cand_if, bstep. destruct b as [k|]; [|reflexivity].
    destruct (_ <? m); reflexivity. }
  rewrite E. reflexivity.
Qed.

(** caps agree unless the track error is exactly 1 *)
Lemma metric_cap tk h : 0 <= t_pterr tk -> t_pterr tk <> 1 -> pt_floor tk < h_pt h -> tk_phys tk ->
  metric (Some 131071) tk h = metric None tk h.
Proof.
  intros HE N Hf Ht. unfold metric. cbv zeta.
  destruct (Z.eq_dec (t_pterr tk) 0) as [Z0|NZ].
  - pose proof (dpt_lt_2err tk h Ht Hf) as Hb. cbv zeta in Hb.
    assert (D : Z.max 0 (t_pt tk - h_pt h) = 0) by lia. rewrite D. reflexivity.
  - assert (756 * 256 / Z.max 1 (t_pterr tk * t_pterr tk) <= 131071).
    { apply Z.div_le_upper_bound; [lia|]. nia. }
    rewrite Z.min_r by lia. reflexivity.
Qed.

Lemma cand_tk_had_cap had tk : tk_phys tk -> t_pterr tk <> 1 ->
  cand_tk_had (Some 131071) had tk = cand_tk_had None had tk.
Proof.
  intros Ht N. unfold cand_tk_had. apply map_ext; intros h. cbv zeta.
  destruct (Z.ltb_spec (pt_floor tk) (h_pt h)) as [A|A]; cbn [andb]; [|reflexivity].
  unfold cand_if. destruct (_ <? 756); [|reflexivity]. f_equal. apply metric_cap; auto. destruct Ht as [_ [_ ?]]; assumption.
Qed.

(** ** muon - track *)
Lemma mu2trk_row mu track : mu_ok mu -> 0 < m_pt mu -> Forall tk_phys track ->
  spfph_mu2trk_linkstep_row mu (spfph_mu2trk_dptvals_row mu track) = onehot (length track) (best (cand_mu_tk track mu)).
Proof.
  intros (Hm & _) Hp Ht. unfold inS in Hm; simpl in Hm.
  unfold spfph_mu2trk_linkstep_row, spfph_mu2trk_dptvals_row.
  change (wrapU 12 DR2MAX_TK_MU) with 2101.
  rewrite Forall_forall in Ht.
  assert (Hs : Z.shiftr (m_pt mu) 1 = m_pt mu / 2) by (rewrite Z.shiftr_div_pow2 by lia; reflexivity).
  rewrite !Hs.
  rewrite (map_ext_in _ (fun t => if dist2 (m_eta mu) (m_phi mu) (t_eta t) (t_phi t) <? 2101
                                  then Z.abs (t_pt t - m_pt mu) else m_pt mu / 2)).
  2:{ intros t Hin. destruct (Ht t Hin) as [(P & _) [HP _]]. unfold inS in P; simpl in P.
      rewrite cap_lt by (simpl; lia).
      destruct (Z.ltb_spec (dist2 (m_eta mu) (m_phi mu) (t_eta t) (t_phi t)) 2101) as [L|L].
      - destruct (Z.ltb_spec (dist2 (m_eta mu) (m_phi mu) (t_eta t) (t_phi t)) 2101); [|lia].
        unfold pt_t. rewrite (wrapS16_id (m_pt mu - t_pt t)) by lia.
        destruct (Z.gtb_spec (m_pt mu - t_pt t) 0); [lia|]. rewrite wrapS16_id by lia. lia.
      - destruct (Z.ltb_spec 2101 2101); [lia|]. unfold pt_t. rewrite wrapS16_id by lia. reflexivity. }
  set (vals := map _ track).
  pose proof (row_onehot (fun v => v <? m_pt mu / 2) (m_pt mu / 2) vals (fun v _ => eq_refl)) as R.
  etransitivity; [exact R|]. unfold vals at 1. rewrite map_length. f_equal. f_equal.
  unfold vals, cand_mu_tk. rewrite map_map. apply map_ext; intros t. cbv zeta.
  destruct (dist2 _ _ _ _ <? 2101); cbn [andb]; [reflexivity|].
  destruct (Z.ltb_spec (m_pt mu / 2) (m_pt mu / 2)); [lia|reflexivity].
Qed.

Lemma mu_ref_best_spec track mu : mu_ref_best track mu = best (cand_mu_tk track mu).
Proof.
  unfold mu_ref_best, cand_mu_tk.
  set (g := fun t => cand_if (dist2 (m_eta mu) (m_phi mu) (t_eta t) (t_phi t) <? 2101) (Z.abs (t_pt t - m_pt mu))).
  rewrite (fold_left_ext _ (fun s p => (fun '(m, b) '(i, c) =>
                    match c with
                    | None => (m, b)
                    | Some v => if v <? m then (v, Some i) else (m, b)
                    end) s (fst p, g (snd p)))).
  2:{ intros [m b] [i t] _. cbn [fst snd]. unfold g, cand_if, DR2MAX_TK_MU. cbv zeta. destruct (_ <? 2101); reflexivity. }
  rewrite <- (fold_indexed_map _ g). rewrite running_min_best. f_equal. rewrite map_map.
  apply map_ext; intros t. unfold g, cand_if, below. cbv zeta.
  rewrite Z.shiftr_div_pow2 by lia. change (2 ^ 1) with 2.
  destruct (_ <? 2101); cbn [andb]; reflexivity.
Qed.
