(** C98: where the neutral candidates come from. *)
From Verif Require Import Base BaseFacts TabFacts MapiFacts SortFacts Data PFHw SpecPF SpecPFWrap SpecLink LinkFacts SpecSort
  Regionizer SpecRegion RegionFacts RegionLoops RegionProofs RegTest RegTestOk Encoding SpecEnc EncFacts EncProofs SpecChain ChainProofs Props_PFWrap.

(** ** nothing is linked to a cleared hadronic slot *)
Section empty.
Variables (em : list EmCalo) (had : list HadCalo) (track : list Tk) (mu : list Mu).
Lemma sum_none {T} (sel : nat -> T -> bool) f l : (forall i x, nth_error l i = Some x -> sel i x = false) -> sum_where sel f l = 0.
Proof.
  intros H. rewrite (sum_where_ext sel (fun _ _ => false)) by (intros i x E; rewrite (H i x E); reflexivity).
  unfold sum_where, mapi. generalize (indexed l). intros l0. induction l0 as [|[k x] l0 IH]; [reflexivity|]. cbn [map sumZ fold_right] in *. exact IH.
Qed.
Lemma empty_emsum h : Forall em_phys em -> nth_error had h = Some had0 -> had_emsum_w em had track mu h = 0.
Proof.
  intros P Hh. unfold had_emsum_w. rewrite sum_none; [reflexivity|]. intros k e Ee. apply andb_false_iff. right. unfold opt_is.
  destruct (best (cand_em_had had e)) as [j|] eqn:B; [|reflexivity]. apply Nat.eqb_neq. intros ->. apply best_spec in B as (v & Ev & _).
  unfold cand_em_had in Ev. rewrite nth_error_map, Hh in Ev. cbn [option_map had0 h_empt] in Ev. injection Ev as Ev.
  assert (0 <= e_pt e) by (rewrite Forall_forall in P; apply P; eapply nth_error_In; exact Ee). destruct (Z.ltb_spec (e_pt e / 2) 0); [lia|]. cbn in Ev. discriminate.
Qed.
Lemma empty_left h : Forall em_phys em -> nth_error had h = Some had0 -> had_left_pt_w em had track mu h had0 = 0.
Proof. intros P Hh. unfold had_left_pt_w. rewrite (empty_emsum h P Hh). reflexivity. Qed.
Lemma empty_tksum h : Forall em_phys em -> nth_error had h = Some had0 -> had_tksum_w em had track mu h = 0.
Proof.
  intros P Hh. unfold had_tksum_w. rewrite sum_none; [reflexivity|]. intros i t Et. unfold in_had_w. apply andb_false_iff. right. unfold opt_is.
  destruct (had_match_w em had track mu t) as [j|] eqn:B; [|reflexivity]. apply Nat.eqb_neq. intros ->. unfold had_match_w in B. apply best_spec in B as (v & Ev & _).
  unfold cand_tk_had, had_left_w in Ev. rewrite nth_error_map, nth_error_mapi, Hh in Ev. cbn [option_map h_pt] in Ev. rewrite (empty_left h P Hh) in Ev. injection Ev as Ev.
  unfold pt_floor in Ev. destruct (Z.ltb_spec (Z.max 0 (wrapS 16 (t_pt t - 2 * t_pterr t))) 0); [lia|]. cbn in Ev. discriminate.
Qed.
Lemma empty_ne h : Forall em_phys em -> nth_error had h = Some had0 -> ne_pt_w em had track mu h had0 = 0.
Proof. intros P Hh. unfold ne_pt_w. rewrite (empty_left h P Hh), (empty_tksum h P Hh). reflexivity. Qed.
End empty.

Lemma pho_le e S : em_phys e -> 0 <= S <= 32767 -> pho_pt_w e S <= e_pt e /\ (pho_pt_w e S <> 0 -> 0 < e_pt e /\ 0 < pho_pt_w e S).
Proof.
  intros ((P & _) & P0 & _) HS. unfold pho_pt_w. destruct (Z.eqb_spec S 0) as [E|E]; [lia|].
  unfold w16. rewrite wrapS_id by (unfold inS in *; lia). destruct (Z.ltb_spec 0 (e_pt e - S)); [|cbn; lia]. cbn [andb]. destruct (_ <? _); lia.
Qed.

(** ** from the region to the fibre *)
Lemma origin1 {A} (d : A) nobj nsec nreg w fibers g o rest st ie ip y : dims3 12 3 nsec w -> dims2 18 nreg g -> length fibers = 12%nat -> (forall fib, In fib fibers -> (nobj <= length fib)%nat) ->
  regionize_ref d nobj nsec nreg 1 w fibers g = Ok (o, rest, st) -> (ie < 3)%nat -> (ip < 6)%nat -> In y (nth (6 * ie + ip) o []) -> 0 < r_pt y ->
  exists s x, (s < 12)%nat /\ In x (firstn nobj (nth s fibers [])) /\ r_pt y = r_pt x /\
    (-392 <= r_phi x <= 391 -> region_eta ie (r_eta y) = r_eta x /\ region_phi ip (r_phi y) = sector_phi s (r_phi x)).
Proof.
  intros W G L1 L2 E He Hp Hy P. pose proof (regionize_ref_spec d nobj nsec nreg 1 w fibers g W G L1) as H. rewrite Nat.div_1_r in H.
  destruct (H L2) as (out & s' & E' & _ & _ & SP). rewrite E in E'. assert (o = out) by congruence. subst out.
  destruct (region_origin d nsec nreg _ ie ip _ y He Hp (SP ie ip He Hp) Hy P) as (j & x & Hj & Hx & _ & ->). rewrite arrivals_one in Hx.
  exists (region_sector ip j), x. split; [apply Nat.mod_upper_bound; lia|]. split; [exact Hx|]. split; [reflexivity|]. intros F.
  destruct (local_coordinates ip ie j x Hp Hj F) as [Q1 Q2]. split; [exact Q2|exact Q1].
Qed.
Lemma cleared {A T} (d : A) Q n o (f : robj A -> T) (pt : T -> Z) r t : (forall x, pt (f x) = r_pt x) -> good d Q n o -> (r < 18)%nat -> In t (nth r (map (map f) o) []) -> pt t = 0 -> t = f (rclear d).
Proof.
  intros Hf [_ G] Hr Ht Z. rewrite nth_mm in Ht. apply in_map_iff in Ht as (x & <- & Hx). destruct (G r Hr) as [_ F]. rewrite Forall_forall in F. destruct (F x Hx) as [_ [P| ->]]; [rewrite Hf in Z; lia|reflexivity].
Qed.
Lemma in_fibre {S T} (f : S -> T) k l s x : In x (firstn k (nth s (map (map f) l) [])) -> exists u, In u (firstn k (nth s l [])) /\ In u (nth s l []) /\ x = f u.
Proof.
  rewrite nth_mm, firstn_map. intros H. apply in_map_iff in H as (u & <- & Hu). exists u. split; [exact Hu|]. split; [|reflexivity]. rewrite <- (firstn_skipn k). apply in_or_app. left. exact Hu.
Qed.
Lemma every {T} (P : T -> Prop) l s u : everywhere P l -> In u (nth s l []) -> P u.
Proof. intros H Hu. destruct (nth_in_or_default s l []) as [Hin|Hd]; [|rewrite Hd in Hu; destruct Hu]. unfold everywhere in H. rewrite Forall_forall in H. specialize (H _ Hin). rewrite Forall_forall in H. auto. Qed.

Lemma c98_neutral c e had em tk mu ie ip mem o : (NSELCALO c <= NCALO c)%nat -> complete c e -> in_range e ->
  everywhere (fun h => -392 <= h_phi h <= 391) (ev_had e) -> everywhere (fun x => -392 <= e_phi x <= 391) (ev_em e) ->
  had_reference c e had -> other_regions c e em tk mu -> (ie < 3)%nat -> (ip < 6)%nat ->
  let r := (6 * ie + ip)%nat in
  pfalgo3_full mem (NSELCALO c) (nth r em []) (nth r had []) (nth r tk []) (nth r mu []) = Ok o ->
  (forall x, In x (o_ne o) -> n_pt x <> 0 -> from_had e ie ip x) /\
  (sumZ (map t_pt (nth r tk [])) <= 32767 -> forall x, In x (o_pho o) -> n_pt x <> 0 -> 0 < n_pt x /\ from_em e ie ip x).
Proof.
  intros N C R HP EP H O He Hp r E. assert (Hr : (r < 18)%nat) by (unfold r; lia).
  destruct (c98_legal c e had em tk mu r C R H O Hr) as (P & _ & L & _). pose proof P as (P1 & P2 & P3 & P4).
  assert (N' : (NSELCALO c <= length (nth r had []))%nat) by lia. destruct (C72_result _ _ _ _ _ _ _ P N' E) as (_ & R2 & R3 & _). split.
  - intros x Hx Z. apply (top_n_in _ _ _ _ _ _ R3) in Hx. apply in_mapi in Hx as (h & cl & Eh & ->). unfold sp_ne_w, ne_obj in *.
    destruct (Z.eqb_spec (ne_pt_w (nth r em []) (nth r had []) (nth r tk []) (nth r mu []) h cl) 0) as [B|B]; [cbn in Z; lia|]. cbn [n_pt n_eta n_phi] in *. clear Z.
    pose proof C as (C1 & _). pose proof R as (R1 & _). destruct H as (w & g & oo & rest & st & W & G & E' & ->). destruct (fib_len _ _ r_of_had _ C1) as [L1 L2].
    assert (GD : good had_d QH (NCALO c) oo).
    { eapply (ref_good had_d QH) with (nobj := 15%nat) (nsec := 7%nat) (nf := 1%nat); [split; [unfold inS; cbn; lia|cbn; lia]|exact W|exact G|exact L1|exact L2| |exact E'].
      eapply lift; [|exact R1]. intros hh ((a & b & c0 & q) & q'). unfold r_ok, QH, r_of_had. cbn. tauto. }
    assert (Hin : In cl (nth r (map (map had_of_r) oo) [])) by (eapply nth_error_In; exact Eh).
    assert (Pc : 0 < h_pt cl).
    { pose proof (proj1 (Forall_forall _ _) P2 cl Hin) as (_ & P0 & _). destruct (Z.eq_dec (h_pt cl) 0) as [Zc|]; [|lia]. exfalso.
      pose proof (cleared had_d QH (NCALO c) oo had_of_r h_pt r cl (fun _ => eq_refl) GD Hr Hin Zc) as ->. apply B. apply (empty_ne _ _ _ _ h P1 Eh). }
    rewrite nth_mm in Hin. apply in_map_iff in Hin as (y & <- & Hy).
    destruct (origin1 had_d 15 7 (NCALO c) w _ g oo rest st ie ip y W G L1 L2 E' He Hp Hy Pc) as (s & x & Hs & Hx & Px & Cx). apply in_fibre in Hx as (u & Hu & Hu' & ->).
    destruct (Cx (every _ _ _ _ HP Hu')) as [Q1 Q2]. cbn [r_of_had r_pt r_eta r_phi had_of_r h_pt h_eta h_phi] in *. exists s, u. split; [exact Hs|]. split; [exact Hu|]. split; [lia|]. split; [exact Q1|exact Q2].
  - intros S0 x Hx Z. rewrite R2 in Hx. apply in_mapi in Hx as (k & cl & Ek & ->). unfold sp_pho_w, ne_obj in *.
    assert (SB : 0 <= em_tksum_w (nth r em []) (nth r tk []) (nth r mu []) k <= 32767).
    { unfold em_tksum_w, em_tksum, w16. match goal with |- context [sum_where ?sel t_pt ?l] => pose proof (sum_where_le sel t_pt l) as B end.
      rewrite Forall_forall in P3. specialize (B (fun t Ht => proj1 (proj2 (P3 t Ht)))). rewrite wrapS_id by (unfold inS; lia). lia. }
    assert (Hin : In cl (nth r em [])) by (eapply nth_error_In; exact Ek).
    destruct (pho_le cl _ (proj1 (Forall_forall _ _) P1 cl Hin) SB) as [Le Po].
    destruct (Z.eqb_spec (pho_pt_w cl (em_tksum_w (nth r em []) (nth r tk []) (nth r mu []) k)) 0) as [B|B]; [cbn in Z; lia|]. cbn [n_pt n_eta n_phi] in *. clear Z. destruct (Po B) as [Pc Pp]. split; [exact Pp|].
    pose proof C as (_ & C1 & _). destruct O as ((w & g & oo & rest & st & W & G & E' & ->) & _). destruct (fib_len _ _ r_of_em _ C1) as [L1 L2].
    rewrite nth_mm in Hin. apply in_map_iff in Hin as (y & <- & Hy).
    destruct (origin1 0 12 7 (NEMCALO c) w _ g oo rest st ie ip y W G L1 L2 E' He Hp Hy Pc) as (s & x & Hs & Hx & Px & Cx). apply in_fibre in Hx as (u & Hu & Hu' & ->).
    destruct (Cx (every _ _ _ _ EP Hu')) as [Q1 Q2]. cbn [r_of_em r_pt r_eta r_phi em_of_r e_pt e_eta e_phi] in *. unfold from_em. cbn [n_pt n_eta n_phi]. exists s, u. split; [exact Hs|]. split; [exact Hu|]. split; [lia|]. split; [lia|]. split; [exact Q1|exact Q2].
Qed.

(** ** over the MP7 links *)
Lemma c98_links c e had em tk mu r mem data out0 oldpho oldne : In c [cfg_TESTMP7; cfg_TESTCTP7; cfg_default] -> complete c e -> in_range e ->
  had_reference c e had -> other_regions c e em tk mu -> (r < 18)%nat -> (forall i, ne_ok (junk_tmp mem i)) ->
  length data = MP7_NCHANN -> length out0 = MP7_NCHANN -> length oldpho = NEMCALO c -> length oldne = NSELCALO c ->
  exists w, mp7wrapped_pack_in MP7_NCHANN (nth r em []) (nth r had []) (nth r tk []) (nth r mu []) data = Ok w /\
  match pfalgo3_full mem (NSELCALO c) (nth r em []) (nth r had []) (nth r tk []) (nth r mu []) with
  | Ok o => exists d, mp7wrapped_pfalgo3_full MP7_NCHANN (NEMCALO c) (NCALO c) (NTRACK c) (NMU c) (NSELCALO c) mem w out0 = Ok d /\
              mp7wrapped_unpack_out MP7_NCHANN (NTRACK c) (NMU c) d oldpho oldne = Ok (o_ch o, zip_puppi oldpho (o_pho o), zip_puppi oldne (o_ne o), o_mu o)
  | UB k => mp7wrapped_pfalgo3_full MP7_NCHANN (NEMCALO c) (NCALO c) (NTRACK c) (NMU c) (NSELCALO c) mem w out0 = UB k
  end.
Proof.
  intros Hc C I H O Hr J Ld Lo Lp Ln. destruct (c98_legal _ _ _ _ _ _ _ C I H O Hr) as ((Pe & Ph & Pt & Pm) & Le & Lh & Lt & Lm & _).
  destruct configs_fit as (F & _). rewrite Forall_forall in F. destruct (F c Hc) as (F1 & F2).
  pose proof (c18 MP7_NCHANN (NSELCALO c) mem (nth r em []) (nth r had []) (nth r tk []) (nth r mu []) data out0 oldpho oldne) as G.
  rewrite Le, Lh, Lt, Lm in G. apply G; clear G; rewrite ?Ld, ?Lo, ?Nat.min_id; try assumption.
  - eapply Forall_impl; [|exact Pe]. intros x X. apply X.
  - eapply Forall_impl; [|exact Ph]. intros x X. apply X.
  - eapply Forall_impl; [|exact Pt]. intros x X. apply X.
  - eapply Forall_impl; [|exact Pm]. intros x X. apply X.
Qed.
