(** Proofs of C83: what was in memory before a call does not matter. *)
From Verif Require Import Base BaseFacts MapiFacts Data PFHw PFRef Encoding SpecOut SpecTest SpecMemory SortFacts InsertFacts.

Lemma same_ne_refl a : same_ne a a.
Proof. repeat split. Qed.
Lemma Forall2_firstn {A B} (R : A -> B -> Prop) n : forall l l', Forall2 R l l' -> Forall2 R (firstn n l) (firstn n l').
Proof. induction n; intros l l' H; [constructor|]. destruct H; cbn; constructor; auto. Qed.
Lemma F2_len {A B} (R : A -> B -> Prop) l l' : Forall2 R l l' -> length l = length l'.
Proof. induction 1; cbn; congruence. Qed.
Lemma Forall2_in_r {A B} (R : A -> B -> Prop) l l' y : Forall2 R l l' -> In y l' -> exists x, In x l /\ R x y.
Proof. induction 1 as [|a b l l' E H IH]; intros []; [subst; exists a; split; [left; reflexivity|exact E]|]. destruct (IH H0) as (x & Hx & HR). exists x. split; [right; exact Hx|exact HR]. Qed.
Lemma ins_same x y : same_ne x y -> forall l l', Forall2 same_ne l l' -> Forall2 same_ne (insle n_pt l x) (insle n_pt l' y).
Proof.
  intros E l l' H. unfold insle. induction H as [|a b l l' Hab H IH]; cbn [ins]; [constructor; [exact E|constructor]|].
  assert (Ea : n_pt a = n_pt b) by apply Hab. assert (Ex : n_pt x = n_pt y) by apply E. replace (n_pt a <=? n_pt x) with (n_pt b <=? n_pt y) by (rewrite Ea, Ex; reflexivity). destruct (n_pt b <=? n_pt y); [constructor; [exact E|constructor; assumption]|constructor; assumption].
Qed.
Lemma fold_same i i' : Forall2 same_ne i i' -> forall l l', Forall2 same_ne l l' -> Forall2 same_ne (fold_left (insle n_pt) i l) (fold_left (insle n_pt) i' l').
Proof. induction 1 as [|a b i i' E H IH]; intros l l' HL; cbn [fold_left]; [exact HL|]. apply IH. apply ins_same; assumption. Qed.
Lemma mapi_same {A} (f g : nat -> A -> PFNe) l : (forall i x, In x l -> same_ne (f i x) (g i x)) -> Forall2 same_ne (mapi f l) (mapi g l).
Proof.
  revert f g. induction l as [|x l IH]; intros f g H; [constructor|]. rewrite !mapi_cons. constructor; [apply H; left; reflexivity|].
  apply IH. intros i y Hy. apply H. right. exact Hy.
Qed.

(** ** The firmware *)
Lemma photons_same calo p m m' : Forall2 same_ne (tk2em_photons calo p m) (tk2em_photons calo p m').
Proof. unfold tk2em_photons. apply mapi_same. intros i [c x] _. repeat split. Qed.
Definition ne_res_same (a b : res (list PFNe)) : Prop := match a, b with Ok x, Ok y => Forall2 same_ne x y | UB k, UB l => k = l | _, _ => False end.
Lemma caloalgo_one_same c s e m m' : match tk2calo_caloalgo_one c s e m, tk2calo_caloalgo_one c s e m' with Ok x, Ok y => same_ne x y | UB k, UB l => k = l | _, _ => False end.
Proof.
  unfold tk2calo_caloalgo_one. destruct (if s =? 0 then _ else _) as [x|k]; cbn [bind]; [repeat split|reflexivity].
Qed.
Lemma mapM_same {A} (f g : A -> res PFNe) l : (forall x, In x l -> match f x, g x with Ok x, Ok y => same_ne x y | UB k, UB l => k = l | _, _ => False end) -> ne_res_same (mapM f l) (mapM g l).
Proof.
  induction l as [|x l IH]; intros H; cbn [mapM]; [constructor|]. pose proof (H x (or_introl eq_refl)) as Hx.
  destruct (f x), (g x); cbn [bind]; try contradiction; [|exact Hx]. specialize (IH (fun y Hy => H y (or_intror Hy))).
  destruct (mapM f l), (mapM g l); cbn [bind ne_res_same] in *; try contradiction; [constructor; assumption|exact IH].
Qed.
Lemma caloalgo_same calo sums m m' : ne_res_same (tk2calo_caloalgo calo sums m) (tk2calo_caloalgo calo sums m').
Proof. unfold tk2calo_caloalgo. apply mapM_same. intros [i [c [s e]]] _. apply caloalgo_one_same. Qed.
Lemma caloalgo_nonneg calo sums m l : Forall (fun h => 0 <= h_pt h) calo -> tk2calo_caloalgo calo sums m = Ok l -> forall x, In x l -> 0 <= n_pt x.
Proof.
  unfold tk2calo_caloalgo. intros H E x Hx. apply mapM_Ok_inv in E. destruct (Forall2_in_r _ _ _ _ E Hx) as ([i [c [s e]]] & Hin & E1).
  assert (Hc : 0 <= h_pt c). { apply in_indexed in Hin. apply nth_error_In in Hin. apply in_combine_l in Hin. rewrite Forall_forall in H. apply H. exact Hin. }
  unfold tk2calo_caloalgo_one in E1. destruct (s =? 0); cbn [bind] in E1; [injection E1 as <-; exact Hc|]. cbv zeta in E1.
  destruct (Z.gtb_spec (pt_t (h_pt c - s)) 0); [|cbn [bind] in E1; injection E1 as <-; cbn; lia].
  destruct (i32 _); cbn [bind] in E1; [|discriminate]. destruct (_ >? _); injection E1 as <-; cbn; lia.
Qed.
Lemma sub_nonneg had sums : Forall (fun h => 0 <= h_pt h) had -> Forall (fun h => 0 <= h_pt h) (em2calo_sub had sums).
Proof.
  intros H. apply Forall_forall. intros x Hx. unfold em2calo_sub in Hx. apply in_map_iff in Hx as ([c [s k]] & <- & Hin). apply in_combine_l in Hin. rewrite Forall_forall in H. specialize (H c Hin).
  unfold em2calo_sub_one. cbv zeta. destruct (Z.leb_spec (pt_t (h_pt c - s)) (Z.shiftr (h_pt c) 4)); cbn [orb]; [cbn; lia|].
  assert (0 <= Z.shiftr (h_pt c) 4) by (apply Z.shiftr_nonneg; exact H). destruct (_ && _); cbn; lia.
Qed.
Lemma caloalgo_len calo sums m l : length calo = length sums -> tk2calo_caloalgo calo sums m = Ok l -> length l = length calo.
Proof. unfold tk2calo_caloalgo. intros H E. apply mapM_Ok_inv in E. apply F2_len in E. rewrite <- E. rewrite length_indexed, combine_length. lia. Qed.
Lemma sort_same i i' m m' nsel : Forall2 same_ne i i' -> (forall x, In x i -> 0 <= n_pt x) -> (nsel <= length i)%nat ->
  ne_res_same (ptsort_hwopt n_pt ne_zero_pt m i nsel) (ptsort_hwopt n_pt ne_zero_pt m' i' nsel).
Proof.
  intros H P L. pose proof (F2_len _ _ _ H) as HL.
  assert (P' : forall x, In x i' -> 0 <= n_pt x). { intros x Hx. destruct (Forall2_in_r _ _ _ _ H Hx) as (y & Hy & E). destruct E as (E & _). rewrite <- E. apply P. exact Hy. }
  rewrite !ptsort_hwopt_sorted by (try reflexivity; try assumption; lia). cbn [ne_res_same]. apply Forall2_firstn. unfold sorted_cands. apply fold_same; [exact H|constructor].
Qed.
Lemma firmware_same mem mem' nsel em had track mu : (nsel <= length had)%nat -> Forall (fun h => 0 <= h_pt h) had ->
  same_result (pfalgo3_full mem nsel em had track mu) (pfalgo3_full mem' nsel em had track mu).
Proof.
  intros Hn Hp. unfold pfalgo3_full. cbv zeta. destruct (spfph_mualgo _ _ _ _) as [[outmu isMu]|]; cbn [bind]; [|reflexivity].
  destruct (tk2em_emalgo _ _) as [emres|]; cbn [bind]; [|reflexivity].
  set (sub := em2calo_sub had _). assert (Ls : length sub = length had). { unfold sub, em2calo_sub, em2calo_sumem. rewrite map_length, combine_length, map_length, seq_length. lia. }
  assert (Ps : Forall (fun h => 0 <= h_pt h) sub) by (apply sub_nonneg; exact Hp). clearbody sub.
  destruct (tk2calo_link_drdpt _ _) as [lnk|]; cbn [bind]; [|reflexivity].
  destruct (tk2calo_sumtk _ _ _ _ _ _) as [sums|] eqn:S; cbn [bind]; [|reflexivity].
  assert (Lm : length sums = length had). { unfold tk2calo_sumtk in S. apply mapM_Ok_inv in S. apply F2_len in S. rewrite seq_length in S. symmetry. exact S. }
  pose proof (caloalgo_same sub sums (junk_ne_all mem) (junk_ne_all mem')) as C.
  destruct (tk2calo_caloalgo sub sums (junk_ne_all mem)) as [a|] eqn:A, (tk2calo_caloalgo sub sums (junk_ne_all mem')) as [b|] eqn:B; cbn [bind ne_res_same] in *; try contradiction; [|exact C].
  pose proof (sort_same a b (junk_tmp mem) (junk_tmp mem') nsel C (caloalgo_nonneg _ _ _ _ Ps A)) as T.
  rewrite (caloalgo_len sub sums _ a (eq_trans Ls (eq_sym Lm)) A) in T. specialize (T ltac:(lia)).
  destruct (ptsort_hwopt n_pt ne_zero_pt (junk_tmp mem) a nsel), (ptsort_hwopt n_pt ne_zero_pt (junk_tmp mem') b nsel); cbn [bind ne_res_same same_result] in *; try contradiction; [|exact T].
  split; [reflexivity|]. split; [apply photons_same|]. split; [exact T|reflexivity].
Qed.

(** ** The reference *)
Lemma em_ref_same kv em had track isMu m m' :
  match pfalgo3_em_ref kv em had track isMu m, pfalgo3_em_ref kv em had track isMu m' with
  | Ok (e, p, c), Ok (e', p', c') => e = e' /\ Forall2 same_ne p p' /\ c = c' | UB k, UB l => k = l | _, _ => False end.
Proof.
  unfold pfalgo3_em_ref. destruct (foldM (em_ref_track_step em) _ _) as [[tk2em sumtk]|]; cbn [bind]; [|reflexivity].
  destruct (mapM _ (combine em sumtk)) as [emres|]; cbn [bind]; [|reflexivity]. cbv zeta. destruct (mapM _ _) as [isEle|]; cbn [bind]; [|reflexivity].
  split; [reflexivity|]. split; [|reflexivity]. apply mapi_same. intros i [c [b p]] _. repeat split.
Qed.
Lemma reference_same mem mem' nsel em had track mu : same_result (pfalgo3_full_ref mem nsel em had track mu) (pfalgo3_full_ref mem' nsel em had track mu).
Proof.
  unfold pfalgo3_full_ref, pfalgo3_full_ref_gen. destruct (foldM (mu_ref_step track) _ _) as [[outmu isMu]|]; cbn [bind]; [|reflexivity].
  pose proof (em_ref_same true em had track isMu (old_outpho mem) (old_outpho mem')) as E.
  destruct (pfalgo3_em_ref true em had track isMu (old_outpho mem)) as [[[isEle p] calo]|], (pfalgo3_em_ref true em had track isMu (old_outpho mem')) as [[[isEle' p'] calo']|]; cbn [bind]; try contradiction; [|exact E].
  destruct E as (<- & HP & <-). destruct (foldM (had_ref_track_step calo) _ _) as [[[good sums] errs]|]; cbn [bind]; [|reflexivity]. destruct (mapM _ _) as [subpt|]; cbn [bind]; [|reflexivity].
  rewrite !ptsort_ref_fold. cbn [bind same_result]. split; [reflexivity|]. split; [exact HP|]. split; [|reflexivity]. cbn [o_ne]. rewrite !map_length.
  apply Forall2_firstn. apply fold_same.
  - apply mapi_same. intros i [c x] _. unfold had_ref_ne. destruct (x >? 0); repeat split.
  - rewrite !map_map. induction (seq 0 nsel); constructor; [repeat split|assumption].
Qed.

(** ** The words *)
Lemma pack_ne_same offs : forall l l' k, Forall2 same_ne l l' -> forall data, foldM (pack_ne_body offs) (combine (seq k (length l)) l) data = foldM (pack_ne_body offs) (combine (seq k (length l')) l') data.
Proof.
  induction l as [|a l IH]; intros l' k H data; inversion H as [|? b ? l'' E F]; subst; [reflexivity|]. cbn [length seq combine foldM].
  assert (P : pack_ne_body offs data (k, a) = pack_ne_body offs data (k, b)). { destruct E as (E1 & E2 & E3 & E4). unfold pack_ne_body. rewrite E1, E2, E3, E4. reflexivity. }
  rewrite P. destruct (pack_ne_body offs data (k, b)); cbn [bind]; [|reflexivity]. apply IH. exact F.
Qed.
Lemma pack_out_same nch o q data : same_out o q -> mp7wrapped_pack_out nch (o_ch o) (o_pho o) (o_ne o) (o_mu o) data = mp7wrapped_pack_out nch (o_ch q) (o_pho q) (o_ne q) (o_mu q) data.
Proof.
  intros (E1 & E2 & E3 & E4). unfold mp7wrapped_pack_out. cbv zeta. rewrite <- E1, <- E4, <- (F2_len _ _ _ E2), <- (F2_len _ _ _ E3).
  destruct (assert_fits _ _ _ _ _); cbn [bind]; [|reflexivity]. destruct (foldM (pack_ch_body 0) _ data) as [d|]; cbn [bind]; [|reflexivity].
  unfold indexed. rewrite (pack_ne_same _ _ _ 0 E2). destruct (foldM _ (combine _ (o_pho q)) d) as [d1|]; cbn [bind]; [|reflexivity].
  rewrite (pack_ne_same _ _ _ 0 E3). reflexivity.
Qed.
Lemma wrapper_same nch nem nhad ntk nmu nsel mem mem' input output : (nsel <= nhad)%nat ->
  (forall em had tk mu, mp7wrapped_unpack_in nch nem nhad ntk nmu input = Ok (em, had, tk, mu) -> Forall (fun h => 0 <= h_pt h) had) ->
  mp7wrapped_pfalgo3_full nch nem nhad ntk nmu nsel mem input output = mp7wrapped_pfalgo3_full nch nem nhad ntk nmu nsel mem' input output.
Proof.
  intros Hn Hp. unfold mp7wrapped_pfalgo3_full. destruct (mp7wrapped_unpack_in nch nem nhad ntk nmu input) as [[[[em had] tk] mu]|] eqn:U; cbn [bind]; [|reflexivity].
  assert (L : length had = nhad).
  { unfold mp7wrapped_unpack_in in U. destruct (assert_fits _ _ _ _ _); cbn [bind] in U; [|discriminate]. destruct (mp7_unpack_em _ _ _); cbn [bind] in U; [|discriminate].
    destruct (mp7_unpack_had nhad _ _) as [h|] eqn:E; cbn [bind] in U; [|discriminate]. destruct (mp7_unpack_tk _ _ _); cbn [bind] in U; [|discriminate]. destruct (mp7_unpack_mu _ _ _); cbn [bind] in U; [|discriminate].
    injection U as _ <- _ _. unfold mp7_unpack_had in E. apply mapM_Ok_inv in E. apply F2_len in E. rewrite seq_length in E. symmetry. exact E. }
  pose proof (firmware_same mem mem' nsel em had tk mu ltac:(lia) (Hp _ _ _ _ eq_refl)) as S.
  destruct (pfalgo3_full mem nsel em had tk mu), (pfalgo3_full mem' nsel em had tk mu); cbn [bind same_result] in *; try contradiction; [apply pack_out_same; exact S|congruence].
Qed.
