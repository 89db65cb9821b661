(** C101: the energy budget of the chain. *)
From Coq Require Import Permutation.
From Verif Require Import Base BaseFacts TabFacts MapiFacts PFInert Data PFHw PFRef SpecPF SpecPFRef SpecPFWrap SpecOut SpecLink SpecShare ShareProofs
  Regionizer SpecRegion RegionFacts RegionLoops RegionProofs RegionFinal RegTest RegTestRun RegTestOk SpecCopies CopiesProofs SpecChain ChainProofs ChainKept SpecChainEnergy Props_PFRef Props_PFWrap PuppiProofs.

Lemma sz_cons a l : sumZ (a :: l) = a + sumZ l.
Proof. reflexivity. Qed.
Lemma filter_permut {T} (f : T -> bool) l l' : Permutation l l' -> Permutation (filter f l) (filter f l').
Proof.
  induction 1; cbn; [constructor| | |etransitivity; eassumption].
  - destruct (f x); [constructor|]; assumption.
  - destruct (f x), (f y); try apply perm_swap; reflexivity.
Qed.
Lemma sum_pos {T} (pt : T -> Z) l : Forall (fun x => 0 <= pt x) l -> sumZ (map pt (filter (fun x => 0 <? pt x) l)) = sumZ (map pt l).
Proof.
  induction 1 as [|a l Ha _ IH]; [reflexivity|]. cbn [filter map]. destruct (Z.ltb_spec 0 (pt a)); cbn [map]; rewrite ?sz_cons in *; lia.
Qed.
Lemma sum_seq (f : nat -> Z) outs (g : pfout -> Z) : (forall r o, nth_error outs r = Some o -> g o <= f r) -> sumZ (map g outs) <= sumZ (map f (seq 0 (length outs))).
Proof.
  revert f. induction outs as [|o outs IH]; intros f H; [cbn; lia|]. cbn [length seq map]. rewrite !sz_cons. rewrite <- seq_shift, map_map.
  specialize (IH (fun i => f (S i)) (fun r o' E => H (S r) o' E)). specialize (H 0%nat o eq_refl). lia.
Qed.
Lemma sum_rows {T} (g : list T -> Z) (o : list (list T)) n : length o = n -> sumZ (map (fun r => g (nth r o [])) (seq 0 n)) = sumZ (map g o).
Proof.
  intros <-. induction o as [|a o IH]; [reflexivity|]. cbn [length seq map]. rewrite !sz_cons, <- seq_shift, map_map. cbn [nth]. f_equal. exact IH.
Qed.

(** the total over the regions of a regionizer, with the plain objects *)
Lemma region_total {A T} (pt : T -> Z) (of_ : robj A -> T) (o : list (list (robj A))) : (forall x, pt (of_ x) = r_pt x) ->
  (forall r, (r < 18)%nat -> Forall (fun x => 0 <= pt x) (nth r (map (map of_) o) [])) -> length o = 18%nat ->
  sumZ (map (fun r => sumZ (map pt (nth r (map (map of_) o) []))) (seq 0 18)) = total_out (fun p _ => Z.max 0 p) o.
Proof.
  intros E P L. unfold total_out. rewrite <- (sum_rows _ o 18 L). f_equal. apply map_ext_in. intros r Hr. apply in_seq in Hr. specialize (P r ltac:(lia)). rewrite nth_mm in *.
  rewrite <- (sum_pos pt _ P). unfold total, held. clear P. induction (nth r o []) as [|a l IH]; [reflexivity|]. cbn [map filter]. rewrite E. destruct (Z.ltb_spec 0 (r_pt a)); [|exact IH]. cbn [map]. rewrite !sz_cons, E, IH. f_equal. lia.
Qed.
Lemma arriving_total {A T} (pt eta : T -> Z) (to : T -> robj A) on objs : (forall x, r_pt (to x) = pt x) -> (forall x, r_eta (to x) = eta x) -> (forall s, Permutation (objs s) (map to (on s))) ->
  total_in copies (fun p _ => Z.max 0 p) 12 objs = arriving pt eta on.
Proof.
  intros E1 E2 P. unfold total_in, arriving. f_equal. apply map_ext. intros s. unfold held.
  rewrite (PuppiProofs.sumZ_perm _ _ (Permutation_map _ (filter_permut _ _ _ (P s)))). induction (on s) as [|a l IH]; [reflexivity|]. cbn [map filter]. rewrite E1. destruct (Z.ltb_spec 0 (pt a)); [|exact IH].
  cbn [map]. rewrite !sz_cons, IH. f_equal. rewrite E1, Z.max_r by lia. unfold copies, eta_copies, regions_of. rewrite E2. reflexivity.
Qed.

Lemma regions_bound {A T} (d : A) (pt eta : T -> Z) (of_ : robj A -> T) (to : T -> robj A) nobj nsec nreg nf w fibs g o rest st on :
  (forall x, pt (of_ x) = r_pt x) -> (forall x, r_pt (to x) = pt x) -> (forall x, r_eta (to x) = eta x) ->
  dims3 12 3 nsec w -> dims2 18 nreg g -> length fibs = (nf * 12)%nat -> (forall fib, In fib fibs -> (nobj / nf <= length fib)%nat) ->
  regionize_ref d nobj nsec nreg nf w fibs g = Ok (o, rest, st) ->
  (forall r, (r < 18)%nat -> Forall (fun x => 0 <= pt x) (nth r (map (map of_) o) [])) ->
  (forall s, Permutation (arrivals nf (nobj / nf) fibs s) (map to (on s))) ->
  sumZ (map (fun r => sumZ (map pt (nth r (map (map of_) o) []))) (seq 0 18)) <= arriving pt eta on.
Proof.
  intros E1 E2 E3 W G L1 L2 E P PM. destruct (c96_ref d nobj nsec nreg nf w fibs g W G L1 L2) as (out & r' & s' & E' & _ & K & _).
  destruct (regionize_ref_spec d nobj nsec nreg nf w fibs g W G L1 L2) as (out2 & st2 & E4 & _ & [D _] & _).
  rewrite E in E'. assert (o = out) by congruence. subst out. rewrite E in E4. assert (o = out2) by congruence. subst out2.
  rewrite (region_total pt of_ o E1 P D), <- (arriving_total pt eta to on _ E2 E3 PM). apply K. intros. lia.
Qed.

Lemma tk_total c e tk : complete c e -> in_range e -> tk_reference c e tk -> sumZ (map (fun r => sumZ (map t_pt (nth r tk []))) (seq 0 18)) <= tk_arriving e.
Proof.
  intros C R H. pose proof (tk_rows (fun _ => True) c e tk I C (tk_range e R) H) as Rows. destruct C as (_ & _ & C & _). destruct H as (w & g & o & rest & st & W & G & E & ->).
  destruct (fib_len _ _ r_of_tk _ C) as [L1 L2]. unfold tk_arriving.
  apply (regions_bound tk_d t_pt t_eta tk_of_r r_of_tk 20 9 (NTRACK c) 2 w (map (map r_of_tk) (ev_tk e)) g o rest st); [reflexivity..|exact W|exact G|exact L1|exact L2|exact E| |].
  - intros r Hr. destruct (Rows r Hr) as [_ F]. eapply Forall_impl; [|exact F]. intros t (T & _). unfold tk_phys in T. tauto.
  - intros s. etransitivity; [apply arrivals_two|]. rewrite !nth_mm. unfold sector_tracks. rewrite map_app, !firstn_map. reflexivity.
Qed.
Lemma arrivals_one A cnt (fibers : list (list (robj A))) s : arrivals 1 cnt fibers s = firstn cnt (nth s fibers []).
Proof.
  induction cnt as [|n IH]; [reflexivity|]. replace (S n) with (n + 1)%nat by lia. rewrite arrivals_S, firstn_one, IH. cbn [seq flat_map]. unfold entry. rewrite app_nil_r, Nat.mul_1_l, Nat.add_0_r. reflexivity.
Qed.
Lemma em_total c e em : complete c e -> in_range e -> em_reference c e em -> sumZ (map (fun r => sumZ (map e_pt (nth r em []))) (seq 0 18)) <= em_arriving e.
Proof.
  intros C R H. pose proof (em_rows c e em C R H) as Rows. destruct C as (_ & C & _). destruct H as (w & g & o & rest & st & W & G & E & ->).
  destruct (fib_len _ _ r_of_em _ C) as [L1 L2]. unfold em_arriving.
  apply (regions_bound 0 e_pt e_eta em_of_r r_of_em 12 7 (NEMCALO c) 1 w (map (map r_of_em) (ev_em e)) g o rest st); [reflexivity..|exact W|exact G|exact L1|exact L2|exact E| |].
  - intros r Hr. destruct (Rows r Hr) as [_ F]. eapply Forall_impl; [|exact F]. intros t T. unfold em_phys in T. tauto.
  - intros s. rewrite arrivals_one, nth_mm, firstn_map. reflexivity.
Qed.
Lemma had_total c e had : complete c e -> in_range e -> had_reference c e had -> sumZ (map (fun r => sumZ (map h_pt (nth r had []))) (seq 0 18)) <= had_arriving e.
Proof.
  intros C R H. pose proof (had_rows c e had C R H) as Rows. destruct C as (C & _). destruct H as (w & g & o & rest & st & W & G & E & ->).
  destruct (fib_len _ _ r_of_had _ C) as [L1 L2]. unfold had_arriving.
  apply (regions_bound had_d h_pt h_eta had_of_r r_of_had 15 7 (NCALO c) 1 w (map (map r_of_had) (ev_had e)) g o rest st); [reflexivity..|exact W|exact G|exact L1|exact L2|exact E| |].
  - intros r Hr. destruct (Rows r Hr) as [_ F]. eapply Forall_impl; [|exact F]. intros t T. unfold had_phys in T. tauto.
  - intros s. rewrite arrivals_one, nth_mm, firstn_map. reflexivity.
Qed.

(** charged candidates of one region *)
Lemma mapi_le {T} (pt : T -> Z) (f : nat -> T -> PFCh) l : Forall (fun x => 0 <= pt x) l -> (forall i x, In x l -> c_pt (f i x) = pt x \/ c_pt (f i x) = 0) -> sumZ (map c_pt (mapi f l)) <= sumZ (map pt l).
Proof.
  intros P H. rewrite map_mapi, (map_as_mapi pt). apply sumZ_mapi_le. intros i x E. apply nth_error_In in E. rewrite Forall_forall in P. specialize (P x E). destruct (H i x E); lia.
Qed.
Lemma ch_budget em had track mu mem nsel o : phys em had track mu -> (nsel <= length had)%nat -> pfalgo3_full mem nsel em had track mu = Ok o \/ pfalgo3_full_ref mem nsel em had track mu = Ok o ->
  sumZ (map c_pt (o_ch o)) <= sumZ (map t_pt track).
Proof.
  intros P N E. assert (F : Forall (fun t => 0 <= t_pt t) track) by (destruct P as (_ & _ & P & _); eapply Forall_impl; [|exact P]; intros t T; unfold tk_phys in T; tauto).
  destruct E as [E|E].
  - destruct (C72_result _ _ _ _ _ _ _ P N E) as (R1 & _). rewrite R1. apply mapi_le; [exact F|]. intros i x _. unfold sp_ch_w. destruct (ch_kept_w _ _ _ _ _ _); [left|right]; reflexivity.
  - destruct (C73_result _ _ _ _ _ _ _ P N E) as (R1 & _). rewrite R1. apply mapi_le; [exact F|]. intros i x _. unfold sp_ch_r. destruct (ch_kept_r _ _ _ _ _ _ _); [left|right]; reflexivity.
Qed.

Lemma c101_charged c e had em tk mu outs : (NSELCALO c <= NCALO c)%nat -> complete c e -> in_range e -> had_reference c e had -> other_regions c e em tk mu ->
  all_regions (fun r o => hw_run c em had tk mu r o \/ ref_run c em had tk mu r o) outs -> found_ch outs <= tk_arriving e.
Proof.
  intros N C R H O [L A]. etransitivity; [|exact (tk_total c e tk C R (proj1 (proj2 O)))]. unfold found_ch. rewrite <- L. apply sum_seq. intros r o E.
  assert (Hr : (r < 18)%nat) by (rewrite <- L; apply nth_error_Some; congruence). destruct (c98_legal c e had em tk mu r C R H O Hr) as (P & _ & LH & _).
  destruct (A r o E) as [[mem K]|[mem K]]; (eapply ch_budget; [exact P|rewrite LH; exact N|]); [left|right]; exact K.
Qed.
Lemma c101_neutral c e had em tk mu outs : (NSELCALO c <= NCALO c)%nat -> complete c e -> in_range e -> had_reference c e had -> other_regions c e em tk mu ->
  all_regions (fun r o => hw_run_fit c em had tk mu r o \/ ref_run_fit c em had tk mu r o) outs -> found_pho outs <= em_arriving e /\ found_ne outs <= had_arriving e.
Proof.
  intros N C R H O [L A].
  assert (B : forall r o, nth_error outs r = Some o -> sumZ (map n_pt (o_pho o)) <= sumZ (map e_pt (nth r em [])) /\ sumZ (map n_pt (o_ne o)) <= sumZ (map h_pt (nth r had []))).
  { intros r o E. assert (Hr : (r < 18)%nat) by (rewrite <- L; apply nth_error_Some; congruence). destruct (c98_legal c e had em tk mu r C R H O Hr) as (P & _ & LH & _ & _ & Z0).
    destruct (A r o E) as [[[mem K] S]|[[mem K] S]].
    - destruct (hw_budget _ _ _ _ _ _ _ P ltac:(rewrite LH; exact N) S K) as (_ & B1 & B2 & _). split; assumption.
    - assert (CE : clean_empty (nth r tk [])) by (eapply Forall_impl; [|exact Z0]; intros t T Zt; rewrite (T Zt); reflexivity).
      destruct (ref_budget _ _ _ _ _ _ _ P ltac:(rewrite LH; exact N) S CE K) as (_ & B1 & B2 & _). split; assumption. }
  split.
  - etransitivity; [|exact (em_total c e em C R (proj1 O))]. unfold found_pho. rewrite <- L. apply sum_seq. intros r o E. exact (proj1 (B r o E)).
  - etransitivity; [|exact (had_total c e had C R H)]. unfold found_ne. rewrite <- L. apply sum_seq. intros r o E. exact (proj2 (B r o E)).
Qed.

(** exactly, if every track is soft and there is room *)
Lemma tk_exact c e tk : complete c e -> in_range e -> tk_reference c e tk -> (forall ie ip, (ie < 3)%nat -> (ip < 6)%nat -> room c e ie ip) ->
  sumZ (map (fun r => sumZ (map t_pt (nth r tk []))) (seq 0 18)) = tk_arriving e.
Proof.
  intros C R H F. pose proof (tk_rows (fun _ => True) c e tk I C (tk_range e R) H) as Rows. destruct C as (_ & _ & C & _). destruct H as (w & g & o & rest & st & W & G & E & ->).
  destruct (fib_len _ _ r_of_tk _ C) as [L1 L2]. unfold regionize_track_ref in E. change NTRACK_PER_SECTOR with 20%nat in E. change NTRACK_PER_SECTOR_PER_ETA with 9%nat in E.
  assert (PM : forall s, Permutation (arrivals 2 10 (map (map r_of_tk) (ev_tk e)) s) (map r_of_tk (sector_tracks e s))).
  { intros s. etransitivity; [apply arrivals_two|]. rewrite !nth_mm. unfold sector_tracks. rewrite map_app, !firstn_map. reflexivity. }
  assert (SL : forall s ie, length (slice_cands ie (arrivals 2 10 (map (map r_of_tk) (ev_tk e)) s)) = tracks_in e s ie).
  { intros s ie. unfold slice_cands. rewrite map_length, (filter_perm _ _ _ (PM s)), filter_map_len. reflexivity. }
  destruct (c96_ref tk_d 20 9 (NTRACK c) 2 w (map (map r_of_tk) (ev_tk e)) g W G L1 L2) as (out & r' & s' & E' & _ & _ & K).
  destruct (regionize_ref_spec tk_d 20 9 (NTRACK c) 2 w (map (map r_of_tk) (ev_tk e)) g W G L1 L2) as (out2 & st2 & E4 & _ & [D _] & _).
  rewrite E in E'. assert (o = out) by congruence. subst out. rewrite E in E4. assert (o = out2) by congruence. subst out2.
  rewrite (region_total t_pt tk_of_r o); [|reflexivity| |exact D].
  - rewrite K; [exact (arriving_total t_pt t_eta r_of_tk (sector_tracks e) _ (fun _ => eq_refl) (fun _ => eq_refl) PM)|].
    intros ie ip He Hp. change (20 / 2)%nat with 10%nat. destruct (F ie ip He Hp) as [F1 F2]. split; [intros j Hj; rewrite SL; exact (F1 j Hj)|].
    unfold offered. cbn [flat_map]. rewrite !app_length, !map_length, !SL. cbn [length]. lia.
  - intros r Hr. destruct (Rows r Hr) as [_ Q]. eapply Forall_impl; [|exact Q]. intros t (T & _). unfold tk_phys in T. tauto.
Qed.
Lemma sum_eq (f : nat -> Z) outs (g : pfout -> Z) : (forall r o, nth_error outs r = Some o -> g o = f r) -> sumZ (map g outs) = sumZ (map f (seq 0 (length outs))).
Proof.
  revert f. induction outs as [|o outs IH]; intros f H; [reflexivity|]. cbn [length seq map]. rewrite !sz_cons. rewrite <- seq_shift, map_map.
  specialize (IH (fun i => f (S i)) (fun r o' E => H (S r) o' E)). specialize (H 0%nat o eq_refl). lia.
Qed.
Lemma mapi_eq {T} (pt : T -> Z) (f : nat -> T -> PFCh) l : (forall i x, In x l -> c_pt (f i x) = pt x) -> sumZ (map c_pt (mapi f l)) = sumZ (map pt l).
Proof.
  intros H. rewrite map_mapi, (map_as_mapi pt). f_equal. apply mapi_ext_in. intros i x E. apply nth_error_In in E. exact (H i x E).
Qed.
Lemma ch_exact em had track mu mem nsel o : phys em had track mu -> (nsel <= length had)%nat -> Forall soft track -> pfalgo3_full mem nsel em had track mu = Ok o \/ pfalgo3_full_ref mem nsel em had track mu = Ok o ->
  sumZ (map c_pt (o_ch o)) = sumZ (map t_pt track).
Proof.
  intros P N F E. rewrite Forall_forall in F. destruct E as [E|E].
  - destruct (C72_result _ _ _ _ _ _ _ P N E) as (R1 & _). rewrite R1. apply mapi_eq. intros i x Hx. specialize (F x Hx). unfold soft in F. apply Z.ltb_lt in F. unfold sp_ch_w, ch_kept_w. rewrite F, orb_true_r. reflexivity.
  - destruct (C73_result _ _ _ _ _ _ _ P N E) as (R1 & _). rewrite R1. apply mapi_eq. intros i x Hx. specialize (F x Hx). unfold soft in F. apply Z.ltb_lt in F. unfold sp_ch_r, ch_kept_r. rewrite F, orb_true_r. reflexivity.
Qed.
Lemma tk_soft c e tk r : complete c e -> in_range e -> everywhere soft (ev_tk e) -> tk_reference c e tk -> (r < 18)%nat -> Forall soft (nth r tk []).
Proof.
  intros C R S H Hr. pose proof (tk_rows (fun _ => True) c e tk I C (tk_range e R) H r Hr) as [_ Rows]. destruct C as (_ & _ & C & _). destruct H as (w & g & o & rest & st & W & G & E & ->).
  destruct (fib_len _ _ r_of_tk _ C) as [L1 L2]. unfold regionize_track_ref in E. change NTRACK_PER_SECTOR with 20%nat in E. change NTRACK_PER_SECTOR_PER_ETA with 9%nat in E.
  destruct (c96_ref tk_d 20 9 (NTRACK c) 2 w (map (map r_of_tk) (ev_tk e)) g W G L1 L2) as (out & r' & s' & E' & K & _). rewrite E in E'. assert (o = out) by congruence. subst out.
  apply Forall_forall. intros t Ht. rewrite Forall_forall in Rows. destruct (Rows t Ht) as (T & _ & Z0). destruct (Z.eq_dec (t_pt t) 0) as [Zt|Zt]; [rewrite (Z0 Zt); unfold soft; cbn; lia|].
  assert (Pt : 0 < t_pt t) by (unfold tk_phys in T; lia). rewrite nth_mm in Ht. apply in_map_iff in Ht as (x & <- & Hx). cbn [tk_of_r t_pt] in Pt.
  destruct (K (r / 6)%nat (r mod 6)%nat ltac:(lia) ltac:(lia)) as (lost & PL & _). replace (6 * (r / 6) + r mod 6)%nat with r in PL by lia.
  assert (Hh : In x (held (nth r o []))) by (apply filter_In; split; [exact Hx|apply Z.ltb_lt; exact Pt]).
  assert (Ho : In x (offered (arrivals 2 (20 / 2) (map (map r_of_tk) (ev_tk e))) (r / 6) (r mod 6))) by (eapply Permutation_in; [exact PL|apply in_or_app; left; exact Hh]).
  unfold offered in Ho. apply in_flat_map in Ho as (j & _ & Ho). apply in_map_iff in Ho as (y & <- & Hy). apply in_map_iff in Hy as (z & <- & Hz). apply filter_In in Hz as [Hz _].
  change (20 / 2)%nat with 10%nat in Hz. eapply Permutation_in in Hz; [|apply arrivals_two]. rewrite !nth_mm, !firstn_map, <- map_app in Hz. apply in_map_iff in Hz as (u & <- & Hu).
  assert (Su : soft u).
  { unfold everywhere in S. rewrite Forall_forall in S. apply in_app_or in Hu as [Hu|Hu]; match type of Hu with In _ (firstn _ (nth ?k _ _)) => destruct (nth_in_or_default k (ev_tk e) []) as [Q|Q]; [|rewrite Q in Hu; destruct Hu] end;
      specialize (S _ Q); rewrite Forall_forall in S; apply S; rewrite <- (firstn_skipn 10); apply in_or_app; left; exact Hu. }
  exact Su.
Qed.
Lemma c101_exact c e had em tk mu outs : (NSELCALO c <= NCALO c)%nat -> complete c e -> in_range e -> had_reference c e had -> other_regions c e em tk mu ->
  everywhere soft (ev_tk e) -> (forall ie ip, (ie < 3)%nat -> (ip < 6)%nat -> room c e ie ip) ->
  all_regions (fun r o => hw_run c em had tk mu r o \/ ref_run c em had tk mu r o) outs -> found_ch outs = tk_arriving e.
Proof.
  intros N C R H O S F [L A]. rewrite <- (tk_exact c e tk C R (proj1 (proj2 O)) F). unfold found_ch. rewrite <- L. apply sum_eq. intros r o E.
  assert (Hr : (r < 18)%nat) by (rewrite <- L; apply nth_error_Some; congruence). destruct (c98_legal c e had em tk mu r C R H O Hr) as (P & _ & LH & _).
  pose proof (tk_soft c e tk r C R S (proj1 (proj2 O)) Hr) as Sr.
  destruct (A r o E) as [[mem K]|[mem K]]; (eapply ch_exact; [exact P|rewrite LH; exact N|exact Sr|]); [left|right]; exact K.
Qed.
