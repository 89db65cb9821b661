(** The test program of the histogramming vertex finder: the run. *)
From Verif Require Import Base BaseFacts TabFacts Data Discrete Convert ConvertFacts DiscreteIO SpecIO EventLoop EventLoopFacts Regionizer SpecRegion EncFacts
  SpecRegTest RegTestProofs RegTestRun RegTestOk Bhv SpecBhv BhvProofs SpecRegFiles RegFilesProofs BhvTest SpecBhvTest.

(** ** The finder is defined for all tracks *)
Definition any_track (t : vtrack) : Prop := inS 16 (v_pt t) /\ inS 10 (v_z0 t).
Definition hist_ok (h : list Z) : Prop := length h = Z.to_nat 72 /\ Forall (fun x => 0 <= x <= 511) h.
Lemma bin_range z : inS 10 z -> 0 <= zb_bin (fetch_bin_ref z) < 72.
Proof. unfold inS. change (2 ^ (10 - 1)) with 512. intros H. rewrite fetch_bin_spec by lia. destruct ((-288 <=? z) && (z <=? 287)) eqn:E; cbn [zb_bin]; lia. Qed.
Lemma half16 x : inS 16 x -> wrapS 16 (Z.shiftr x 1) = x / 2.
Proof. unfold inS. change (2 ^ (16 - 1)) with 32768. intros H. rewrite shiftr1. apply wrapS_id; [lia|]. unfold inS. change (2 ^ (16 - 1)) with 32768. lia. Qed.
Lemma hist_rd h b : hist_ok h -> 0 <= b < 72 -> exists x, rd h (Z.to_nat b) = Ok x /\ 0 <= x <= 511.
Proof.
  intros [L F] Hb. unfold rd. destruct (nth_error h (Z.to_nat b)) as [x|] eqn:E; [|apply nth_error_None in E; lia]. exists x. split; [reflexivity|].
  apply (proj1 (Forall_forall _ _) F x (nth_error_In _ _ E)).
Qed.
Lemma hist_wr h b x : hist_ok h -> 0 <= b < 72 -> 0 <= x <= 511 -> exists h', wr h (Z.to_nat b) x = Ok h' /\ hist_ok h'.
Proof.
  intros [L F] Hb Hx. unfold wr. destruct (Nat.ltb_spec (Z.to_nat b) (length h)); [|lia]. eexists. split; [reflexivity|]. split; [rewrite upd_length; exact L|apply EncProofs.Forall_upd; assumption].
Qed.
Lemma sum9 x y : 0 <= x <= 511 -> -100000 <= y <= 100 -> 0 <= wrapU 9 (if negb (Z.land (x + y) (511 + 1) =? 0) then 511 else x + y) <= 511.
Proof. intros Hx Hy. unfold wrapU. change (2 ^ 9) with 512. destruct (negb _); lia. Qed.
Lemma add_any t h : any_track t -> hist_ok h -> exists h', bhv_add_track (fetch_bin_ref (v_z0 t)) (v_pt t) h = Ok h' /\ hist_ok h'.
Proof.
  intros [Hp Hz] Hh. unfold bhv_add_track, BHV_MAXPT, BHV_MAXBIN. destruct (zb_valid (fetch_bin_ref (v_z0 t))); [|eauto]. rewrite half16, cap100 by exact Hp.
  unfold inS in Hp. change (2 ^ (16 - 1)) with 32768 in Hp. destruct (hist_rd h _ Hh (bin_range _ Hz)) as (x & -> & Hx). cbn [bind].
  rewrite i32_Ok by lia. cbn [bind]. apply hist_wr; [exact Hh|apply bin_range; exact Hz|]. apply sum9; lia.
Qed.
Lemma ref_any t h : any_track t -> hist_ok h -> exists h', ref_fill h t = Ok h' /\ hist_ok h'.
Proof.
  intros [Hp Hz] Hh. unfold ref_fill, BHV_MAXPT, BHV_MAXBIN, BHV_NBINS. rewrite half16, cap100 by exact Hp. destruct (v_pt t / 2 >? 0) eqn:P; [|eauto]. pose proof (bin_range _ Hz) as B.
  replace ((0 <=? zb_bin (fetch_bin_ref (v_z0 t))) && (zb_bin (fetch_bin_ref (v_z0 t)) <? 72)) with true by lia. destruct (zb_valid (fetch_bin_ref (v_z0 t))); [|eauto].
  unfold inS in Hp. change (2 ^ (16 - 1)) with 32768 in Hp. destruct (hist_rd h _ Hh B) as (x & -> & Hx). cbn [bind]. rewrite i32_Ok by lia. cbn [bind].
  apply hist_wr; [exact Hh|exact B|]. unfold wrapU. change (2 ^ 9) with 512. destruct (x + Z.min 100 (v_pt t / 2) >? 511) eqn:E; lia.
Qed.
Lemma zero_ok : hist_ok (repeat 0 (Z.to_nat BHV_NBINS)).
Proof. split; [rewrite repeat_length; reflexivity|]. apply Forall_forall. intros x Hx. apply repeat_spec in Hx. lia. Qed.
Lemma fill_any {T} (f : list Z -> T -> res (list Z)) (P : T -> Prop) : (forall t h, P t -> hist_ok h -> exists h', f h t = Ok h' /\ hist_ok h') ->
  forall ts h, Forall P ts -> hist_ok h -> exists h', foldM f ts h = Ok h' /\ hist_ok h'.
Proof. intros F. induction ts as [|t ts IH]; intros h H Hh; cbn [foldM]; [eauto|]. inversion_clear H. destruct (F t h) as (h1 & -> & K1); auto. cbn [bind]. auto. Qed.
Lemma hw_fill_any ts : Forall any_track ts -> exists h, hw_fill ts = Ok h /\ hist_ok h.
Proof. intros H. unfold hw_fill. apply (fill_any (fun h t => bhv_add_track (fetch_bin_ref (v_z0 t)) (v_pt t) h) any_track); [exact add_any|exact H|exact zero_ok]. Qed.
Lemma hist_val h b : hist_ok h -> (b < 72)%nat -> rd h b = Ok (nth b h 0) /\ 0 <= nth b h 0 <= 511.
Proof. intros H Hb. destruct (hist_rd h (Z.of_nat b) H ltac:(lia)) as (x & E & Hx). rewrite Nat2Z.id in E. split; [|unfold rd in E; destruct (nth_error h b) eqn:N; [|discriminate]; rewrite (nth_error_nth _ _ _ N); congruence].
  unfold rd in *. destruct (nth_error h b) eqn:N; [|discriminate]. rewrite (nth_error_nth _ _ _ N). reflexivity. Qed.
Definition pairs (h : list Z) : list Z := map (fun i => nth (2 * i) h 0 * 512 + nth (2 * i + 1) h 0) (seq 0 36).
Lemma pack_any h : hist_ok h -> pack_hist h = Ok (pairs h).
Proof.
  intros H. unfold pack_hist. change (Z.to_nat BHV_NHALFBINS) with 36%nat. apply mapM_Ok. intros i Hi. apply in_seq in Hi.
  destruct (hist_val h (2 * i) H ltac:(lia)) as [-> R1]. destruct (hist_val h (2 * i + 1) H ltac:(lia)) as [-> R2]. cbn [bind]. unfold wrapU. change (2 ^ 9) with 512. rewrite !Z.mod_small by lia. reflexivity.
Qed.
Lemma pairs_ok h : hist_ok h -> length (pairs h) = Z.to_nat 36 /\ Forall (inU 18) (pairs h).
Proof.
  intros H. split; [unfold pairs; rewrite map_length, seq_length; reflexivity|]. apply Forall_forall. intros x Hx. apply in_map_iff in Hx as (i & <- & Hi). apply in_seq in Hi.
  destruct (hist_val h (2 * i) H ltac:(lia)) as [_ R1]. destruct (hist_val h (2 * i + 1) H ltac:(lia)) as [_ R2]. unfold inU. change (2 ^ 18) with 262144. lia.
Qed.
Lemma pairs_half h b : hist_ok h -> (b < 72)%nat -> half_of b (pairs h) = nth b h 0.
Proof.
  intros H Hb. unfold half_of, pairs. rewrite nth_map_seq by lia.
  destruct (hist_val h (2 * (b / 2)) H ltac:(lia)) as [_ R1]. destruct (hist_val h (2 * (b / 2) + 1) H ltac:(lia)) as [_ R2].
  destruct (Nat.even b) eqn:Ev.
  - apply Nat.even_spec in Ev. destruct Ev as [q ->]. rewrite div2_even in *. lia.
  - assert (exists q, b = 2 * q + 1)%nat as [q ->].
    { assert (Nat.odd b = true) as O by (unfold Nat.odd; rewrite Ev; reflexivity). apply Nat.odd_spec in O. exact O. }
    rewrite div2_odd in *. lia.
Qed.
(** the histograms of all the sectors *)
Lemma hists_any sectors : Forall (Forall any_track) sectors -> exists hs, mapM hw_fill sectors = Ok hs /\ Forall hist_ok hs /\ length hs = length sectors /\
  mapM (fun ts => do h <- hw_fill ts; do p <- pack_hist h; Ok (h, p)) sectors = Ok (map (fun h => (h, pairs h)) hs) /\
  mapM (fun ts => do h <- hw_fill ts; pack_hist h) sectors = Ok (map pairs hs) /\ words_ok (Z.to_nat 36) (map pairs hs).
Proof.
  induction 1 as [|ts l H _ IH]; [exists []; repeat split; constructor|]. destruct IH as (hs & E1 & F & L & E2 & E3 & W). destruct (hw_fill_any ts H) as (h & E & Hh). exists (h :: hs).
  cbn [mapM map]. rewrite E. cbn [bind]. rewrite (pack_any h Hh). cbn [bind]. rewrite E1, E2, E3. cbn [bind]. split; [reflexivity|]. split; [constructor; assumption|]. split; [cbn [length]; lia|]. split; [reflexivity|]. split; [reflexivity|]. constructor; [apply pairs_ok; exact Hh|exact W].
Qed.
Lemma ref_sum_any b hs : (b < 72)%nat -> Forall hist_ok hs -> forall a, 0 <= a -> a + 511 * Z.of_nat (length hs) <= 2147483647 ->
  exists s, foldM (fun s h => do x <- rd h b; i32 (s + x)) hs a = Ok s /\ 0 <= s <= a + 511 * Z.of_nat (length hs).
Proof.
  intros Hb. induction 1 as [|h hs Hh _ IH]; intros a Ha Hs; cbn [foldM]; [exists a; split; [reflexivity|cbn [length]; lia]|]. cbn [length] in *. destruct (hist_val h b Hh Hb) as [-> R]. cbn [bind]. rewrite i32_Ok by lia. cbn [bind].
  destruct (IH (a + nth b h 0) ltac:(lia) ltac:(lia)) as (s & -> & Rs). exists s. split; [reflexivity|lia].
Qed.
Lemma ref_vertex_any sectors : Forall (Forall any_track) sectors -> Z.of_nat (length sectors) <= 64 -> exists b s, bhv_find_pv_ref sectors = Ok (b, s, bin_center_ref b) /\ 0 <= b < 72 /\ 0 <= s <= 32704.
Proof.
  intros H L. unfold bhv_find_pv_ref.
  assert (exists hs, mapM (fun ts => foldM ref_fill ts (repeat 0 (Z.to_nat BHV_NBINS))) sectors = Ok hs /\ Forall hist_ok hs /\ length hs = length sectors) as (hs & -> & F & LH).
  { clear L. induction H as [|ts l H _ IH]; [exists []; repeat split; constructor|]. destruct IH as (hs & E & F & LH). destruct (fill_any ref_fill any_track (fun t h => ref_any t h) ts _ H zero_ok) as (h & Eh & Hh).
    exists (h :: hs). cbn [mapM]. rewrite Eh. cbn [bind]. rewrite E. cbn [bind length]. split; [reflexivity|]. split; [constructor; assumption|congruence]. }
  cbn [bind]. destruct (foldM_seq_inv (ref_scan_step hs) (fun _ best => 0 <= fst best < 72 /\ 0 <= snd best <= 32704) (Z.to_nat BHV_NBINS) (0, 0)) as ([b s] & -> & B & S).
  - cbn. lia.
  - intros k [b s] Hk [B S]. cbn [fst snd] in *. change (Z.to_nat BHV_NBINS) with 72%nat in Hk. unfold ref_scan_step.
    destruct (ref_sum_any k hs Hk F 0 ltac:(lia) ltac:(lia)) as (x & -> & Rx). cbn [bind]. destruct (x >? s); eexists; (split; [reflexivity|]); cbn [fst snd]; lia.
  - cbn [bind fst snd] in *. unfold wrapU. change (2 ^ 10) with 1024. rewrite Z.mod_small by lia. exists b, s. split; [reflexivity|split; [exact B|exact S]].
Qed.

(** ** Dealing the tracks to the rows *)
Definition cellt (l : list (list Tk)) (r k : nat) : Tk := nth k (nth r l []) tk0.
Lemma put_track_ok R C arr row i x : dims2 R C arr -> (row < R)%nat -> (i < C)%nat -> exists arr', put_track arr row i x = Ok arr' /\ dims2 R C arr' /\
  cellt arr' row i = x /\ forall r k, r <> row \/ k <> i -> cellt arr' r k = cellt arr r k.
Proof.
  intros D Hr Hi. unfold put_track. destruct (rd_nth R C arr row D Hr) as [E L]. rewrite E. cbn [bind]. unfold wr. destruct (Nat.ltb_spec i (length (nth row arr []))); [|lia]. cbn [bind]. destruct D as [DL DM].
  destruct (Nat.ltb_spec row (length arr)); [|lia]. eexists. split; [reflexivity|]. split; [|split].
  - split; [rewrite length_upd; exact DL|]. intros a Ha. apply In_nth with (d := []) in Ha as (j & Hj & <-). rewrite length_upd in Hj. destruct (Nat.eq_dec j row) as [->|N].
    + rewrite nth_upd_eq by lia. rewrite length_upd. exact L.
    + rewrite nth_upd_ne by congruence. apply DM, nth_In. exact Hj.
  - unfold cellt. rewrite nth_upd_eq by lia. apply nth_upd_eq. lia.
  - intros r k N. unfold cellt. destruct (Nat.eq_dec r row) as [->|Nr]; [|rewrite nth_upd_ne by congruence; reflexivity]. rewrite nth_upd_eq by lia. apply nth_upd_ne. destruct N; congruence.
Qed.
Definition deal_step (tmp : list Tk) (is : nat) : list (list Tk) * nat -> nat -> res (list (list Tk) * nat) := fun '(arr, t) i =>
  do x <- rd tmp t; do arr <- put_track arr (2 * is + 0) i x;
  do y <- rd tmp (t + 1); do arr <- put_track arr (2 * is + 1) i y;
  Ok (arr, (t + 2)%nat).
Lemma deal_loop tmp is arr : dims2 24 18 arr -> length tmp = 36%nat -> (is < 12)%nat -> exists arr', foldM (deal_step tmp is) (seq 0 18) (arr, 0%nat) = Ok (arr', 36%nat) /\ dims2 24 18 arr' /\
  (forall i, (i < 18)%nat -> cellt arr' (2 * is) i = nth (2 * i) tmp tk0 /\ cellt arr' (2 * is + 1) i = nth (2 * i + 1) tmp tk0) /\
  forall r k, (r <> 2 * is)%nat -> (r <> 2 * is + 1)%nat -> cellt arr' r k = cellt arr r k.
Proof.
  intros D L Hs.
  destruct (foldM_seq_inv (deal_step tmp is) (fun n st => snd st = (2 * n)%nat /\ dims2 24 18 (fst st) /\
    (forall i, (i < n)%nat -> cellt (fst st) (2 * is) i = nth (2 * i) tmp tk0 /\ cellt (fst st) (2 * is + 1) i = nth (2 * i + 1) tmp tk0) /\
    forall r k, (r <> 2 * is)%nat -> (r <> 2 * is + 1)%nat -> cellt (fst st) r k = cellt arr r k) 18 (arr, 0%nat)) as ([arr' t] & E & Et & D' & I & O).
  - cbn [fst snd]. split; [reflexivity|]. split; [exact D|]. split; [intros; lia|reflexivity].
  - intros n [a t] Hn (Et & Da & Ia & Oa). cbn [fst snd] in *. subst t. unfold deal_step, rd. rewrite (nth_error_nth' tmp tk0) by lia. cbn [bind].
    destruct (put_track_ok 24 18 a (2 * is + 0) n (nth (2 * n) tmp tk0) Da ltac:(lia) Hn) as (a1 & -> & D1 & C1 & O1). cbn [bind]. rewrite (nth_error_nth' tmp tk0) by lia. cbn [bind].
    destruct (put_track_ok 24 18 a1 (2 * is + 1) n (nth (2 * n + 1) tmp tk0) D1 ltac:(lia) Hn) as (a2 & -> & D2 & C2 & O2). cbn [bind]. eexists. split; [reflexivity|]. cbn [fst snd]. split; [lia|]. split; [exact D2|]. rewrite Nat.add_0_r in *. split.
    + intros i Hi. destruct (Nat.eq_dec i n) as [->|N].
      * split; [rewrite O2 by lia; exact C1|exact C2].
      * rewrite !O2, !O1 by lia. apply Ia. lia.
    + intros r k H1 H2. rewrite O2, O1 by lia. apply Oa; assumption.
  - cbn [fst snd] in *. exists arr'. subst t. auto.
Qed.
Lemma row_dealt arr r (f : nat -> Tk) : dims2 24 18 arr -> (r < 24)%nat -> (forall i, (i < 18)%nat -> cellt arr r i = f i) -> nth r arr [] = map f (seq 0 18).
Proof.
  intros D Hr H. destruct (rd_nth 24 18 arr r D Hr) as [_ L]. apply nth_ext with (d := tk0) (d' := tk0); [rewrite map_length, seq_length; exact L|]. intros i Hi. rewrite L in Hi. rewrite nth_map_seq by exact Hi. apply H. exact Hi.
Qed.
Lemma sector_ok ev arr tmp is r : nth_error (ev_regions ev) is = Some r -> fits (rg_track r) -> dims2 24 18 arr -> length tmp = 36%nat -> (is < 12)%nat -> exists arr' tmp', bhv_sector ev (arr, tmp) is = Ok (arr', tmp') /\
  dims2 24 18 arr' /\ length tmp' = 36%nat /\ [nth (2 * is) arr' []; nth (2 * is + 1) arr' []] = dealt r /\ forall k, (k < 24)%nat -> (k <> 2 * is)%nat -> (k <> 2 * is + 1)%nat -> nth k arr' [] = nth k arr [].
Proof.
  intros Hr HF D L Hs. unfold bhv_sector. unfold rd at 1. rewrite Hr. cbn [bind]. change (2 * BHV_NTRACKS)%nat with 36%nat. rewrite (convert_in_ok fw_tk tk0 36 _ tmp HF L). cbn [bind]. set (l := filled fw_tk tk0 36 (rg_track r)).
  assert (LL : length l = 36%nat) by apply length_filled. change BHV_NTRACKS with 18%nat. destruct (deal_loop l is arr D LL Hs) as (arr' & E & D' & I & O). match goal with |- context [foldM ?f (seq 0 18) ?s] => change (foldM f (seq 0 18) s) with (foldM (deal_step l is) (seq 0 18) s) end. rewrite E. cbn [bind].
  exists arr', l. split; [reflexivity|]. split; [exact D'|]. split; [exact LL|]. split.
  - unfold dealt. fold l. rewrite (row_dealt arr' (2 * is) (fun i => nth (2 * i) l tk0) D' ltac:(lia)) by (intros i Hi; apply I; exact Hi). rewrite (row_dealt arr' (2 * is + 1) (fun i => nth (2 * i + 1) l tk0) D' ltac:(lia)) by (intros i Hi; apply I; exact Hi). reflexivity.
  - intros k Hk H1 H2. destruct (rd_nth 24 18 arr' k D' Hk) as [_ L1]. destruct (rd_nth 24 18 arr k D Hk) as [_ L2]. apply nth_ext with (d := tk0) (d' := tk0); [lia|]. intros i _. apply (O k i H1 H2).
Qed.
Lemma two_rows rs : forall arr, length arr = (2 * length rs)%nat -> (forall i r, nth_error rs i = Some r -> [nth (2 * i) arr []; nth (2 * i + 1) arr []] = dealt r) -> arr = flat_map dealt rs.
Proof.
  induction rs as [|r rs IH]; intros arr L H; [destruct arr; [reflexivity|discriminate L]|]. destruct arr as [|a [|b arr]]; cbn [length] in L; try lia. cbn [flat_map]. rewrite <- (H 0%nat r eq_refl). cbn [Nat.mul Nat.add nth app]. do 2 f_equal.
  apply IH; [lia|]. intros i r' Hi. rewrite <- (H (S i) r' Hi). replace (2 * S i)%nat with (S (S (2 * i))) by lia. replace (S (S (2 * i)) + 1)%nat with (S (S (2 * i + 1))) by lia. reflexivity.
Qed.
Lemma sectors_ok ev arr tmp : length (ev_regions ev) = 12%nat -> Forall (fun r => fits (rg_track r)) (ev_regions ev) -> dims2 24 18 arr -> length tmp = 36%nat ->
  exists tmp', foldM (bhv_sector ev) (seq 0 12) (arr, tmp) = Ok (track_rows ev, tmp') /\ length tmp' = 36%nat /\ dims2 24 18 (track_rows ev).
Proof.
  intros L12 HF D L.
  destruct (foldM_seq_inv (bhv_sector ev) (fun n st => dims2 24 18 (fst st) /\ length (snd st) = 36%nat /\ forall i r, (i < n)%nat -> nth_error (ev_regions ev) i = Some r -> [nth (2 * i) (fst st) []; nth (2 * i + 1) (fst st) []] = dealt r) 12 (arr, tmp)) as ([a t] & E & Da & Lt & I).
  - cbn [fst snd]. split; [exact D|]. split; [exact L|]. intros; lia.
  - intros n [a t] Hn (Da & Lt & I). cbn [fst snd] in *. destruct (nth_error (ev_regions ev) n) as [r|] eqn:Er; [|apply nth_error_None in Er; lia].
    destruct (sector_ok ev a t n r Er) as (a' & t' & E & D' & L' & R & O); try assumption; [apply (proj1 (Forall_forall _ _) HF r (nth_error_In _ _ Er))|]. exists (a', t'). split; [exact E|]. cbn [fst snd]. split; [exact D'|]. split; [exact L'|].
    intros i r' Hi Hr'. destruct (Nat.eq_dec i n) as [->|N]; [rewrite Er in Hr'; injection Hr' as <-; exact R|]. rewrite !O by lia. apply I; [lia|exact Hr'].
  - cbn [fst snd] in *. assert (ER : a = track_rows ev).
    { apply two_rows; [destruct Da; lia|]. intros i r Hr. apply I; [|exact Hr]. rewrite <- L12. apply nth_error_Some. congruence. }
    subst a. exists t. auto.
Qed.

(** ** One event *)
Lemma track_rows_ok e : Forall (Forall tk_ok) (track_rows e).
Proof.
  assert (Z : tk_ok tk0) by (unfold tk_ok, tk0, inS; cbn; lia). apply Forall_forall. intros row Hr. apply in_flat_map in Hr as (r & _ & Hr). pose proof (filled_P tk_ok fw_tk tk0 36 (rg_track r) fw_tk_ok Z) as F.
  assert (N : forall k, tk_ok (nth k (filled fw_tk tk0 36 (rg_track r)) tk0)) by (intros k; destruct (nth_in_or_default k (filled fw_tk tk0 36 (rg_track r)) tk0) as [I| ->]; [apply (proj1 (Forall_forall _ _) F); exact I|exact Z]).
  destruct Hr as [<-|[<-|[]]]; apply Forall_map, Forall_forall; intros; apply N.
Qed.
Lemma any_rows rows : Forall (Forall tk_ok) rows -> Forall (Forall any_track) (vertex_tracks rows).
Proof. intros H. apply Forall_map. eapply Forall_impl; [|exact H]. intros row R. apply Forall_map. eapply Forall_impl; [|exact R]. intros o (H1 & _ & _ & _ & H5). split; cbn [v_pt v_z0]; assumption. Qed.
Lemma center_inj b b' : 0 <= b < 72 -> 0 <= b' < 72 -> (bin_center_ref b =? bin_center_ref b') = (b =? b').
Proof. intros H H'. rewrite !bin_center_spec by assumption. lia. Qed.

Lemma body_event test st e : twelve e = true -> Forall (fun r => fits (rg_track r)) (ev_regions e) -> dims2 24 18 (bs_in st) -> length (bs_tmp st) = 36%nat ->
  exists st' t, bhv_body test st e = Ok (st', None) /\ dims2 24 18 (bs_in st') /\ length (bs_tmp st') = 36%nat /\ bs_tests st' = bs_tests st ++ [t] /\ btest_of e t /\
    bs_nerr st' = if agrees t then bs_nerr st else wrapU 32 (bs_nerr st + 1).
Proof.
  intros H12 HF D L. unfold bhv_body. change N_IN_SECTORS with 12%nat. unfold twelve in H12. rewrite H12. cbn [negb]. apply Nat.eqb_eq in H12.
  destruct (sectors_ok e (bs_in st) (bs_tmp st) H12 HF D L) as (tmp' & -> & L' & D'). cbn [bind].
  pose proof (any_rows _ (track_rows_ok e)) as A. change (map (map vt_of) (track_rows e)) with (vertex_tracks (track_rows e)). set (sectors := vertex_tracks (track_rows e)) in *.
  assert (LS : length sectors = 24%nat) by (unfold sectors, vertex_tracks; rewrite map_length; apply D').
  destruct (ref_vertex_any sectors A ltac:(lia)) as (br & sr & ER & BR & _). rewrite ER. cbn [bind].
  destruct (hists_any sectors A) as (hs & E1 & F & LH & E2 & E3 & W). rewrite E2. cbn [bind]. rewrite !map_map. cbn [fst snd]. rewrite map_id.
  destruct hs as [|h0 hs]; [cbn in LH; lia|]. unfold rd at 1. cbn [nth_error bind].
  destruct (c29 (Z.to_nat 36) (map pairs (h0 :: hs)) ltac:(lia) ltac:(lia) ltac:(rewrite map_length; lia) W) as (b & s & EP & FM). change (Z.to_nat BHV_NHALFBINS) with (Z.to_nat 36). change (map (fun x => pairs x) (h0 :: hs)) with (map pairs (h0 :: hs)). rewrite EP. cbn [bind].
  pose proof (fm_lt _ _ _ _ FM) as LB. change (2 * Z.to_nat 36)%nat with 72%nat in LB.
  eexists. eexists (mkBt _ _ _ _ _). split; [reflexivity|]. cbn [bs_in bs_tmp bs_tests bs_nerr]. split; [exact D'|]. split; [exact L'|]. split; [reflexivity|]. split.
  - unfold btest_of. cbn [bt_tracks bt_hist0 bt_hists bt_hw bt_ref]. fold sectors. split; [reflexivity|]. split; [|split; [exact E3|split; [|exact ER]]].
    + destruct sectors as [|s0 ss]; [discriminate LS|]. cbn [mapM nth] in *. destruct (hw_fill s0); [|discriminate E1]. cbn [bind] in E1. destruct (mapM hw_fill ss); [|discriminate E1]. cbn [bind] in E1. injection E1 as -> ->. reflexivity.
    + unfold hw_vertex. change (fun ts => do h <- hw_fill ts; pack_hist h) with (fun ts => do h <- hw_fill ts; pack_hist h). rewrite E3. cbn [bind]. change (Z.to_nat BHV_NHALFBINS) with (Z.to_nat 36). rewrite EP. reflexivity.
  - unfold agrees. cbn [bt_hw bt_ref]. rewrite Z.eqb_sym, !center_inj by lia. destruct (Z.of_nat b =? br), (s =? sr); reflexivity.
Qed.

(** ** The whole run *)
Lemma kept_rows e : track_rows (event_kept e) = track_rows e.
Proof.
  unfold track_rows, event_kept. cbn [ev_regions]. rewrite !flat_map_concat_map, map_map. f_equal. apply map_ext. intros r. unfold dealt, region_kept. cbn [rg_track].
  rewrite (filled_ext fw_tk fw_tk) by reflexivity. reflexivity.
Qed.
Lemma kept_btest e t : btest_of (event_kept e) t -> btest_of e t.
Proof. unfold btest_of. rewrite kept_rows. exact (fun H => H). Qed.
Definition bready (st : bstate) : Prop := dims2 24 18 (bs_in st) /\ length (bs_tmp st) = 36%nat.
Lemma disagree_cons t l : disagreements (t :: l) = (if agrees t then 0 else 1) + disagreements l.
Proof. unfold disagreements. cbn [filter]. destruct (agrees t); cbn [negb length]; lia. Qed.
Lemma bhv_walk evs : Forall event_wf evs -> forall test st, bready st -> 0 <= bs_nerr st -> bs_nerr st + Z.of_nat (length evs) < 2 ^ 32 ->
  exists st' tests, event_walk bhv_body test st (map event_kept evs) = Ok (st', if forallb twelve evs then None else Some 2) /\
    bs_tests st' = bs_tests st ++ tests /\ bs_nerr st' = bs_nerr st + disagreements tests /\ Forall2 btest_of (leading evs) tests.
Proof.
  induction evs as [|e evs IH]; intros HE test st [D L] N0 N.
  { exists st, []. rewrite app_nil_r. cbn. unfold disagreements. cbn. rewrite Z.add_0_r. auto. }
  inversion HE as [|? ? He Hes]; subst. cbn [forallb leading map event_walk]. destruct (twelve e) eqn:E12; cbn [andb].
  2:{ exists st, []. rewrite app_nil_r. unfold disagreements. cbn [filter length Z.of_nat]. rewrite Z.add_0_r. split; [|auto]. unfold bhv_body. rewrite <- kept_twelve in E12. unfold twelve in E12. change N_IN_SECTORS with 12%nat. rewrite E12. reflexivity. }
  assert (HF : Forall (fun r => fits (rg_track r)) (ev_regions (event_kept e))) by (eapply Forall_impl; [|exact (kept_fits e He)]; intros r Hr; unfold region_fits in Hr; tauto).
  destruct (body_event test st (event_kept e) ltac:(rewrite kept_twelve; exact E12) HF D L) as (st1 & t & -> & D1 & L1 & T1 & B1 & N1). cbn [bind]. cbn [length] in N.
  assert (EN : bs_nerr st1 = bs_nerr st + if agrees t then 0 else 1).
  { rewrite N1. destruct (agrees t); [lia|]. apply wrapU_id. unfold inU. lia. }
  destruct (IH Hes (S test) st1 (conj D1 L1)) as (st2 & tests & -> & T2 & N2 & F2); [destruct (agrees t); lia..|].
  exists st2, (t :: tests). split; [reflexivity|]. rewrite T2, T1, <- app_assoc. split; [reflexivity|]. split; [rewrite disagree_cons; lia|]. constructor; [apply kept_btest; exact B1|exact F2].
Qed.
Lemma firstn_wf n evs : Forall event_wf evs -> Forall event_wf (firstn n evs).
Proof. intros H. apply Forall_forall. intros x Hx. apply (proj1 (Forall_forall _ _) H). rewrite <- (firstn_skipn n evs). apply in_or_app. now left. Qed.
Lemma c61_run g arr tmp evs : dims2 24 18 arr -> length tmp = 36%nat -> Forall event_wf evs -> exists tests,
  bhv_main (Ok true) g arr tmp (Some (dump evs)) = Ok (if forallb twelve (firstn 250 evs) then 0 else 2, disagreements tests, tests) /\ Forall2 btest_of (leading (firstn 250 evs)) tests.
Proof.
  intros D L HE. unfold bhv_main. rewrite open_file. cbn [bind]. rewrite (event_loop_walk _ evs) by (exact HE || reflexivity). change BHV_NTEST with 250%nat.
  destruct (bhv_walk (firstn 250 evs) (firstn_wf 250 evs HE) 1 (mkBs arr tmp 0 []) (conj D L)) as (st & tests & -> & T & N & F); [cbn; lia|cbn [bs_nerr]; pose proof (firstn_le_length 250 evs); lia|].
  cbn [bind]. exists tests. split; [|exact F]. rewrite T, N. cbn [bs_tests bs_nerr app]. rewrite Z.add_0_l. destruct (forallb twelve (firstn 250 evs)); reflexivity.
Qed.
Lemma c61_missing g arr tmp e evs : event_wf e -> bhv_main (UB MissingReturn) g arr tmp (Some (dump (e :: evs))) = UB MissingReturn.
Proof. intros H. unfold bhv_main. rewrite open_file. cbn [bind]. change BHV_NTEST with (S 249). rewrite (event_loop_missing _ e evs) by (exact H || reflexivity). reflexivity. Qed.

(** ** Without negative pt *)
Lemma nonneg_rows e : Forall event_wf [e] -> no_negative_track e -> Forall (Forall track_ok) (vertex_tracks (track_rows e)).
Proof.
  intros HW HN. inversion_clear HW as [|? ? W _]. destruct W as (_ & _ & _ & _ & WR & _). apply Forall_map, Forall_forall. intros row Hr. apply in_flat_map in Hr as (r & Hin & Hr).
  pose proof (proj1 (Forall_forall _ _) HN r Hin) as N. cbv beta in N. pose proof (proj1 (Forall_forall _ _) WR r Hin) as (_ & _ & _ & (WT & _) & _).
  assert (F : Forall (fun o => track_ok (mkVtrack (t_pt o) (t_z0 o))) (filled fw_tk tk0 36 (rg_track r))).
  { apply Forall_app. split; [|apply Forall_forall; intros x Hx; apply repeat_spec in Hx; subst; split; [cbn; lia|unfold inS; cbn; lia]]. apply Forall_map, Forall_forall. intros x Hx. split; cbn [v_pt v_z0].
    - pose proof (proj1 (Forall_forall _ _) N x Hx) as P. cbv beta in P. assert (In x (rg_track r)) as Ix by (rewrite <- (firstn_skipn 36 (rg_track r)); apply in_or_app; now left).
      pose proof (proj1 (Forall_forall _ _) WT x Ix) as (_ & Q & _). unfold fw_tk. cbn [t_pt]. unfold pt_t. rewrite wrapS_id by (lia || exact Q). unfold inS in Q. change (2 ^ (16 - 1)) with 32768 in Q. lia.
    - unfold fw_tk. cbn [t_z0]. unfold z0_t. apply wrapS_range. lia. }
  assert (G : forall k, track_ok (mkVtrack (t_pt (nth k (filled fw_tk tk0 36 (rg_track r)) tk0)) (t_z0 (nth k (filled fw_tk tk0 36 (rg_track r)) tk0)))).
  { intros k. destruct (nth_in_or_default k (filled fw_tk tk0 36 (rg_track r)) tk0) as [I| ->]; [apply (proj1 (Forall_forall _ _) F _ I)|split; [cbn; lia|unfold inS; cbn; lia]]. }
  destruct Hr as [<-|[<-|[]]]; rewrite map_map; apply Forall_map, Forall_forall; intros i _; apply G.
Qed.
Lemma vertex_len e : twelve e = true -> length (vertex_tracks (track_rows e)) = 24%nat.
Proof.
  intros H. apply Nat.eqb_eq in H. unfold vertex_tracks, track_rows. rewrite map_length. transitivity (2 * length (ev_regions e))%nat; [|lia]. clear H. induction (ev_regions e) as [|r l IH]; cbn [flat_map length]; [reflexivity|]. rewrite app_length, IH. change (length (dealt r)) with 2%nat. lia.
Qed.
Lemma mapM_nth_ok {A B} (f : A -> res B) l r i d d' : mapM f l = Ok r -> (i < length l)%nat -> f (nth i l d) = Ok (nth i r d').
Proof.
  revert r i. induction l as [|x l IH]; intros r i H Hi; cbn [length] in Hi; [lia|]. cbn [mapM] in H. destruct (f x) eqn:E; [|discriminate]. cbn [bind] in H. destruct (mapM f l) as [r'|]; [|discriminate]. cbn [bind] in H. injection H as <-.
  destruct i; cbn [nth]; [exact E|]. apply IH; [reflexivity|lia].
Qed.
Lemma right_of e t : event_wf e -> twelve e = true -> no_negative_track e -> btest_of e t -> right_vertex t /\ agrees t = true.
Proof.
  intros HW H12 HN (ET & E0 & E1 & E2 & E3). pose proof (nonneg_rows e (Forall_cons _ HW (Forall_nil _)) HN) as TO. pose proof (vertex_len e H12) as LS. rewrite <- ET in TO, LS. set (sectors := vertex_tracks (bt_tracks t)) in *.
  destruct (c28 sectors TO ltac:(lia)) as (b & s & V1 & V2 & FM). rewrite E2 in V1. rewrite E3 in V2. injection V1 as V1. injection V2 as V2.
  split; [|unfold agrees; rewrite V1, V2, !Z.eqb_refl; reflexivity]. unfold right_vertex. fold sectors. cbv zeta. split; [exists b, s; rewrite V1, V2; auto|].
  assert (NT : forall is, Forall track_ok (nth is sectors [])) by (intros is; destruct (nth_in_or_default is sectors []) as [I| ->]; [apply (proj1 (Forall_forall _ _) TO _ I)|constructor]). split.
  - intros b' Hb. destruct (hw_fill_spec _ (NT 0%nat)) as (h & Eh & _ & Ih). rewrite E0 in Eh. injection Eh as ->. apply Ih. lia.
  - intros is b' Hi Hb. pose proof (mapM_nth_ok _ _ _ is [] [] E1 ltac:(lia)) as EP. cbv beta in EP. destruct (hw_fill_spec _ (NT is)) as (h & Eh & Ih). rewrite Eh in EP. cbn [bind] in EP.
    destruct (pack_spec _ h (NT is) Ih) as (p & Ep & _ & _ & Hp). rewrite Ep in EP. injection EP as <-. apply Hp. lia.
Qed.
Lemma c61_right g arr tmp evs : dims2 24 18 arr -> length tmp = 36%nat -> Forall event_wf evs -> Forall no_negative_track evs -> exists code tests,
  bhv_main (Ok true) g arr tmp (Some (dump evs)) = Ok (code, 0, tests) /\ Forall right_vertex tests.
Proof.
  intros D L HE HN. destruct (c61_run g arr tmp evs D L HE) as (tests & E & F). exists (if forallb twelve (firstn 250 evs) then 0 else 2), tests.
  assert (G : Forall (fun t => right_vertex t /\ agrees t = true) tests).
  { assert (HI : forall e, In e (leading (firstn 250 evs)) -> In e evs /\ twelve e = true).
    { intros e He. assert (HL : forall l, In e (leading l) -> In e l /\ twelve e = true) by (induction l as [|x l IH]; cbn [leading]; [contradiction|]; destruct (twelve x) eqn:Ex; [intros [->|H]; [split; [now left|exact Ex]|destruct (IH H); split; [now right|assumption]]|contradiction]).
      apply HL in He as [I T]. split; [|exact T]. rewrite <- (firstn_skipn 250 evs). apply in_or_app. now left. }
    clear E. revert HI. induction F as [|e t es ts B F IH]; intros HI; [constructor|]. constructor; [|apply IH; intros x Hx; apply HI; right; exact Hx].
    destruct (HI e (or_introl eq_refl)) as [I T]. apply (right_of e); [apply (proj1 (Forall_forall _ _) HE e I)|exact T|apply (proj1 (Forall_forall _ _) HN e I)|exact B]. }
  assert (Z : disagreements tests = 0) by (clear -G; induction G as [|t l [_ A] _ IH]; [reflexivity|]; rewrite disagree_cons, A, IH; reflexivity).
  rewrite Z in E. split; [exact E|]. eapply Forall_impl; [|exact G]. intros t [H _]. exact H.
Qed.
