(** Proofs of C93. *)
From Coq Require Import Ascii String.
From Verif Require Import Base BaseFacts TabFacts MapiFacts Data PFHw Encoding SpecEnc EncFacts EncProofs Serializer SpecSer SerProofs SerRecover SerFinal SerText SerTextFacts
  Discrete Convert DiscreteIO SpecIO SpecSort RankFacts SortProofs Regionizer SpecRegion RegionFacts RegionLoops RegionMuon RegionProofs SpecTest PFFileProofs RegTest RegFiles SpecRegTest SpecRegFiles RegFilesProofs RegPackProofs RegTestProofs RegTestRun RegTestOk RegTestFinal
  Bhv SpecBhv BhvProofs BhvTest SpecBhvTest BhvTestProofs BhvFileProofs SpecRegMove RegMoveProofs SpecReplay ReplayProofs SpecReplay2.
Local Open Scope list_scope.
Local Open Scope Z_scope.

(** ** Reading the files *)
Lemma mux_words ws i : Forall event_ok ws -> (i < length ws)%nat -> test_words 2 (mux_file ws) i = nth i ws [].
Proof.
  intros H Hi. assert (L : length (nth i ws []) = 144%nat) by (rewrite <- NCH_144; apply (proj1 (Forall_forall _ _) H); apply nth_In; exact Hi).
  unfold test_words. rewrite NCH_144. apply (nth_ext _ _ 0 0); [rewrite map_length, seq_length; congruence|]. intros j Hj. rewrite map_length, seq_length in Hj.
  rewrite nth_map_seq by exact Hj. unfold mux_file. rewrite nth_map_seq by lia. cbn [snd]. rewrite nth_map_seq by lia.
  replace ((2 * i + j mod 2) / 2)%nat with i by lia. replace ((2 * i + j mod 2) mod 2)%nat with (j mod 2)%nat by lia. f_equal. lia.
Qed.
Lemma mux_lines ws : Forall event_ok ws -> Z.of_nat (2 * length ws) < 2 ^ 32 -> Forall line_ok (mux_file ws).
Proof.
  intros H Hn. apply Forall_forall. intros l Hl. apply in_map_iff in Hl as (f & <- & Hf). apply in_seq in Hf. unfold line_ok. cbn [fst snd]. split; [lia|].
  apply Forall_forall. intros x Hx. apply in_map_iff in Hx as (w & <- & _). apply nth_32.
  destruct (nth_in_or_default (f / 2) ws []) as [I| ->]; [|constructor]. apply (proj1 (Forall_forall _ _) H _ I).
Qed.
Lemma plain_line_words ws i : (i < length ws)%nat -> line_words (plain_file ws) i = nth i ws [].
Proof.
  intros Hi. unfold line_words, plain_file.
  destruct (nth_error ws i) as [w|] eqn:E; [|apply nth_error_None in E; lia].
  rewrite (nth_error_nth _ i (0, []) (x := (Z.of_nat i, w))) by (rewrite nth_error_mapi, E; reflexivity). cbn [snd]. symmetry. apply nth_error_nth. exact E.
Qed.
Lemma plain_lines ws : Forall (Forall (inU 32)) ws -> Z.of_nat (length ws) < 2 ^ 32 -> Forall line_ok (plain_file ws).
Proof.
  intros H Hn. apply Forall_forall. intros l Hl. apply in_mapi in Hl as (i & w & E & ->). unfold line_ok. cbn [fst snd].
  split; [assert (i < length ws)%nat by (apply nth_error_Some; congruence); lia|]. apply (proj1 (Forall_forall _ _) H). eapply nth_error_In. exact E.
Qed.

(** ** Words of one test *)
Lemma nth_stream {A B} (f : A -> nat -> B) n d : forall tests i t ic, nth_error tests i = Some t -> (ic < n)%nat ->
  nth (n * i + ic) (flat_map (fun t => map (f t) (seq 0 n)) tests) d = f t ic.
Proof.
  induction tests as [|u tests IH]; intros [|i] t ic E Hc; try discriminate E; cbn [flat_map].
  - injection E as ->. rewrite app_nth1 by (rewrite map_length, seq_length; lia). replace (n * 0 + ic)%nat with ic by lia. apply nth_map_seq. exact Hc.
  - rewrite app_nth2 by (rewrite map_length, seq_length; lia). rewrite map_length, seq_length. replace (n * S i + ic - n)%nat with (n * i + ic)%nat by lia. apply IH; assumption.
Qed.
Lemma nth_streami {A B} (f : nat -> A -> nat -> B) n d i t ic tests : nth_error tests i = Some t -> (ic < n)%nat ->
  nth (n * i + ic) (List.concat (mapi (fun k t => map (f k t) (seq 0 n)) tests)) d = f i t ic.
Proof.
  intros E Hc. rewrite <- (map_id (mapi _ tests)), map_mapi, <- flat_map_concat_map || idtac.
  assert (X : List.concat (mapi (fun k t => map (f k t) (seq 0 n)) tests) = flat_map (fun p => map (f (fst p) (snd p)) (seq 0 n)) (mapi (fun k t => (k, t)) tests)).
  { rewrite flat_map_concat_map, map_mapi. reflexivity. }
  rewrite X. rewrite (nth_stream (fun p => f (fst p) (snd p)) n d _ i (i, t)); [reflexivity| |exact Hc]. rewrite nth_error_mapi, E. reflexivity.
Qed.
Lemma nth_two {A} (f g : A -> Z) (d : A) l rest : forall j, (j < length l)%nat ->
  nth (2 * j) (flat_map (fun x => [f x; g x]) l ++ rest) 0 = f (nth j l d) /\ nth (2 * j + 1) (flat_map (fun x => [f x; g x]) l ++ rest) 0 = g (nth j l d).
Proof.
  induction l as [|x l IH]; intros [|j] Hj; cbn [length] in Hj; try lia; [split; reflexivity|].
  replace (2 * S j)%nat with (S (S (2 * j))) by lia. cbn [flat_map app nth Nat.add]. apply IH. lia.
Qed.
Lemma links_columns {T} (clr : T) n m rows : dims2 n m rows -> link_by_link clr n (map (fun ic => column clr ic rows) (seq 0 m)) = rows.
Proof.
  intros [L D]. unfold link_by_link. apply (nth_ext _ _ [] []); [rewrite map_length, seq_length; congruence|]. intros l Hl. rewrite map_length, seq_length in Hl.
  rewrite nth_map_seq by exact Hl. rewrite map_map. assert (R : length (nth l rows []) = m) by (apply D, nth_In; lia).
  apply (nth_ext _ _ clr clr); [rewrite map_length, seq_length; congruence|]. intros ic Hi. rewrite map_length, seq_length in Hi. rewrite nth_map_seq by exact Hi. apply nth_column. lia.
Qed.
Lemma mapM_all {A B} (f : A -> res B) (g : A -> B) l : (forall x, In x l -> f x = Ok (g x)) -> mapM f l = Ok (map g l).
Proof. induction l as [|x l IH]; intros H; [reflexivity|]. cbn [mapM map]. rewrite (H x (or_introl eq_refl)). cbn [bind]. rewrite IH by (intros y Hy; apply H; right; exact Hy). reflexivity. Qed.

Lemma unp_tks offs a l c : offs = length a -> Forall tk_ok l -> mp7_unpack_tk (length l) offs (a ++ flat_map tk_words l ++ c) = Ok l.
Proof. intros E H. apply (unpack_gen tk_words ex_tk (fun o => two_words _ _) (length l) offs a l); [reflexivity|exact E|]. intros o Ho. apply ex_tk_words. eapply Forall_forall; eassumption. Qed.
Lemma unp_hads offs a l c : offs = length a -> Forall had_ok l -> mp7_unpack_had (length l) offs (a ++ flat_map had_words l ++ c) = Ok l.
Proof. intros E H. apply (unpack_gen had_words ex_had (fun o => two_words _ _) (length l) offs a l); [reflexivity|exact E|]. intros o Ho. apply ex_had_words. eapply Forall_forall; eassumption. Qed.
Lemma unp_ems offs a l c : offs = length a -> Forall em_ok l -> mp7_unpack_em (length l) offs (a ++ flat_map em_words l ++ c) = Ok l.
Proof. intros E H. apply (unpack_gen em_words ex_em (fun o => two_words _ _) (length l) offs a l); [reflexivity|exact E|]. intros o Ho. apply ex_em_words. eapply Forall_forall; eassumption. Qed.
Lemma unp_mus offs a l c : offs = length a -> Forall Data.mu_ok l -> mp7_unpack_mu (length l) offs (a ++ flat_map mu_words l ++ c) = Ok l.
Proof. intros E H. apply (unpack_gen mu_words ex_mu (fun o => two_words _ _) (length l) offs a l); [reflexivity|exact E|]. intros o Ho. apply ex_mu_words. eapply Forall_forall; eassumption. Qed.

(** ** Vertex finder *)
Lemma debug_in_word o : tk_ok o ->
  fetch_bin_ref (t_z0 o) = mkZbin ((SpecBhvTest.slice o + (if inside o then 2 ^ 28 else 0)) mod 2 ^ 28) (2 ^ 28 <=? SpecBhvTest.slice o + (if inside o then 2 ^ 28 else 0)).
Proof.
  intros H. destruct (slice_bin o H) as (E1 & E2 & R). destruct (fetch_bin_ref (t_z0 o)) as [b v]. cbn [zb_bin zb_valid] in *. subst b v. f_equal.
  - destruct (inside o); lia.
  - destruct (inside o); [symmetry; apply Z.leb_le; lia|symmetry; apply Z.leb_gt; lia].
Qed.
Lemma halves16 h k : hist_ok h -> (k < 36)%nat -> 0 <= half_of (2 * k) (pairs h) < 512 /\ 0 <= half_of (2 * k + 1) (pairs h) < 512.
Proof. intros H Hk. rewrite !pairs_half by (exact H || lia). destruct (hist_val h (2 * k) H ltac:(lia)) as [_ Q1]. destruct (hist_val h (2 * k + 1) H ltac:(lia)) as [_ Q2]. lia. Qed.

Lemma vertex_test tests i t e : Forall bt_sized tests -> nth_error tests i = Some t -> btest_of e t ->
  vertex_replays (mux_file (bhv_in_stream tests)) (plain_file (bhv_in_debug_stream tests)) (plain_file (bhv_out_stream tests)) (plain_file (bhv_out_debug_stream tests)) i.
Proof.
  intros SZ E B. assert (St : bt_sized t) by (apply (proj1 (Forall_forall _ _) SZ); eapply nth_error_In; exact E). destruct B as (_ & _ & B2 & B3 & _).
  assert (Hi : (i < length tests)%nat) by (apply nth_error_Some; congruence).
  pose proof St as (D & K & _ & (hs & EH & HH & LH) & _). assert (Z0 : tk_ok tk0) by (unfold tk_ok, tk0, inS; cbn; lia).
  set (clocks := map (fun ic => column tk0 ic (bt_tracks t)) (seq 0 18)).
  assert (W1 : forall ic, (ic < 18)%nat -> test_words 2 (mux_file (bhv_in_stream tests)) (18 * i + ic) = in_clock t ic).
  { intros ic Hc. rewrite mux_words by first [apply in_stream_ok; exact SZ|rewrite in_stream_len; lia]. apply (nth_stream in_clock); assumption. }
  assert (W2 : forall ic, (ic < 36)%nat -> line_words (plain_file (bhv_in_debug_stream tests)) (36 * i + ic) = debug_clock t ic).
  { intros ic Hc. rewrite plain_line_words by (rewrite in_debug_stream_len; lia). apply (nth_stream debug_clock); assumption. }
  assert (W3 : forall ic, (ic < 36)%nat -> line_words (plain_file (bhv_out_stream tests)) (36 * i + ic) = out_clock t ic).
  { intros ic Hc. rewrite plain_line_words by (rewrite out_stream_len; lia). apply (nth_stream out_clock); assumption. }
  assert (W4 : forall ic, (ic < 36)%nat -> line_words (plain_file (bhv_out_debug_stream tests)) (36 * i + ic) = out_debug_clock i t ic).
  { intros ic Hc. rewrite plain_line_words by (rewrite out_debug_stream_len; lia). apply (nth_streami out_debug_clock); assumption. }
  unfold hw_vertex in B3. rewrite B2 in B3. cbn [bind] in B3. destruct (bhv_find_pv (Z.to_nat BHV_NHALFBINS) (bt_hists t)) as [[b s]|k] eqn:EP; [|discriminate B3]. cbn [bind] in B3. injection B3 as B3.
  exists clocks, (bt_hists t), b, s.
  split. { apply mapM_all. intros ic Hc. apply in_seq in Hc. rewrite W1 by lia. unfold in_clock, padded.
    assert (L24 : length (column tk0 ic (bt_tracks t)) = 24%nat) by (rewrite len_column; apply D). rewrite <- L24 at 1.
    apply (unp_tks 0 []); [reflexivity|]. apply column_ok; assumption. }
  split. { unfold clocks. rewrite links_columns by exact D. exact B2. }
  split; [exact EP|].
  split. { rewrite <- (Nat.add_0_r (36 * i)). rewrite W3 by lia. unfold out_clock. rewrite <- B3. reflexivity. }
  split. { intros ic Hc. rewrite W3 by lia. unfold out_clock. destruct ic; [lia|reflexivity]. }
  split.
  - intros is k Hs Hk. cbv zeta. rewrite W4 by exact Hk. unfold out_debug_clock, padded. replace (2 * is + 4)%nat with (S (S (S (2 * is + 1)))) by lia. rewrite <- app_assoc. cbn [app nth].
    destruct (nth_two (fun h => (if (k =? 0)%nat then 65536 else 0) + 2 * Z.of_nat k + (if Nat.even i then 2 ^ 24 else 0)) (fun h => 65536 * half_of (2 * k + 1) h + half_of (2 * k) h) [] (bt_hists t) (repeat 0 (144 - length (0 :: 0 :: 0 :: flat_map (fun h => [(if (k =? 0)%nat then 65536 else 0) + 2 * Z.of_nat k + (if Nat.even i then 2 ^ 24 else 0); 65536 * half_of (2 * k + 1) h + half_of (2 * k) h]) (bt_hists t)))) is) as [_ X]; [rewrite EH, map_length; lia|].
    rewrite X. assert (HI : exists h, nth is (bt_hists t) [] = pairs h /\ hist_ok h).
    { rewrite EH. destruct (nth_error hs is) as [h|] eqn:Eh; [|apply nth_error_None in Eh; lia]. exists h. split; [apply nth_error_nth; apply map_nth_error; exact Eh|apply (proj1 (Forall_forall _ _) HH); eapply nth_error_In; exact Eh]. }
    destruct HI as (h & -> & Hh). destruct (halves16 h k Hh Hk) as [Y1 Y2]. unfold low16, high16. split; lia.
  - intros is ic Hs Hc. cbv zeta. rewrite W2 by exact Hc. unfold debug_clock, padded, debug_words. change (mkTk 0 0 0 0 0 false) with tk0.
    assert (LC : (is < length (column tk0 (ic / 2) (bt_tracks t)))%nat) by (rewrite len_column; destruct D; lia).
    match goal with |- context [flat_map ?f ?l ++ ?r] => destruct (nth_two (fun o => SpecBhvTest.slice o + (if inside o then 2 ^ 28 else 0)) (fun o => half_pt o mod 2 ^ 32) tk0 l r is LC) as [X1 X2] end.
    rewrite X1, X2. replace (nth (ic / 2) clocks []) with (column tk0 (ic / 2) (bt_tracks t)) by (unfold clocks; rewrite nth_map_seq by lia; reflexivity).
    set (o := nth is (column tk0 (ic / 2) (bt_tracks t)) tk0). assert (Ho : tk_ok o) by (apply (proj1 (Forall_forall _ _) (column_ok tk_ok tk0 (ic / 2) _ Z0 K)); apply nth_In; exact LC).
    split; [apply debug_in_word; exact Ho|]. destruct (half_pt_range o Ho) as [_ R]. unfold half_pt in *. rewrite (wrapS_eqm 32 _ (t_pt o / 2)) by (reflexivity || lia). apply wrapS_id; [reflexivity|unfold inS; lia].
Qed.

Lemma c93_vertex board g arr tmp old evs code nerr tests : dims2 24 18 arr -> length tmp = 36%nat -> dims2 18 24 old -> Forall event_wf evs ->
  bhv_main (Ok true) g arr tmp (Some (dump evs)) = Ok (code, nerr, tests) -> ~ In newline (chars board) ->
  exists f1 f2 f3 f4 l1 l2 l3 l4, bhv_mp7_files tests old = Ok (f1, f2, f3, f4) /\
    mp7_read (mp7_text board (links 2 0) f1) = Some l1 /\ mp7_read (mp7_text board (links 1 0) f2) = Some l2 /\
    mp7_read (mp7_text board (links 1 3) f3) = Some l3 /\ mp7_read (mp7_text board (links 1 0) f4) = Some l4 /\
    map (@length _) [l1; l2; l3; l4] = [36 * length tests; 36 * length tests; 36 * length tests; 36 * length tests]%nat /\
    forall i, (i < length tests)%nat -> vertex_replays l1 l2 l3 l4 i.
Proof.
  intros D L O HE R HB. pose proof (c62_patterns _ _ _ _ _ _ _ _ D L O HE R) as EF. destruct (c62_sized _ _ _ _ _ _ _ D L HE R) as [SZ N].
  assert (NB : nonl (chars board)) by (apply Forall_forall; intros x Hx ->; exact (HB Hx)).
  assert (NL : forall a b, (1 <= a)%nat -> (b <= 144)%nat -> Z.of_nat (links a b) < 2 ^ 32).
  { intros a b Ha Hb. unfold links. rewrite NCH_144. pose proof (Nat.div_le_mono 144 (144 * a) a ltac:(lia) ltac:(nia)) as Q. rewrite Nat.div_mul in Q by lia. destruct (b =? 0)%nat; lia. }
  unfold bhv_files in EF. exists (mux_file (bhv_in_stream tests)), (plain_file (bhv_in_debug_stream tests)), (plain_file (bhv_out_stream tests)), (plain_file (bhv_out_debug_stream tests)).
  eexists _, _, _, _. split; [exact EF|].
  split. { apply mp7_read_text; [exact NB|apply NL; lia|]. apply mux_lines; [apply in_stream_ok; exact SZ|rewrite in_stream_len; lia]. }
  split. { apply mp7_read_text; [exact NB|apply NL; lia|]. apply plain_lines; [|rewrite in_debug_stream_len; lia]. eapply Forall_impl; [|apply in_debug_stream_ok; exact SZ]. intros w Hw. apply Hw. }
  split. { apply mp7_read_text; [exact NB|apply NL; lia|]. apply plain_lines; [|rewrite out_stream_len; lia]. eapply Forall_impl; [|apply out_stream_ok3; exact SZ]. intros w Hw. apply Hw. }
  split. { apply mp7_read_text; [exact NB|apply NL; lia|]. apply plain_lines; [|rewrite out_debug_stream_len; lia]. eapply Forall_impl; [|apply out_debug_stream_ok; exact SZ]. intros w Hw. apply Hw. }
  split. { cbn [map]. unfold mux_file, plain_file. rewrite map_length, seq_length, !length_mapi, in_stream_len, in_debug_stream_len, out_stream_len, out_debug_stream_len. replace (2 * (18 * length tests))%nat with (36 * length tests)%nat by lia. reflexivity. }
  intros i Hi. destruct (nth_error tests i) as [t|] eqn:E; [|apply nth_error_None in E; lia].
  destruct (c61_run g arr tmp evs D L HE) as (tests' & E' & F). rewrite R in E'. injection E' as _ _ <-.
  assert (X : exists e, btest_of e t). { clear -F E. revert i E. induction F as [|e u l l' B F IH]; intros [|i] E; try discriminate E; [injection E as ->; exists e; exact B|exact (IH i E)]. }
  destruct X as [e B]. eapply vertex_test; eassumption.
Qed.

(** ** Regionizers *)
Lemma region_spec_fun {A} (d : A) nsec nreg objs ie ip o o' : region_spec d nsec nreg objs ie ip o -> region_spec d nsec nreg objs ie ip o' -> o = o'.
Proof.
  intros (t0 & t1 & t2 & H0 & H1 & H2 & top & HT & ->) (u0 & u1 & u2 & K0 & K1 & K2 & top' & KT & ->).
  rewrite (top_n_unique _ _ _ _ _ _ K0 H0), (top_n_unique _ _ _ _ _ _ K1 H1), (top_n_unique _ _ _ _ _ _ K2 H2) in KT. rewrite (top_n_unique _ _ _ _ _ _ KT HT). reflexivity.
Qed.
Lemma region_spec_ext {A} (d : A) nsec nreg objs objs' ie ip o : (forall s, (s < 12)%nat -> objs s = objs' s) -> region_spec d nsec nreg objs ie ip o -> region_spec d nsec nreg objs' ie ip o.
Proof.
  intros H (t0 & t1 & t2 & H0 & H1 & H2 & HK). assert (Q : forall j, (region_sector ip j < 12)%nat) by (intros; unfold region_sector; apply Nat.mod_upper_bound; lia).
  exists t0, t1, t2. rewrite <- !H by apply Q. auto.
Qed.
Lemma gives_spec {A} (d : A) nobj nsec nreg nf fibers (out : list (list (robj A))) : fibres_ok nobj nf fibers -> length out = 18%nat ->
  (forall ie ip, (ie < 3)%nat -> (ip < 6)%nat -> region_spec d nsec nreg (arrivals nf (nobj / nf) fibers) ie ip (nth (6 * ie + ip) out [])) ->
  gives d nobj nsec nreg nf fibers out.
Proof.
  intros O L H. pose proof (gives_R d nobj nsec nreg nf fibers O) as G. match type of G with gives _ _ _ _ _ _ ?o => assert (E : out = o); [|rewrite E; exact G] end.
  apply (nth_ext _ _ [] []); [rewrite tab_length; exact L|]. intros ir Hr. rewrite L in Hr. rewrite nth_tab by exact Hr.
  replace (nth ir out []) with (nth (6 * (ir / 6) + ir mod 6) out []) by (f_equal; lia). eapply region_spec_fun; [apply H; lia|apply R_spec].
Qed.
Lemma nth_mapmap {T U} (f : T -> U) l i : nth i (map (map f) l) [] = map f (nth i l []).
Proof. rewrite <- (map_nth (map f)). reflexivity. Qed.
Lemma gives_of {T A} (to_r : T -> robj A) d nobj nsec nreg (arrays regions : list (list T)) : dims2 12 nobj arrays -> regions_of to_r d nsec nreg arrays regions ->
  gives d nobj nsec nreg 1 (map (map to_r) arrays) (map (map to_r) regions).
Proof.
  intros [LA DA] ([LR _] & H). apply gives_spec.
  - split; [rewrite map_length; lia|]. intros fib Hf. apply in_map_iff in Hf as (a & <- & Ha). rewrite map_length, (DA a Ha). rewrite Nat.div_1_r. lia.
  - rewrite map_length. exact LR.
  - intros ie ip He Hp. rewrite nth_mapmap. eapply region_spec_ext; [|apply H; assumption]. intros s Hs. cbv beta. rewrite arrivals_one, nth_mapmap, Nat.div_1_r, firstn_all2; [reflexivity|].
    rewrite map_length, (DA (nth s arrays [])); [lia|]. apply nth_In. lia.
Qed.
Definition track_pairs (rows : list (list Tk)) (ic : nat) : list Tk := flat_map (fun row => [nth (2 * ic) row tk0; nth (2 * ic + 1) row tk0]) rows.
Lemma nth_pairs rows ic f : (f < 2)%nat -> forall s, (s < length rows)%nat -> nth (2 * s + f) (track_pairs rows ic) tk0 = nth (2 * ic + f) (nth s rows []) tk0.
Proof.
  intros Hf. induction rows as [|row rows IH]; intros [|s] Hs; cbn [length] in Hs; try lia.
  - destruct f as [|[|]]; [|reflexivity|lia]. cbn [track_pairs flat_map app nth Nat.mul Nat.add]. rewrite Nat.add_0_r. f_equal. lia.
  - replace (2 * S s + f)%nat with (S (S (2 * s + f))) by lia. cbn [track_pairs flat_map app nth]. apply IH. lia.
Qed.
Lemma pairs_links rows s f : dims2 12 20 rows -> (s < 12)%nat -> (f < 2)%nat ->
  nth (2 * s + f) (map (map r_of_tk) (link_by_link tk0 24 (map (track_pairs rows) (seq 0 10)))) [] = half f (map r_of_tk (nth s rows [])).
Proof.
  intros [L D] Hs Hf. rewrite nth_mapmap. unfold link_by_link. rewrite nth_map_seq by lia. rewrite !map_map.
  assert (L20 : length (nth s rows []) = 20%nat) by (apply D, nth_In; lia).
  rewrite (map_ext _ (fun ic => r_of_tk (nth (2 * ic + f) (nth s rows []) tk0))) by (intros ic; f_equal; apply nth_pairs; lia).
  generalize dependent (nth s rows []). intros l Hl. list20 l Hl. destruct f as [|[|]]; [reflexivity..|lia].
Qed.
Lemma gives_tracks nreg rows regions : dims2 12 20 rows -> regions_of r_of_tk (0, 0, false) 9 nreg rows regions ->
  gives (0, 0, false) 20 9 nreg 2 (map (map r_of_tk) (link_by_link tk0 24 (map (track_pairs rows) (seq 0 10)))) (map (map r_of_tk) regions).
Proof.
  intros D ([LR _] & H). apply gives_spec.
  - split; [rewrite map_length; unfold link_by_link; rewrite map_length, seq_length; reflexivity|]. intros fib Hf. apply in_map_iff in Hf as (a & <- & Ha). apply in_map_iff in Ha as (l & <- & _).
    rewrite !map_length, seq_length. change (20 / 2)%nat with 10%nat. lia.
  - rewrite map_length. exact LR.
  - intros ie ip He Hp. rewrite nth_mapmap. eapply region_spec_ext; [|apply H; assumption]. intros s Hs. cbv beta. change (20 / 2)%nat with 10%nat. unfold arrivals.
    rewrite <- (half_both (map r_of_tk (nth s rows []))) by (rewrite map_length; apply D, nth_In; destruct D; lia).
    pose proof (pairs_links rows s 0 D Hs ltac:(lia)) as N0. pose proof (pairs_links rows s 1 D Hs ltac:(lia)) as N1. set (fb := map (map r_of_tk) (link_by_link _ _ _)) in *. clearbody fb.
    apply flat_map_ext. intros io. cbn [flat_map seq]. rewrite N0, N1. reflexivity.
Qed.

Lemma regions_test c tests i t e : (NMU c <= 18)%nat -> out_fits c -> Forall (test_sized c) tests -> Forall test_ok tests -> nth_error tests i = Some t -> test_of c e t ->
  regions_replay c (mux_file (map w_all (in_stream c tests))) (mux_file (map w_all (out_stream tests))) i.
Proof.
  intros HN HF SZ OK E T. assert (Hi : (i < length tests)%nat) by (apply nth_error_Some; congruence).
  assert (St : test_sized c t) by (apply (proj1 (Forall_forall _ _) SZ); eapply nth_error_In; exact E). assert (Kt : test_ok t) by (apply (proj1 (Forall_forall _ _) OK); eapply nth_error_In; exact E).
  destruct T as (_ & _ & _ & _ & _ & T1 & T2 & T3 & T4). destruct St as (D1 & D2 & D3 & _ & D4 & O1 & O2 & O3 & O4). destruct Kt as (K1 & K2 & K3 & K4 & Q1 & Q2 & Q3 & Q4).
  assert (Z1 : had_ok had0) by (unfold had_ok, had0, inS; cbn; lia). assert (Z2 : em_ok em0) by (unfold em_ok, em0, inS; cbn; lia). assert (Z3 : tk_ok tk0) by (unfold tk_ok, tk0, inS; cbn; lia). assert (Z4 : Data.mu_ok mu0) by (unfold Data.mu_ok, mu0, inS; cbn; lia).
  assert (WI : forall ic, (ic < 18)%nat -> test_words 2 (mux_file (map w_all (in_stream c tests))) (18 * i + ic) = w_all (in_event c t ic)).
  { intros ic Hc. rewrite mux_words by first [apply all_events, RegPackProofs.in_stream_ok; exact SZ|rewrite map_length; unfold in_stream; rewrite stream_len; lia].
    unfold in_stream. rewrite (nth_indep _ [] (w_all ([], [], [], []))) by (rewrite map_length, stream_len; lia). rewrite map_nth. f_equal. apply (nth_stream (in_event c)); assumption. }
  assert (WO : forall ic, (ic < 18)%nat -> test_words 2 (mux_file (map w_all (out_stream tests))) (18 * i + ic) = w_all (out_event t ic)).
  { intros ic Hc. rewrite mux_words by first [apply all_events, (RegPackProofs.out_stream_ok c); assumption|rewrite map_length; unfold out_stream; rewrite stream_len; lia].
    unfold out_stream. rewrite (nth_indep _ [] (w_all ([], [], [], []))) by (rewrite map_length, stream_len; lia). rewrite map_nth. f_equal. apply (nth_stream out_event); assumption. }
  assert (L1 : forall ic, length (column had0 ic (ri_calo (rt_ins t))) = 12%nat) by (intros; rewrite len_column; apply D1). assert (L2 : forall ic, length (column em0 ic (ri_em (rt_ins t))) = 12%nat) by (intros; rewrite len_column; apply D2).
  assert (L3 : forall ic, length (track_pairs (ri_tk (rt_ins t)) ic) = 24%nat) by (intros; unfold track_pairs; rewrite len_pairs, (proj1 D3); reflexivity). assert (L4 : forall ic, length (column mu0 ic (ri_mu (rt_ins t))) = 4%nat) by (intros; rewrite len_column; apply D4).
  pose proof (fun ic (H : (ic < 18)%nat) => row_len _ _ _ ic O1 H) as M1. pose proof (fun ic (H : (ic < 18)%nat) => row_len _ _ _ ic O2 H) as M2. pose proof (fun ic (H : (ic < 18)%nat) => row_len _ _ _ ic O3 H) as M3. pose proof (fun ic (H : (ic < 18)%nat) => row_len _ _ _ ic O4 H) as M4.
  assert (BH : forall n ic r, length (block had_words n ic r) = (2 * length r)%nat) by (intros; apply (block_len _ _ _ _ _ packs_had)). assert (BE : forall n ic r, length (block em_words n ic r) = (2 * length r)%nat) by (intros; apply (block_len _ _ _ _ _ packs_em)).
  assert (BT : forall n ic r, length (block tk_words n ic r) = (2 * length r)%nat) by (intros; apply (block_len _ _ _ _ _ packs_tk)).
  assert (FH : forall r, length (flat_map had_words r) = (2 * length r)%nat) by (intros; apply flat_two; reflexivity). assert (FE : forall r, length (flat_map em_words r) = (2 * length r)%nat) by (intros; apply flat_two; reflexivity). assert (FT : forall r, length (flat_map tk_words r) = (2 * length r)%nat) by (intros; apply flat_two; reflexivity).
  exists (map (fun ic => column had0 ic (ri_calo (rt_ins t))) (seq 0 15)), (map (fun ic => column em0 ic (ri_em (rt_ins t))) (seq 0 12)), (map (track_pairs (ri_tk (rt_ins t))) (seq 0 10)), (map (fun ic => column mu0 ic (ri_mu (rt_ins t))) (seq 0 (NMU c))),
    (map (fun ir => nth ir (rt_calo t) []) (seq 0 18)), (map (fun ir => nth ir (rt_em t) []) (seq 0 18)), (map (fun ir => nth ir (rt_tk t) []) (seq 0 18)), (map (fun ir => nth ir (rt_mu t) []) (seq 0 18)).
  split. { apply mapM_all. intros ic Hc. apply in_seq in Hc. rewrite WI by lia. unfold w_all, in_event, padded. cbn [fst]. rewrite block_below by lia. rewrite <- !app_assoc.
    rewrite <- (L1 ic) at 1. apply (unp_hads 0 []); [reflexivity|apply column_ok; assumption]. }
  split. { apply mapM_all. intros ic Hc. apply in_seq in Hc. rewrite WI by lia. unfold w_all, in_event, padded. cbn [fst]. rewrite (block_below em_words) by lia. rewrite <- !app_assoc.
    rewrite <- (L2 ic) at 1. apply unp_ems; [rewrite BH, L1; reflexivity|apply column_ok; assumption]. }
  split. { apply mapM_all. intros ic Hc. apply in_seq in Hc. rewrite WI by lia. unfold w_all, in_event, padded. cbn [fst]. rewrite (block_below tk_words) by lia. rewrite <- !app_assoc. rewrite (app_assoc (block had_words _ _ _)).
    rewrite <- (L3 ic) at 1. apply unp_tks; [rewrite app_length, BH, BE, L1, L2; reflexivity|apply (RegPackProofs.pairs_ok tk_ok tk0); assumption]. }
  split. { apply mapM_all. intros ic Hc. apply in_seq in Hc. rewrite WI by lia. unfold w_all, in_event, padded. cbn [fst]. rewrite (block_below mu_words) by lia. rewrite <- !app_assoc. rewrite (app_assoc (block em_words _ _ _)), (app_assoc (block had_words _ _ _)).
    rewrite <- (L4 ic) at 1. apply unp_mus; [|apply column_ok; assumption]. rewrite !app_length, BH, BE, BT, L1, L2. change (mkTk 0 0 0 0 0 false) with tk0. fold (track_pairs (ri_tk (rt_ins t)) ic). rewrite L3. reflexivity. }
  split. { apply mapM_all. intros ic Hc. apply in_seq in Hc. rewrite WO by lia. unfold w_all, out_event, padded. cbn [fst]. rewrite <- !app_assoc.
    rewrite <- (M1 ic) by lia. apply (unp_hads 0 []); [reflexivity|apply nth_rows_ok; assumption]. }
  split. { apply mapM_all. intros ic Hc. apply in_seq in Hc. rewrite WO by lia. unfold w_all, out_event, padded. cbn [fst]. rewrite <- !app_assoc.
    rewrite <- (M2 ic), <- (M1 ic) by lia. apply unp_ems; [rewrite FH; lia|apply nth_rows_ok; assumption]. }
  split. { apply mapM_all. intros ic Hc. apply in_seq in Hc. rewrite WO by lia. unfold w_all, out_event, padded. cbn [fst]. rewrite <- !app_assoc. rewrite (app_assoc (flat_map had_words _)).
    rewrite <- (M3 ic), <- (M2 ic), <- (M1 ic) by lia. apply unp_tks; [rewrite app_length, FH, FE; lia|apply nth_rows_ok; assumption]. }
  split. { apply mapM_all. intros ic Hc. apply in_seq in Hc. rewrite WO by lia. unfold w_all, out_event, padded. cbn [fst]. rewrite <- !app_assoc. rewrite (app_assoc (flat_map em_words _)), (app_assoc (flat_map had_words _)).
    rewrite <- (M4 ic), <- (M3 ic), <- (M2 ic), <- (M1 ic) by lia. apply unp_mus; [rewrite !app_length, FH, FE, FT; lia|apply nth_rows_ok; assumption]. }
  assert (ID : forall T n (l : list (list T)), dims2 18 n l -> map (fun ir => nth ir l []) (seq 0 18) = l).
  { intros T n l [L _]. apply (nth_ext _ _ [] []); [rewrite map_length, seq_length; congruence|]. intros k Hk. rewrite map_length, seq_length in Hk. rewrite nth_map_seq by exact Hk. reflexivity. }
  rewrite !(links_columns _ _ _ _) by eassumption. rewrite (ID _ _ _ O1), (ID _ _ _ O2), (ID _ _ _ O3), (ID _ _ _ O4).
  split; [apply gives_of; assumption|]. split; [apply gives_of; assumption|]. split; [apply gives_tracks; assumption|].
  intros work regions DW DR. destruct T4 as [_ T4]. destruct (T4 work regions DW DR) as (static & ->). eexists _, _. reflexivity.
Qed.

Lemma c93_regions board c junk work g st0 evs code tests old : memory_ok c st0 -> (forall t, dims3 12 3 7 (work t)) -> Forall event_wf evs -> trans_ok c old -> out_fits c -> (NMU c <= 18)%nat ->
  reg_main c (Ok true) junk work g st0 (Some (dump evs)) = Ok (code, tests) -> ~ In newline (chars board) ->
  exists fin fout ins outs both lin lout, reg_mp7_files c tests old = Ok (fin :: ins, fout :: outs, both) /\
    mp7_read (mp7_text board (links 2 0) fin) = Some lin /\ mp7_read (mp7_text board (links 2 0) fout) = Some lout /\
    map (@length _) [lin; lout] = [36 * length tests; 36 * length tests]%nat /\
    forall i, (i < length tests)%nat -> regions_replay c lin lout i.
Proof.
  intros HM HW HE HO HF HN R HB. pose proof (c60_run _ _ _ _ _ _ _ _ _ HM HW HE HO HF R) as EF. destruct (run_facts _ _ _ _ _ _ _ _ HM HW HE R) as [F _]. destruct (tests_facts _ _ _ F) as (SZ & K & L).
  assert (NB : nonl (chars board)) by (apply Forall_forall; intros x Hx ->; exact (HB Hx)).
  exists (mux_file (map w_all (in_stream c tests))), (mux_file (map w_all (out_stream tests))). eexists _, _, _, _, _. split; [rewrite EF; reflexivity|].
  assert (LI : length (in_stream c tests) = (18 * length tests)%nat) by apply stream_len. assert (LO : length (out_stream tests) = (18 * length tests)%nat) by apply stream_len.
  split. { apply mp7_read_text; [exact NB|unfold links; rewrite NCH_144; change (144 / 2)%nat with 72%nat; cbn; lia|]. apply mux_lines; [apply all_events, RegPackProofs.in_stream_ok; exact SZ|rewrite map_length; lia]. }
  split. { apply mp7_read_text; [exact NB|unfold links; rewrite NCH_144; cbn; lia|]. apply mux_lines; [apply all_events, (RegPackProofs.out_stream_ok c); assumption|rewrite map_length; lia]. }
  split. { cbn [map]. unfold mux_file. rewrite !map_length, !seq_length, LI, LO. replace (2 * (18 * length tests))%nat with (36 * length tests)%nat by lia. reflexivity. }
  intros i Hi. destruct (nth_error tests i) as [t|] eqn:E; [|apply nth_error_None in E; lia].
  assert (X : exists e, test_of c e t). { clear -F E. revert i E. induction F as [|e u l l' B F IH]; intros [|i] E; try discriminate E; [injection E as ->; exists e; exact B|exact (IH i E)]. }
  destruct X as [e B]. eapply regions_test; eassumption.
Qed.
