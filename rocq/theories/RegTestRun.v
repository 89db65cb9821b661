(** Proofs about the regionizer test program: one test, the whole run. *)
From Verif Require Import Base BaseFacts TabFacts Data PFHw TestUtils LinkProofs Discrete Convert ConvertFacts DiscreteIO SpecIO IOFacts IOProofs EventLoop EventLoopFacts
  SpecSort Regionizer SpecRegion RegionFacts RegionLoops RegionProofs RegionMuon RegionFinal RegTest SpecRegTest RegTestProofs.

(** ** Representations *)
Lemma had_rr h : had_of_r (r_of_had h) = h. Proof. destruct h. reflexivity. Qed.
Lemma rr_had o : r_of_had (had_of_r o) = o. Proof. destruct o as [? ? ? []]. reflexivity. Qed.
Lemma rr_em o : r_of_em (em_of_r o) = o. Proof. destruct o. reflexivity. Qed.
Lemma rr_tk o : r_of_tk (tk_of_r o) = o. Proof. destruct o as [? ? ? [[] ?]]. reflexivity. Qed.
Lemma rr_mu o : r_of_mu (mu_of_r o) = o. Proof. destruct o. reflexivity. Qed.
Lemma map_map_id {S T} (f : S -> T) (g : T -> S) (l : list (list T)) : (forall x, f (g x) = x) -> map (map f) (map (map g) l) = l.
Proof. intros H. rewrite map_map. rewrite <- (map_id l) at 2. apply map_ext. intros a. rewrite map_map. rewrite <- (map_id a) at 2. apply map_ext. exact H. Qed.
Lemma dims2_map {S T} (f : S -> T) n m l : dims2 n m l -> dims2 n m (map (map f) l).
Proof. intros [A B]. split; [rewrite map_length; exact A|]. intros a Ha. apply in_map_iff in Ha as (b & <- & Hb). rewrite map_length. auto. Qed.
Lemma nth_map_map {S T} (f : S -> T) (l : list (list S)) k : nth k (map (map f) l) [] = map f (nth k l []).
Proof. change (@nil T) with (map f []). apply map_nth. Qed.

(** ** Comparison of equal regions *)
Lemma mismatch_same {T} (equals : T -> T -> bool) (l : list T) n e : (forall x, equals x x = true) -> length l = n -> mismatch equals n l l e = Ok e.
Proof.
  intros HR HL. unfold mismatch.
  assert (G : forall k, (k <= n)%nat -> forall a, (a + k <= n)%nat -> foldM (fun (bad : bool) i => if bad then Ok true else do x <- rd l i; do y <- rd l i; Ok (negb (equals x y))) (seq a k) false = Ok false).
  { induction k as [|k IH]; intros Hk a Ha; [reflexivity|]. cbn [seq foldM]. unfold rd. destruct (nth_error l a) eqn:E; [|apply nth_error_None in E; lia]. cbn [bind]. rewrite HR. cbn [negb bind]. apply IH; lia. }
  rewrite G by lia. reflexivity.
Qed.
Lemma had_refl x : had_equals x x = true. Proof. apply had_equals_equiv. Qed.
Lemma em_refl x : em_equals x x = true. Proof. apply em_equals_equiv. Qed.
Lemma tk_refl x : track_equals x x = true. Proof. apply track_equals_equiv. Qed.
Lemma mu_refl x : mu_equals x x = true. Proof. apply mu_equals_equiv. Qed.
Lemma rd_dims {T} n m (l : list (list T)) i : dims2 n m l -> (i < n)%nat -> exists a, rd l i = Ok a /\ length a = m.
Proof. intros [A B] Hi. destruct (nth_error l i) eqn:E; [|apply nth_error_None in E; lia]. eexists. unfold rd. rewrite E. split; [reflexivity|]. apply B. eapply nth_error_In. exact E. Qed.
Lemma compare_same c st : ch_regr (rs_calo st) = ch_reg (rs_calo st) -> ch_regr (rs_em st) = ch_reg (rs_em st) -> ch_regr (rs_tk st) = ch_reg (rs_tk st) -> ch_regr (rs_mu st) = ch_reg (rs_mu st) ->
  dims2 18 (NCALO c) (ch_reg (rs_calo st)) -> dims2 18 (NEMCALO c) (ch_reg (rs_em st)) -> dims2 18 (NTRACK c) (ch_reg (rs_tk st)) -> dims2 18 (NMU c) (ch_reg (rs_mu st)) ->
  reg_compare c st = Ok 0.
Proof.
  intros E1 E2 E3 E4 D1 D2 D3 D4. unfold reg_compare. rewrite E1, E2, E3, E4. change N_OUT_REGIONS with 18%nat.
  match goal with |- foldM ?f _ _ = _ => set (F := f) end.
  assert (G : forall k, (k <= 18)%nat -> forall a, (a + k <= 18)%nat -> foldM F (seq a k) 0 = Ok 0); [|apply G; lia].
  induction k as [|k IH]; intros Hk a Ha; [reflexivity|]. cbn [seq foldM]. assert (EF : F 0 a = Ok 0).
  { unfold F. destruct (rd_dims _ _ _ a D1 ltac:(lia)) as (x1 & -> & L1), (rd_dims _ _ _ a D2 ltac:(lia)) as (x2 & -> & L2), (rd_dims _ _ _ a D3 ltac:(lia)) as (x3 & -> & L3), (rd_dims _ _ _ a D4 ltac:(lia)) as (x4 & -> & L4). cbn [bind].
    rewrite mismatch_same by (apply had_refl || (rewrite map_length; assumption)). cbn [bind]. rewrite mismatch_same by (apply em_refl || (rewrite map_length; assumption)). cbn [bind].
    rewrite mismatch_same by (apply tk_refl || (rewrite map_length; assumption)). cbn [bind]. apply mismatch_same; [apply mu_refl|rewrite map_length; assumption]. }
  rewrite EF. cbn [bind]. apply IH; lia.
Qed.

(** ** The regionizers *)
Lemma skip_all {T} n (l : list (list T)) : (forall a, In a l -> length a = n) -> map (skipn n) l = repeat [] (length l).
Proof. intros H. induction l as [|a l IH]; [reflexivity|]. cbn [map length repeat]. rewrite IH by (intros; apply H; now right). f_equal. apply skipn_all2. rewrite (H a) by now left. lia. Qed.

Lemma twice_ref {A} (d : A) nobj nsec nreg nf fib (ch : chan A) : chan_ok 12 nsec nreg ch -> ch_fib ch = fib -> ch_fibr ch = fib -> length fib = (nf * 12)%nat -> (forall a, In a fib -> length a = (nobj / nf)%nat) ->
  exists out static, twice (regionize_ref d nobj nsec nreg nf) ch = Ok (mkChan (repeat [] (nf * 12)) (repeat [] (nf * 12)) out out static) /\ dims3 12 3 nsec static /\ dims2 18 nreg out /\
    forall ie ip, (ie < 3)%nat -> (ip < 6)%nat -> region_spec d nsec nreg (arrivals nf (nobj / nf) fib) ie ip (nth (6 * ie + ip) out []).
Proof.
  intros (D1 & D2 & D3) E1 E2 L1 L2. unfold twice. rewrite E1, E2.
  assert (LE : forall a, In a fib -> (nobj / nf <= length a)%nat) by (intros a Ha; rewrite (L2 a Ha); lia).
  destruct (regionize_ref_spec d nobj nsec nreg nf (ch_static ch) fib (ch_reg ch) D3 D1 L1 LE) as (out & static & E & DS & DO & SP).
  pose proof (regionize_ref_R d nobj nsec nreg nf (ch_static ch) fib (ch_reg ch) D3 D1 L1 LE) as R1. pose proof (fun w => regionize_ref_R d nobj nsec nreg nf w fib (ch_regr ch)) as R2.
  match type of R1 with _ = Ok (?o, _, ?s) => remember o as O; remember s as S0 end. rewrite R1 in E. injection E as EO ES.
  rewrite R1. cbn [bind]. rewrite R2 by (try assumption; rewrite ES; exact DS).
  cbn [bind]. rewrite skip_all, L1 by exact L2. rewrite EO, ES. eexists _, _. split; [reflexivity|]. split; [exact DS|]. split; [exact DO|exact SP].
Qed.

Lemma twice_muon {A} (d : A) nmu fib (ch : chan A) : chan_ok 4 nmu nmu ch -> ch_fib ch = fib -> ch_fibr ch = fib -> length fib = 4%nat -> (forall a, In a fib -> length a = nmu) ->
  exists out static, twice (regionize_muon_ref d nmu) ch = Ok (mkChan (repeat [] 4) (repeat [] 4) out out static) /\ dims3 4 3 nmu static /\ dims2 18 nmu out /\
    forall work regions, dims3 4 3 nmu work -> dims2 18 nmu regions -> exists static, regionize_muon_ref d nmu work fib regions = Ok (out, repeat [] 4, static).
Proof.
  intros (D1 & D2 & D3) E1 E2 L1 L2. unfold twice. rewrite E1, E2.
  assert (LE : forall a, In a fib -> (nmu <= length a)%nat) by (intros a Ha; rewrite (L2 a Ha); lia).
  destruct (regionize_muon_spec d nmu (ch_static ch) fib (ch_reg ch) D3 D1 L1 LE) as (out & static & E & DO & _).
  pose proof (regionize_muon_K d nmu (ch_static ch) fib (ch_reg ch) D3 D1 L1 LE) as R1. pose proof (fun w => regionize_muon_K d nmu w fib (ch_regr ch)) as R2. pose proof (fun w r => regionize_muon_K d nmu w fib r) as R3.
  assert (DW := W_dims d 4 nmu (arrivals 1 nmu fib)).
  match type of R1 with _ = Ok (?o, _, ?s) => remember o as O; remember s as S0 end. rewrite R1 in E. injection E as EO ES.
  rewrite R1. cbn [bind]. rewrite R2 by assumption.
  cbn [bind]. rewrite skip_all, L1 by exact L2. eexists _, _. split; [reflexivity|]. split; [exact DW|]. split; [rewrite EO; exact DO|].
  intros work regions HW HR. eexists. rewrite (R3 work regions HW HR L1 LE). rewrite skip_all, L1 by exact L2. reflexivity.
Qed.

Lemma arrivals_half {T A} (f : T -> robj A) (l : list (list T)) s : (s < length l)%nat -> (forall a, In a l -> length a = 20%nat) ->
  arrivals 2 10 (flat_map (fun a => [half 0 (map f a); half 1 (map f a)]) l) s = map f (nth s l []).
Proof.
  intros Hs HL. unfold arrivals.
  assert (N : forall i, (i < 2)%nat -> nth (2 * s + i) (flat_map (fun a => [half 0 (map f a); half 1 (map f a)]) l) [] = half i (map f (nth s l []))).
  { intros i Hi. clear HL. revert s Hs. induction l as [|a l IH]; intros s Hs; [cbn in Hs; lia|]. destruct s as [|s].
    - destruct i as [|[|]]; [reflexivity..|lia].
    - replace (2 * S s + i)%nat with (S (S (2 * s + i))) by lia. cbn [flat_map app nth]. apply IH. cbn in Hs. lia. }
  rewrite <- (half_both (map f (nth s l []))) by (rewrite map_length; apply HL; apply nth_In; exact Hs).
  apply flat_map_ext. intros io. cbn [flat_map seq]. rewrite (N 0%nat), (N 1%nat) by lia. reflexivity.
Qed.

(** ** One test *)
Definition empty_fibres {A} (n : nat) (ch : chan A) : Prop := ch_fib ch = repeat [] n /\ ch_fibr ch = repeat [] n.
(** the state between two tests *)
Definition ready (c : config) (st : rstate) : Prop :=
  memory_ok c st /\ empty_fibres 12 (rs_calo st) /\ empty_fibres 12 (rs_em st) /\ empty_fibres 24 (rs_tk st) /\ empty_fibres 4 (rs_mu st).

Lemma muons_ok c st : dims2 12 (NMU c) (ri_mu12 (rs_ins st)) -> dims2 4 (NMU c) (ri_mu (rs_ins st)) -> empty_fibres 4 (rs_mu st) ->
  exists mu, dims2 4 (NMU c) mu /\
    (forall m, (m < 4)%nat -> let row k := map r_of_mu (nth (3 * m + k) (ri_mu12 (rs_ins st)) []) in kept 0 (NMU c) (shifted (-120) (row 0%nat) ++ shifted 0 (row 1%nat) ++ shifted 120 (row 2%nat)) (nth m mu [])) /\
    let i := rs_ins st in
    reg_muons c st = Ok (Some (mkRs (mkRins (ri_calo i) (ri_em i) (ri_tk i) (ri_mu12 i) (map (map mu_of_r) mu)) (rs_calo st) (rs_em st) (rs_tk st)
      (mkChan mu mu (ch_reg (rs_mu st)) (ch_regr (rs_mu st)) (ch_static (rs_mu st))) (rs_tests st))).
Proof.
  intros D1 D2 [F1 F2]. destruct (merge_muon_in_kept 0 (NMU c) (map (map r_of_mu) (ri_mu12 (rs_ins st))) (map (map r_of_mu) (ri_mu (rs_ins st)))) as (mu & E & D & HK); [apply dims2_map; assumption..|].
  exists mu. split; [exact D|]. split.
  { intros m Hm. specialize (HK m Hm). rewrite !nth_map_map in HK. cbv beta zeta. rewrite Nat.add_0_r. exact HK. }
  cbv zeta. unfold reg_muons. rewrite E. cbn [bind]. clear E HK. destruct D as [DL DR].
  destruct mu as [|m0 [|m1 [|m2 [|m3 [|]]]]]; try discriminate DL.
  change N_MUON_SECTORS with 4%nat. cbn [seq foldM].
  assert (L : forall m, In m [m0; m1; m2; m3] -> fill_stream (NMU c) 1 0 m [] = Ok (Some m)) by (intros m Hm; apply fill_whole; apply DR; exact Hm).
  change (rd [m0; m1; m2; m3] 0) with (Ok m0). change (rd [m0; m1; m2; m3] 1) with (Ok m1). change (rd [m0; m1; m2; m3] 2) with (Ok m2). change (rd [m0; m1; m2; m3] 3) with (Ok m3). cbn [bind rs_mu].
  rewrite (fill_both_here (NMU c) 1 0 0 m0 m0 _ [] [[]; []; []] [] [[]; []; []]) by (assumption || reflexivity || (apply L; cbn; tauto)). cbn [bind rs_mu app rs_ins rs_calo rs_em rs_tk rs_tests ch_reg ch_regr ch_static].
  rewrite (fill_both_here (NMU c) 1 0 1 m1 m1 _ [m0] [[]; []] [m0] [[]; []]) by (assumption || reflexivity || (apply L; cbn; tauto)). cbn [bind rs_mu app rs_ins rs_calo rs_em rs_tk rs_tests ch_reg ch_regr ch_static].
  rewrite (fill_both_here (NMU c) 1 0 2 m2 m2 _ [m0; m1] [[]] [m0; m1] [[]]) by (assumption || reflexivity || (apply L; cbn; tauto)). cbn [bind rs_mu app rs_ins rs_calo rs_em rs_tk rs_tests ch_reg ch_regr ch_static].
  rewrite (fill_both_here (NMU c) 1 0 3 m3 m3 _ [m0; m1; m2] [] [m0; m1; m2] []) by (assumption || reflexivity || (apply L; cbn; tauto)). reflexivity.
Qed.

Lemma nth_rows {T A} (f : T -> robj A) (l : list (list T)) s : nth s (map (map f) l) [] = map f (nth s l []).
Proof. apply nth_map_map. Qed.
Lemma regions_of_out {T A} (to_r : T -> robj A) of_r (d : A) nsec n nf cnt arrays fib out : (forall x, to_r (of_r x) = x) -> dims2 18 n out ->
  (forall s, (s < 12)%nat -> arrivals nf cnt fib s = map to_r (nth s arrays [])) ->
  (forall ie ip, (ie < 3)%nat -> (ip < 6)%nat -> region_spec d nsec n (arrivals nf cnt fib) ie ip (nth (6 * ie + ip) out [])) ->
  regions_of to_r d nsec n arrays (map (map of_r) out).
Proof.
  intros RR D HA HS. split; [apply dims2_map; exact D|]. intros ie ip He Hp. specialize (HS ie ip He Hp).
  replace (map to_r (nth (6 * ie + ip) (map (map of_r) out) [])) with (nth (6 * ie + ip) out []).
  - destruct HS as (t0 & t1 & t2 & S0 & S1 & S2 & SK). assert (M : forall j, (region_sector ip j < 12)%nat) by (intros; apply Nat.mod_upper_bound; lia). rewrite !HA in * by apply M. exists t0, t1, t2. auto.
  - rewrite nth_map_map, map_map. rewrite <- (map_id (nth _ out [])) at 1. apply map_ext. intros x. symmetry. apply RR.
Qed.

Lemma arrays_dims {T} (f : Region -> list T) n rs : length rs = 12%nat -> (forall r, length (f r) = n) -> dims2 12 n (map f rs).
Proof. intros H L. split; [rewrite map_length; exact H|]. intros a Ha. apply in_map_iff in Ha as (r & <- & _). apply L. Qed.

Lemma start_upto c st : empty_fibres 12 (rs_calo st) -> empty_fibres 12 (rs_em st) -> empty_fibres 24 (rs_tk st) ->
  filled_upto c st [] (ri_calo (rs_ins st)) (ri_em (rs_ins st)) (ri_tk (rs_ins st)) (ri_mu12 (rs_ins st)) 12 = st.
Proof.
  destruct st as [[] [f1 f2 ? ? ?] [f3 f4 ? ? ?] [f5 f6 ? ? ?] cm ts]. unfold empty_fibres. cbn [rs_calo rs_em rs_tk ch_fib ch_fibr]. intros [-> ->] [-> ->] [-> ->]. reflexivity.
Qed.
Lemma body_ok c junk work test st ev : (forall t, dims3 12 3 7 (work t)) -> ready c st -> twelve ev = true -> Forall region_fits (ev_regions ev) ->
  if negative_calo ev then reg_body c junk work test st ev = UB AssertFail
  else if (NCALO c <? 7)%nat then reg_body c junk work test st ev = UB OutOfBounds
  else exists st1 t, reg_body c junk work test st ev = Ok (st1, None) /\ ready c st1 /\ rs_tests st1 = rs_tests st ++ [t] /\ test_of c ev t.
Proof.
  intros HW ((HI & HC & HE & HT & HM) & FC & FE & FT & FM) H12 HF. unfold twelve in H12. apply Nat.eqb_eq in H12.
  set (rs := ev_regions ev) in *. destruct HI as (I1 & I2 & I3 & I4 & I5).
  assert (B : foldM (reg_sector c ev) (seq 0 N_IN_SECTORS) (Some st) = if existsb neg_sector rs then UB AssertFail else Ok (Some (filled_upto c st rs [] [] [] [] 0))).
  { pose proof (sectors_loop c ev st rs [] (ri_calo (rs_ins st)) (ri_em (rs_ins st)) (ri_tk (rs_ins st)) (ri_mu12 (rs_ins st))) as G. rewrite H12 in G. cbn [length app] in G.
    rewrite <- G by (assumption || reflexivity). change N_IN_SECTORS with 12%nat. rewrite (start_upto c st FC FE FT). reflexivity. }
  change (negative_calo ev) with (existsb neg_sector rs).
  assert (E0 : reg_body c junk work test st ev = do st1 <- foldM (reg_sector c ev) (seq 0 N_IN_SECTORS) (Some st);
    match st1 with None => Ok (st, Some 3) | Some st1 => do st2 <- reg_muons c st1; match st2 with None => Ok (st, Some 3) | Some st2 => do st3 <- reg_run c (junk test) (work test) st2; do errors <- reg_compare c st3; Ok (st3, if errors =? 0 then None else Some 1) end end).
  { unfold reg_body. fold rs. rewrite H12. reflexivity. }
  rewrite E0, B. clear E0 B. destruct (existsb neg_sector rs) eqn:EN; [reflexivity|]. cbn [bind].
  set (st1 := filled_upto c st rs [] [] [] [] 0).
  assert (A12 : ri_mu12 (rs_ins st1) = map (s_mu (NMU c)) rs) by (cbn; apply app_nil_r).
  destruct (muons_ok c st1) as (mu & DM & HK & ->); [rewrite A12; apply arrays_dims; [exact H12|intros; apply length_filled]|exact I5|exact FM|]. cbn [bind].
  unfold reg_run. cbn [rs_calo rs_em rs_tk rs_mu rs_ins rs_tests].
  set (fc := map (fun r => map r_of_had (s_calo r)) rs). set (fe := map (fun r => map r_of_em (s_em r)) rs). set (ft := flat_map tk_fibres rs).
  assert (P1 : rs_calo st1 = mkChan fc fc (ch_reg (rs_calo st)) (ch_regr (rs_calo st)) (ch_static (rs_calo st))) by (unfold st1, filled_upto; cbn [rs_calo repeat]; rewrite !app_nil_r; reflexivity).
  assert (P2 : rs_em st1 = mkChan fe fe (ch_reg (rs_em st)) (ch_regr (rs_em st)) (ch_static (rs_em st))) by (unfold st1, filled_upto; cbn [rs_em repeat]; rewrite !app_nil_r; reflexivity).
  assert (P3 : rs_tk st1 = mkChan ft ft (ch_reg (rs_tk st)) (ch_regr (rs_tk st)) (ch_static (rs_tk st))) by (unfold st1, filled_upto; cbn [rs_tk Nat.mul Nat.add repeat]; rewrite !app_nil_r; reflexivity).
  assert (P4 : rs_ins st1 = mkRins (map s_calo rs) (map s_em rs) (map s_tk rs) (map (s_mu (NMU c)) rs) (ri_mu (rs_ins st))) by (unfold st1, filled_upto; cbn [rs_ins]; rewrite !app_nil_r; reflexivity).
  assert (P5 : rs_mu st1 = rs_mu st) by reflexivity. assert (P6 : rs_tests st1 = rs_tests st) by reflexivity.
  rewrite P1, P2, P3, P4, P5, P6. cbn [ch_fib ch_fibr ch_reg ch_regr ch_static ri_calo ri_em ri_tk ri_mu12].
  assert (DC : dims2 12 15 fc) by (apply arrays_dims; [exact H12|intros; rewrite map_length; apply length_filled]).
  destruct DC as [LC LC']. destruct HC as (C1 & C2 & C3).
  assert (LE : forall fib, In fib fc -> (15 <= length fib)%nat) by (intros a Ha; rewrite (LC' a Ha); lia).
  pose proof (c38_hadcalo had_d c (junk test) (work test) fc (ch_reg (rs_calo st)) (HW test) C1 LC LE) as C38.
  rewrite Nat.leb_antisym in C38. destruct (NCALO c <? 7)%nat eqn:E7; cbn [negb] in C38; [rewrite C38; reflexivity|]. clear C38. apply Nat.ltb_ge in E7.
  assert (XC : exists out static, regionize_hadcalo c had_d (junk test) (work test) fc (ch_reg (rs_calo st)) = Ok (out, repeat [] 12) /\
     regionize_hadcalo_ref c had_d (ch_static (rs_calo st)) fc (ch_regr (rs_calo st)) = Ok (out, repeat [] 12, static) /\ dims3 12 3 7 static /\ dims2 18 (NCALO c) out /\
     forall ie ip, (ie < 3)%nat -> (ip < 6)%nat -> region_spec had_d 7 (NCALO c) (arrivals 1 15 fc) ie ip (nth (6 * ie + ip) out [])).
  { destruct (regionize_ref_spec had_d 15 7 (NCALO c) 1 (ch_static (rs_calo st)) fc (ch_regr (rs_calo st)) C3 C2 LC LE) as (out & static & E & DS & DO & SP).
    exists out, static. change (15 / 1)%nat with 15%nat in *. rewrite (skip_all 15), LC in E by exact LC'. split; [|auto].
    apply (hw_is_ref had_d 15 7 (NCALO c) (junk test) (work test) fc (ch_reg (rs_calo st)) (ch_static (rs_calo st)) (ch_regr (rs_calo st)) out (repeat [] 12) static); try assumption. apply HW. }
  destruct XC as (oc & sc & -> & -> & DSC & DOC & SPC). cbn [bind].
  destruct (twice_ref 0 12 7 (NEMCALO c) 1 fe (mkChan fe fe (ch_reg (rs_em st)) (ch_regr (rs_em st)) (ch_static (rs_em st))))
    as (oe & se & EE & DSE & DOE & SPE); [exact HE|reflexivity..|unfold fe; rewrite map_length; exact H12|intros a Ha; apply in_map_iff in Ha as (r & <- & _); rewrite map_length; apply length_filled|].
  unfold regionize_emcalo_ref. change NEMCALO_PER_SECTOR with 12%nat. change NEMCALO_PER_SECTOR_PER_ETA with 7%nat. rewrite EE. cbn [bind].
  destruct (twice_ref tk_d 20 9 (NTRACK c) 2 ft (mkChan ft ft (ch_reg (rs_tk st)) (ch_regr (rs_tk st)) (ch_static (rs_tk st))))
    as (ot & s_t & ET & DST & DOT & SPT); [exact HT|reflexivity..|unfold ft, tk_fibres; rewrite len2; lia| |].
  { intros a Ha. apply in_flat_map in Ha as (r & _ & Ha). assert (L20 : length (map r_of_tk (s_tk r)) = 20%nat) by (rewrite map_length; apply length_filled).
    destruct Ha as [<-|[<-|[]]]; apply fill_half; (exact L20 || lia). }
  unfold regionize_track_ref. change NTRACK_PER_SECTOR with 20%nat. change NTRACK_PER_SECTOR_PER_ETA with 9%nat. rewrite ET. cbn [bind].
  destruct DM as [LM LM']. destruct (twice_muon 0 (NMU c) mu (mkChan mu mu (ch_reg (rs_mu st)) (ch_regr (rs_mu st)) (ch_static (rs_mu st)))) as (om & sm & EM & DSM & DOM & SPM); [exact HM|reflexivity..|exact LM|exact LM'|].
  rewrite EM. cbn [bind]. cbn [ch_reg].
  match goal with |- exists _ _, (do errors <- reg_compare c ?s; _) = _ /\ _ => set (st3 := s) end.
  rewrite (compare_same c st3) by (reflexivity || assumption). cbn [bind Z.eqb]. exists st3. eexists. split; [reflexivity|].
  assert (DR : dims2 4 (NMU c) (map (map mu_of_r) mu)) by (apply dims2_map; split; assumption).
  assert (DA : dims2 12 15 (map s_calo rs) /\ dims2 12 12 (map s_em rs) /\ dims2 12 20 (map s_tk rs) /\ dims2 12 (NMU c) (map (s_mu (NMU c)) rs)) by (repeat split; try (rewrite map_length; exact H12); intros a Ha; apply in_map_iff in Ha as (r & <- & _); apply length_filled).
  destruct DA as (DA1 & DA2 & DA3 & DA4).
  split.
  { unfold ready, memory_ok, ins_ok, chan_ok, empty_fibres, st3. cbn [rs_ins rs_calo rs_em rs_tk rs_mu ri_calo ri_em ri_tk ri_mu12 ri_mu ch_reg ch_regr ch_static ch_fib ch_fibr]. tauto. }
  split; [reflexivity|]. unfold test_of. cbn [rt_ins ri_calo ri_em ri_tk ri_mu12 ri_mu rt_calo rt_em rt_tk rt_mu].
  split; [reflexivity|]. split; [reflexivity|]. split; [reflexivity|]. split; [reflexivity|].
  split. { split; [exact DR|]. intros m Hm. specialize (HK m Hm). cbv beta zeta in *. rewrite A12 in HK. rewrite nth_map_map, map_map. rewrite (map_ext _ (fun x => x)), map_id by apply rr_mu. exact HK. }
  assert (ONE : forall {T A} (f : T -> robj A) n (g : Region -> list T), (forall r, length (g r) = n) -> forall s, (s < 12)%nat -> arrivals 1 n (map (fun r => map f (g r)) rs) s = map f (nth s (map g rs) [])).
  { intros T A f n g HL s Hs. rewrite arrivals_one. rewrite <- (map_map g (map f)). rewrite nth_map_map. apply firstn_all2. rewrite map_length.
    destruct (nth_in_or_default s (map g rs) []) as [Hin| ->]; [|cbn; lia]. apply in_map_iff in Hin as (r & <- & _). rewrite HL. lia. }
  split; [apply (regions_of_out r_of_had had_of_r had_d 7 (NCALO c) 1 15 _ fc); [apply rr_had|exact DOC|apply ONE; intros; apply length_filled|exact SPC]|].
  split; [apply (regions_of_out r_of_em em_of_r 0 7 (NEMCALO c) 1 (12 / 1) _ fe); [apply rr_em|exact DOE|apply ONE; intros; apply length_filled|exact SPE]|].
  split; [apply (regions_of_out r_of_tk tk_of_r tk_d 9 (NTRACK c) 2 (20 / 2) _ ft); [apply rr_tk|exact DOT| |exact SPT]|].
  { intros s Hs. pose proof (arrivals_half r_of_tk (map s_tk rs) s) as AH. rewrite map_length in AH. rewrite <- AH; [|lia|intros a Ha; apply in_map_iff in Ha as (r & <- & _); apply length_filled].
    f_equal. rewrite flat_map_concat_map, map_map, <- flat_map_concat_map. reflexivity. }
  split; [apply dims2_map; exact DOM|]. intros wk rg H1 H2. destruct (SPM wk rg H1 H2) as (s' & Es'). exists s'. rewrite !(map_map_id r_of_mu mu_of_r) by apply rr_mu. exact Es'.
Qed.

(** ** The whole run *)
Lemma kept_fits e : event_wf e -> Forall region_fits (ev_regions (event_kept e)).
Proof.
  intros (_ & _ & _ & _ & H & _). cbn [event_kept ev_regions]. apply Forall_map. eapply Forall_impl; [|exact H]. intros r (_ & (C & F1) & (_ & F2) & (_ & F3) & (_ & F4)).
  unfold region_fits, region_kept, fits in *. cbn [rg_calo rg_emcalo rg_track rg_muon]. rewrite !map_length. repeat split; try assumption.
  apply Forall_map. eapply Forall_impl; [|exact C]. intros cl (P & _). exact P.
Qed.
Lemma kept_twelve e : twelve (event_kept e) = twelve e. Proof. unfold twelve, event_kept. cbn [ev_regions]. rewrite map_length. reflexivity. Qed.
Lemma existsb_map' {S T} (p : T -> bool) (f : S -> T) l : existsb p (map f l) = existsb (fun x => p (f x)) l.
Proof. induction l; cbn; congruence. Qed.
Lemma existsb_eq {T} (p q : T -> bool) l : (forall x, p x = q x) -> existsb p l = existsb q l.
Proof. intros H. induction l; cbn; congruence. Qed.
Lemma kept_negative e : negative_calo (event_kept e) = negative_calo e.
Proof.
  unfold negative_calo, event_kept. cbn [ev_regions]. rewrite existsb_map'. apply existsb_eq. intros r. unfold region_kept. cbn [rg_calo]. rewrite firstn_map, existsb_map'. reflexivity.
Qed.
Lemma kept_test c e t : test_of c (event_kept e) t -> test_of c e t.
Proof.
  assert (E : calo_arrays (event_kept e) = calo_arrays e /\ em_arrays (event_kept e) = em_arrays e /\ tk_arrays (event_kept e) = tk_arrays e /\ mu_arrays (NMU c) (event_kept e) = mu_arrays (NMU c) e).
  { unfold calo_arrays, em_arrays, tk_arrays, mu_arrays, event_kept. cbn [ev_regions]. rewrite !map_map. unfold region_kept. cbn [rg_calo rg_emcalo rg_track rg_muon].
    repeat split; apply map_ext; intros r; try reflexivity; apply filled_ext; reflexivity. }
  destruct E as (E1 & E2 & E3 & E4). unfold test_of. cbv zeta. rewrite E1, E2, E3, E4. exact (fun H => H).
Qed.

Lemma walk_ok c junk work evs : (forall t, dims3 12 3 7 (work t)) -> Forall event_wf evs -> forall test st, ready c st ->
  match verdict (NCALO c) evs with
  | UB k => event_walk (reg_body c junk work) test st (map event_kept evs) = UB k
  | Ok code => exists st1 tests, event_walk (reg_body c junk work) test st (map event_kept evs) = Ok (st1, if code =? 0 then None else Some code) /\
      rs_tests st1 = rs_tests st ++ tests /\ Forall2 (test_of c) (leading evs) tests
  end.
Proof.
  intros HW. induction evs as [|e evs IH]; intros HE test st HR.
  { cbn. exists st, []. rewrite app_nil_r. auto. }
  inversion HE as [|? ? He Hes]; subst. cbn [verdict leading map event_walk]. destruct (twelve e) eqn:E12; cbn [negb].
  2:{ exists st, []. rewrite app_nil_r. split; [|auto]. unfold reg_body. rewrite <- kept_twelve in E12. unfold twelve in E12. change N_IN_SECTORS with 12%nat. rewrite E12. reflexivity. }
  pose proof (body_ok c junk work test st (event_kept e) HW HR ltac:(rewrite kept_twelve; exact E12) (kept_fits e He)) as B. rewrite kept_negative in B.
  destruct (negative_calo e); [rewrite B; reflexivity|]. destruct (NCALO c <? 7)%nat; [rewrite B; reflexivity|]. destruct B as (st1 & t & -> & HR1 & ET & HT). cbn [bind].
  specialize (IH Hes (S test) st1 HR1). destruct (verdict (NCALO c) evs) as [code|k]; [|exact IH]. destruct IH as (st2 & tests & -> & E2 & F2).
  exists st2, (t :: tests). split; [reflexivity|]. rewrite E2, ET, <- app_assoc. split; [reflexivity|]. constructor; [apply kept_test; exact HT|exact F2].
Qed.

Lemma start_ready c st0 : memory_ok c st0 -> ready c (reg_start (rs_ins st0) (rs_calo st0) (rs_em st0) (rs_tk st0) (rs_mu st0)).
Proof. unfold ready, memory_ok, reg_start, chan_ok, empty_fibres. cbn. tauto. Qed.

Lemma c58_main c junk work g st0 evs : memory_ok c st0 -> (forall t, dims3 12 3 7 (work t)) -> Forall event_wf evs ->
  match verdict (NCALO c) (firstn 50 evs) with
  | UB k => reg_main c (Ok true) junk work g st0 (Some (dump evs)) = UB k
  | Ok code => exists tests, reg_main c (Ok true) junk work g st0 (Some (dump evs)) = Ok (code, tests) /\ Forall2 (test_of c) (leading (firstn 50 evs)) tests
  end.
Proof.
  intros HM HW HE. unfold reg_main. rewrite open_file. cbn [bind]. rewrite (event_loop_walk _ evs) by (exact HE || reflexivity). change REG_NTEST with 50%nat.
  assert (HF : Forall event_wf (firstn 50 evs)). { apply Forall_forall. intros x Hx. apply (proj1 (Forall_forall _ _) HE). rewrite <- (firstn_skipn 50 evs). apply in_or_app. now left. }
  pose proof (walk_ok c junk work (firstn 50 evs) HW HF 1 _ (start_ready c st0 HM)) as G.
  destruct (verdict (NCALO c) (firstn 50 evs)) as [code|k]; [|rewrite G; reflexivity]. destruct G as (st1 & tests & -> & ET & F). cbn [bind]. exists tests.
  split; [|exact F]. rewrite ET. cbn [reg_start rs_tests app]. do 2 f_equal. destruct (Z.eqb_spec code 0); [lia|reflexivity].
Qed.
Lemma verdict_codes n evs code : verdict n evs = Ok code -> code = 0 \/ code = 2.
Proof. induction evs as [|e evs IH]; cbn [verdict]; [intros [= <-]; auto|]. destruct (negb (twelve e)); [intros [= <-]; auto|]. destruct (negative_calo e); [discriminate|]. destruct (n <? 7)%nat; [discriminate|]. exact IH. Qed.
Lemma verdict_pass n evs : (7 <= n)%nat -> Forall (fun e => twelve e = true /\ negative_calo e = false) evs -> verdict n evs = Ok 0 /\ leading evs = evs.
Proof.
  intros Hn H. induction H as [|e evs [H1 H2] _ [IH1 IH2]]; [split; reflexivity|]. cbn [verdict leading]. rewrite H1, H2. cbn [negb]. destruct (Nat.ltb_spec n 7); [lia|]. rewrite IH2. auto.
Qed.
