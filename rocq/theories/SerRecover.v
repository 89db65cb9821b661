(** What can be read back from the pattern files (C45), and the CTP7 file (C46). *)
From Coq Require Import Ascii String.
From Verif Require Import Base BaseFacts Data TabFacts Serializer SpecSer SerFacts SerText SerTextFacts SerProofs.
Local Open Scope list_scope.

Local Opaque MP7_NCHANN.

Lemma nth_map_seq {A} n (f : nat -> A) i d : (i < n)%nat -> nth i (map f (seq 0 n)) d = f i.
Proof. apply nth_tab. Qed.

Lemma pos_le_reach nmux ne k : (1 <= nmux)%nat -> ((k * (ne + 1)) mod nmux + 1 <= reach nmux ne)%nat.
Proof.
  intros H. unfold reach. set (g := Nat.gcd (ne + 1) nmux).
  assert (G1 : Nat.divide g (ne + 1)) by apply Nat.gcd_divide_l. assert (G2 : Nat.divide g nmux) by apply Nat.gcd_divide_r.
  destruct G2 as [u Hu]. assert (GP : (1 <= g)%nat) by (destruct g; [lia|lia]).
  assert (G3 : Nat.divide g ((k * (ne + 1)) mod nmux)).
  { rewrite Nat.mod_eq by lia. apply Nat.divide_sub_r; [apply Nat.divide_mul_r; exact G1|]. apply Nat.divide_mul_l. exists u. exact Hu. }
  destruct G3 as [v Hv]. pose proof (Nat.mod_upper_bound (k * (ne + 1)) nmux ltac:(lia)) as B. rewrite Hv in *.
  assert (v < u)%nat by nia. nia.
Qed.

Lemma pos_reached nmux ne : (1 <= nmux)%nat -> exists k, (k < nmux)%nat /\ ((k * (ne + 1)) mod nmux + 1 = reach nmux ne)%nat.
Proof.
  intros H. unfold reach. set (a := (ne + 1)%nat). set (g := Nat.gcd a nmux).
  assert (GL : (g <= nmux)%nat) by (apply Nat.divide_pos_le; [lia|apply Nat.gcd_divide_r]).
  assert (GP : (1 <= g)%nat) by (destruct (Nat.eq_dec g 0) as [E|E]; [unfold g in E; apply Nat.gcd_eq_0_l in E; unfold a in E; lia|lia]).
  destruct (Nat.gcd_bezout_pos a nmux ltac:(unfold a; lia)) as (u & v & E). fold g in E.
  exists (((nmux - 1) * u) mod nmux)%nat. split; [apply Nat.mod_upper_bound; lia|].
  rewrite Nat.mul_mod_idemp_l by lia. replace ((nmux - 1) * u * a)%nat with ((nmux - g) + (g - 1 + (nmux - 1) * v) * nmux)%nat.
  - rewrite Nat.mod_add by lia. rewrite Nat.mod_small by lia. lia.
  - replace ((nmux - 1) * u * a)%nat with ((nmux - 1) * (u * a))%nat by lia. rewrite E. clearbody g. clear - GL GP.
    destruct g as [|g]; [lia|]. replace nmux with (S g + (nmux - S g))%nat by lia. generalize (nmux - S g)%nat. intros d.
    replace (S g + d - 1)%nat with (g + d)%nat by lia. replace (S g + d - S g)%nat with d by lia. replace (S g - 1)%nat with g by lia. nia.
Qed.

Section recover.
Variables (nmux : nat) (nempty : Z) (nlinks : nat).
Let nl := links nmux nlinks.
Let ne := Z.abs_nat nempty.
Let nch := (MP7_NCHANN / nmux)%nat.
Hypothesis HC : mux_ok nmux nempty nlinks.
Let H1 : (1 <= nmux)%nat := proj1 HC.
Lemma NM : (nch * nmux = MP7_NCHANN)%nat.
Proof. symmetry. apply mux_div; apply HC. Qed.
Lemma NP : (1 <= nch)%nat.
Proof. pose proof NM. pose proof NCH_pos. destruct nch; lia. Qed.

(** where word j of event k is *)
Definition word_at (file : list line) (k j : nat) : Z :=
  let p := (k * (ne + 1))%nat in nth (p mod nmux * nch + j / nmux) (nth (p / nmux * nmux + j mod nmux) (map snd file) []) 0.

Lemma word_recovered events k j : (k < length events)%nat -> (j < MP7_NCHANN)%nat -> (reach nmux ne * nch <= nl)%nat ->
  word_at (closed_file nmux nempty nlinks events) k j = nth j (nth k events []) 0.
Proof.
  intros Hk Hj HR. unfold word_at. rewrite (closed_words nmux nempty nlinks HC). pose proof NM as NM. pose proof NP as NP.
  set (p := (k * (ne + 1))%nat). pose proof (pos_le_reach nmux ne k H1) as PR. fold p in PR.
  assert (CB : (j / nmux < nch)%nat) by (apply Nat.div_lt_upper_bound; lia).
  assert (TB : (j mod nmux < nmux)%nat) by (apply Nat.mod_upper_bound; lia).
  assert (MB : (p mod nmux < nmux)%nat) by (apply Nat.mod_upper_bound; lia).
  assert (PN : (p < npatterns ne events)%nat) by (unfold p, npatterns; nia).
  set (f := (p / nmux * nmux + j mod nmux)%nat).
  assert (FD : (f / nmux = p / nmux)%nat) by (symmetry; apply (Nat.div_unique f nmux (p / nmux) (j mod nmux)); unfold f; lia).
  assert (FM : (f mod nmux = j mod nmux)%nat) by (symmetry; apply (Nat.mod_unique f nmux (p / nmux) (j mod nmux)); unfold f; lia).
  assert (FB : (f < nframes nmux nempty events)%nat).
  { rewrite (nframes_eq nmux nempty nlinks HC). fold ne. set (N := npatterns ne events) in *. pose proof (Nat.div_mod N nmux ltac:(lia)) as D. pose proof (Nat.mod_upper_bound N nmux ltac:(lia)).
    pose proof (Nat.div_mod p nmux ltac:(lia)) as D2. destruct (Nat.eqb_spec (N mod nmux) 0).
    - assert (p / nmux < N / nmux)%nat by (apply Nat.div_lt_upper_bound; [|rewrite e, Nat.add_0_r in D; rewrite <- D; exact PN]; clear -H1; clearbody H1; lia). unfold f. pose proof (Nat.mul_le_mono_r _ _ nmux H0) as X. rewrite Nat.mul_succ_l, (Nat.mul_comm (N / nmux)) in X. eapply Nat.lt_le_trans; [|exact X]. apply Nat.add_lt_mono_l. exact TB.
    - assert (p / nmux <= N / nmux)%nat by (apply Nat.div_le_mono; lia). unfold f. pose proof (Nat.mul_le_mono_r _ _ nmux H0) as X. rewrite (Nat.mul_comm (N / nmux)) in X. apply Nat.add_le_lt_mono; [exact X|exact TB]. }
  rewrite nth_map_seq by exact FB.
  unfold clock. fold nl. set (w := (p mod nmux * nch + j / nmux)%nat).
  assert (WB : (w < nl)%nat).
  { unfold w. pose proof (Nat.mul_le_mono_r _ _ nch PR) as X. rewrite Nat.mul_add_distr_r, Nat.mul_1_l in X. clear -X CB HR. generalize dependent (p mod nmux * nch)%nat. generalize dependent (reach nmux ne * nch)%nat. generalize dependent (j / nmux)%nat. clearbody nl nch. clear. lia. }
  rewrite nth_map_seq by exact WB.
  unfold muxed. fold nch ne.
  assert (WD : (w / nch = p mod nmux)%nat) by (symmetry; apply (Nat.div_unique w nch (p mod nmux) (j / nmux)); unfold w; lia).
  assert (WM : (w mod nch = j / nmux)%nat) by (symmetry; apply (Nat.mod_unique w nch (p mod nmux) (j / nmux)); unfold w; lia).
  rewrite FD, FM, WD, WM.
  replace (p / nmux * nmux + p mod nmux)%nat with p by (rewrite (Nat.mul_comm (p / nmux)); apply Nat.div_mod; clear -H1; clearbody H1; lia).
  replace (j / nmux * nmux + j mod nmux)%nat with j by (rewrite (Nat.mul_comm (j / nmux)); apply Nat.div_mod; clear -H1; clearbody H1; lia).
  unfold pattern. destruct (Nat.ltb_spec p (npatterns ne events)); [|lia].
  replace (p mod (ne + 1))%nat with 0%nat by (unfold p; rewrite Nat.mod_mul by lia; reflexivity). cbn [Nat.eqb].
  unfold p. rewrite Nat.div_mul by lia. reflexivity.
Qed.

(** every line is printable *)
Lemma pattern_range magic events p j : Forall event_ok events -> inU 32 (pattern ne magic events p j).
Proof.
  intros HE. unfold pattern. assert (Z0 : inU 32 0) by (unfold inU; lia). destruct (p <? npatterns ne events)%nat; [|exact Z0].
  destruct (p mod (ne + 1) =? 0)%nat.
  - destruct (nth_in_or_default (p / (ne + 1)) events []) as [I|E]; [|rewrite E; destruct j; exact Z0].
    rewrite Forall_forall in HE. destruct (HE _ I) as [_ F]. destruct (nth_in_or_default j (nth (p / (ne + 1)) events []) 0) as [I2|E]; [|rewrite E; exact Z0].
    rewrite Forall_forall in F. apply F. exact I2.
  - unfold filler. destruct magic; [|exact Z0]. unfold inU. change (2 ^ 32) with 4294967296. lia.
Qed.

Lemma closed_ok events : Forall event_ok events -> few nempty events -> Forall line_ok (closed_file nmux nempty nlinks events).
Proof.
  intros HE HF. assert (C : forall f, Forall (inU 32) (clock nmux (links nmux nlinks) (pattern (Z.abs_nat nempty) (nempty <? 0) events) f)).
  { intros f. apply Forall_forall. intros x Hx. unfold clock in Hx. apply in_map_iff in Hx. destruct Hx as (w & <- & _). unfold muxed. apply pattern_range. exact HE. }
  assert (FB : Z.of_nat (npatterns (Z.abs_nat nempty) events) < 2 ^ 32) by exact HF.
  unfold closed_file. apply Forall_app. split.
  - apply Forall_forall. intros l Hl. apply in_map_iff in Hl. destruct Hl as (f & <- & Hf). apply in_seq in Hf. split; [|apply C]. cbn [fst frame].
    set (N := npatterns (Z.abs_nat nempty) events) in *. pose proof (Nat.mul_div_le N nmux ltac:(lia)). lia.
  - destruct (_ =? 0)%nat; [constructor|]. apply Forall_forall. intros l Hl. apply in_map_iff in Hl. destruct Hl as (t & <- & _). split; [|apply C].
    cbn [fst]. apply (wrapU_range 32). lia.
Qed.

Variable board : string.
Hypothesis HB : nonl (chars board).
Definition the_text (events : list (list Z)) : list ascii := mp7_text board nl (closed_file nmux nempty nlinks events).

Lemma nl_small : Z.of_nat nl < 2 ^ 32.
Proof. assert (nl <= MP7_NCHANN)%nat by apply HC. Transparent MP7_NCHANN. unfold MP7_NCHANN in *. Opaque MP7_NCHANN. lia. Qed.

Lemma text_injective ev1 ev2 : Forall event_ok ev1 -> Forall event_ok ev2 -> few nempty ev1 -> length ev1 = length ev2 -> (reach nmux ne * nch <= nl)%nat ->
  the_text ev1 = the_text ev2 -> ev1 = ev2.
Proof.
  intros E1 E2 F1 L R T.
  assert (F2 : few nempty ev2) by (unfold few, npatterns in *; rewrite <- L; exact F1).
  assert (X : closed_file nmux nempty nlinks ev1 = closed_file nmux nempty nlinks ev2).
  { apply (f_equal mp7_read) in T. unfold the_text in T. rewrite !mp7_read_text in T by (try exact HB; try exact nl_small; apply closed_ok; assumption). injection T as T. exact T. }
  apply nth_ext with (d := []) (d' := []); [exact L|]. intros k Hk.
  assert (K1 : length (nth k ev1 []) = MP7_NCHANN) by (rewrite Forall_forall in E1; apply E1; apply nth_In; lia).
  assert (K2 : length (nth k ev2 []) = MP7_NCHANN) by (rewrite Forall_forall in E2; apply E2; apply nth_In; lia).
  apply nth_ext with (d := 0) (d' := 0); [congruence|]. intros j Hj. rewrite K1 in Hj.
  rewrite <- (word_recovered ev1 k j), <- (word_recovered ev2 k j) by (try assumption; lia). rewrite X. reflexivity.
Qed.

(** the converse: with fewer links something is lost *)
Definition blank : list Z := repeat 0 MP7_NCHANN.
Lemma blank_ok : event_ok blank.
Proof. split; [apply repeat_length|]. apply Forall_forall. intros x Hx. apply repeat_spec in Hx. subst. unfold inU. lia. Qed.

Lemma word_lost : (nl < reach nmux ne * nch)%nat -> exists ev1 ev2, Forall event_ok ev1 /\ Forall event_ok ev2 /\ length ev1 = length ev2 /\ (length ev1 <= nmux)%nat /\ ev1 <> ev2 /\
  closed_file nmux nempty nlinks ev1 = closed_file nmux nempty nlinks ev2.
Proof.
  intros HL. destruct (pos_reached nmux ne H1) as (k & Hk & Ek). pose proof NM as NM. pose proof NP as NP. pose proof NCH_pos as CP.
  set (j0 := ((nch - 1) * nmux)%nat). assert (J0 : (j0 < MP7_NCHANN)%nat) by (unfold j0; nia).
  set (odd := upd blank j0 1). set (ev1 := repeat blank k ++ [blank]). set (ev2 := repeat blank k ++ [odd]).
  assert (LB : length blank = MP7_NCHANN) by apply repeat_length.
  assert (OK : event_ok odd).
  { split; [unfold odd; rewrite length_upd; exact LB|]. apply Forall_nth_error. intros i x Hx. destruct (Nat.eq_dec i j0) as [->|N0].
    - unfold odd in Hx. rewrite nth_error_upd_eq in Hx by lia. injection Hx as <-. unfold inU. lia.
    - unfold odd in Hx. rewrite nth_error_upd_ne in Hx by auto. destruct blank_ok as [_ F]. rewrite Forall_forall in F. apply F. eapply nth_error_In. exact Hx. }
  assert (R : Forall event_ok (repeat blank k)) by (apply Forall_forall; intros x Hx; apply repeat_spec in Hx; subst; apply blank_ok).
  exists ev1, ev2. split; [apply Forall_app; split; [exact R|constructor; [apply blank_ok|constructor]]|].
  split; [apply Forall_app; split; [exact R|constructor; [exact OK|constructor]]|].
  assert (L1 : length ev1 = S k) by (unfold ev1; rewrite app_length, repeat_length; cbn; lia).
  assert (L2 : length ev2 = S k) by (unfold ev2; rewrite app_length, repeat_length; cbn; lia).
  split; [congruence|]. split; [lia|]. split.
  { intros E. apply app_inv_head in E. injection E as E. apply (f_equal (fun l => nth j0 l 0)) in E. unfold odd in E. rewrite nth_upd_eq in E by lia.
    unfold blank in E. rewrite nth_repeat in E. discriminate. }
  assert (NE : npatterns (Z.abs_nat nempty) ev1 = npatterns (Z.abs_nat nempty) ev2) by (unfold npatterns; congruence).
  (* the two streams differ in one word only *)
  assert (PE : forall p j, (p, j) <> ((k * (ne + 1))%nat, j0) -> pattern ne (nempty <? 0) ev1 p j = pattern ne (nempty <? 0) ev2 p j).
  { intros p j D. unfold pattern. fold ne in NE. rewrite NE. destruct (p <? npatterns ne ev2)%nat; [|reflexivity].
    destruct (Nat.eqb_spec (p mod (ne + 1)) 0) as [E0|E0]; [|reflexivity].
    destruct (Nat.eq_dec (p / (ne + 1)) k) as [Ep|Ep].
    - rewrite Ep. unfold ev1, ev2. rewrite !app_nth2 by (rewrite repeat_length; lia). rewrite repeat_length, Nat.sub_diag. cbn [nth].
      unfold odd. rewrite nth_upd_ne; [reflexivity|]. intros EJ. apply D. f_equal; [|auto]. pose proof (Nat.div_mod p (ne + 1) ltac:(lia)). rewrite Ep, E0 in H. lia.
    - unfold ev1, ev2. destruct (Nat.lt_ge_cases (p / (ne + 1)) k).
      + rewrite !app_nth1 by (rewrite repeat_length; lia). reflexivity.
      + rewrite !app_nth2 by (rewrite repeat_length; lia). rewrite repeat_length. destruct (p / (ne + 1) - k)%nat as [|[|q]] eqn:EQ; [lia|reflexivity|reflexivity]. }
  assert (CE : forall f, clock nmux (links nmux nlinks) (pattern (Z.abs_nat nempty) (nempty <? 0) ev1) f = clock nmux (links nmux nlinks) (pattern (Z.abs_nat nempty) (nempty <? 0) ev2) f).
  { intros f. unfold clock. apply map_ext_in. intros w Hw. apply in_seq in Hw. fold nl in Hw. unfold muxed. fold nch ne. apply PE. intros E. injection E as EP EJ.
    assert (LM : (nl <= MP7_NCHANN)%nat) by apply HC.
    assert (WB : (w / nch < nmux)%nat) by (apply Nat.div_lt_upper_bound; lia).
    assert (WM : ((k * (ne + 1)) mod nmux = w / nch)%nat) by (symmetry; apply (Nat.mod_unique _ nmux (f / nmux) (w / nch)); lia).
    assert (FMB : (f mod nmux < nmux)%nat) by (apply Nat.mod_upper_bound; lia).
    assert (WC : (w mod nch = nch - 1)%nat).
    { assert (X : (w mod nch = (w mod nch * nmux + f mod nmux) / nmux)%nat) by (apply (Nat.div_unique _ nmux _ (f mod nmux)); lia).
      rewrite X, EJ. unfold j0. apply Nat.div_mul. lia. }
    pose proof (Nat.div_mod w nch ltac:(lia)) as DW. rewrite WM in Ek. rewrite WC in DW. rewrite <- Ek in HL. clear - DW HL Hw NP. revert DW HL. generalize (w / nch)%nat. intros q DW HL. nia. }
  unfold closed_file. rewrite NE. f_equal.
  - apply map_ext. intros f. unfold frame. f_equal. apply CE.
  - destruct (_ =? 0)%nat; [reflexivity|]. apply map_ext. intros t. f_equal. apply CE.
Qed.
End recover.

(** ** CTP7 *)
Lemma ctp7_pads n op mu i L k : (i <= 1023)%nat ->
  let last := Nat.min 1024 (i + 1 + k) in
  fold_left (fun st _ => ctp7_pad n st) (seq 0 k) (i, mkCtp7 op mu (i + 1) L) =
  ((last - 1)%nat, mkCtp7 op mu last (L ++ map (fun x => (Z.of_nat x, repeat 0 n)) (seq (i + 1) (last - (i + 1))))).
Proof.
  intros Hi last. subst last. induction k as [|k IH].
  - cbn [seq fold_left]. replace (Nat.min 1024 (i + 1 + 0)) with (i + 1)%nat by lia. rewrite Nat.sub_diag. cbn [seq map]. rewrite app_nil_r. f_equal. lia.
  - rewrite seq_S, fold_left_app, IH. cbn [fold_left]. unfold ctp7_pad. cbn [c_ipattern c_open c_nmux c_lines].
    destruct (Nat.ltb_spec 1023 (Nat.min 1024 (i + 1 + k))).
    + replace (Nat.min 1024 (i + 1 + S k)) with (Nat.min 1024 (i + 1 + k)) by lia. reflexivity.
    + replace (S (Nat.min 1024 (i + 1 + k) - 1)) with (i + 1 + k)%nat by lia. replace (S (Nat.min 1024 (i + 1 + k))) with (Nat.min 1024 (i + 1 + S k)) by lia.
      f_equal; [lia|]. f_equal. rewrite <- app_assoc. f_equal.
      replace (Nat.min 1024 (i + 1 + S k) - (i + 1))%nat with (S (Nat.min 1024 (i + 1 + k) - (i + 1))) by lia.
      rewrite seq_S, map_app. f_equal. cbn [map]. f_equal. f_equal. lia.
Qed.

Lemma mapM_firstn (e : list Z) n : (n <= length e)%nat -> mapM (rd e) (seq 0 n) = Ok (firstn n e).
Proof.
  intros H. rewrite (mapM_Ok (rd e) (fun i => nth i e 0)) by (intros x Hx; apply in_seq in Hx; apply rd_Ok; lia). f_equal.
  apply nth_error_ext. intros i. rewrite nth_error_map', nth_error_seq. destruct (Nat.ltb_spec i n) as [G|G].
  - cbn [option_map Nat.add]. destruct (nth_error_lt e i ltac:(lia)) as [x Ex]. rewrite (nth_error_nth _ _ _ Ex). rewrite <- Ex. clear - G. revert i n G. induction e as [|y e IH]; intros [|i] [|n] G; cbn; try reflexivity; try lia. apply IH. lia.
  - symmetry. apply nth_error_None. rewrite firstn_length. lia.
Qed.

Lemma ctp7_calls calls n s : (n <= length calls)%nat -> Forall (fun p => (snd p <= length (fst p))%nat) (firstn 171 calls) ->
  c_open s = true -> c_nmux s = 1%nat -> c_ipattern s = 0%nat -> c_lines s = [] ->
  exists s', foldM ctp7_event (firstn n calls) s = Ok s' /\ c_open s' = true /\ c_nmux s' = 1%nat /\ c_ipattern s' = Nat.min 1024 (6 * n) /\
    c_lines s' = map (ctp7_line calls) (seq 0 (Nat.min 1024 (6 * n))).
Proof.
  intros Hn HF O M I L. induction n as [|n IH].
  - exists s. cbn [firstn foldM]. rewrite Nat.mul_0_r. cbn [Nat.min seq map]. auto.
  - destruct IH as (s1 & E1 & O1 & M1 & I1 & L1); [lia|]. destruct (nth_error_lt calls n ltac:(lia)) as [[ev nc] Eev].
    assert (F : firstn (S n) calls = firstn n calls ++ [(ev, nc)]).
    { clear - Eev. revert calls Eev. induction n as [|n IH]; intros [|x l] E; try discriminate; cbn in *; [congruence|]. f_equal. apply IH. exact E. }
    rewrite F, foldM_app, E1. cbn [bind foldM]. unfold ctp7_event. rewrite O1, M1, I1. cbn [negb Nat.eqb].
    destruct (Nat.ltb_spec 1023 (Nat.min 1024 (6 * n))) as [G|G].
    + cbn [bind]. exists s1. split; [reflexivity|]. split; [assumption|]. split; [assumption|].
      replace (Nat.min 1024 (6 * S n)) with (Nat.min 1024 (6 * n)) by lia. split; assumption.
    + unfold ctp7_print. rewrite I1. destruct (Nat.ltb_spec 1023 (Nat.min 1024 (6 * n))); [lia|].
      assert (NB : (n <= 170)%nat) by lia.
      assert (NC : (nc <= length ev)%nat).
      { rewrite Forall_forall in HF. apply (HF (ev, nc)). apply nth_error_In with n. clear - Eev NB. assert (G : (n < 171)%nat) by lia. revert G. generalize 171%nat. clear NB. revert n Eev. induction calls as [|x l IH]; intros [|n] E [|k] G; cbn in *; try discriminate; try lia; [exact E|]. apply IH; [exact E|lia]. }
      rewrite mapM_firstn by exact NC. cbn [bind]. rewrite O1, M1. replace (Nat.min 1024 (6 * n)) with (6 * n)%nat by lia.
      replace (S (6 * n)) with (6 * n + 1)%nat by lia. rewrite ctp7_pads by lia. cbn [snd bind].
      replace (6 * n + 1 + 5)%nat with (6 * S n)%nat by lia.
      eexists. split; [reflexivity|]. cbn [c_open c_nmux c_ipattern c_lines]. split; [reflexivity|]. split; [reflexivity|]. split; [reflexivity|].
      rewrite L1. replace (Nat.min 1024 (6 * n)) with (6 * n)%nat by lia. set (last := Nat.min 1024 (6 * S n)).
      replace last with (6 * n + (1 + (last - (6 * n + 1))))%nat at 2 by lia. rewrite seq_app, map_app, <- app_assoc. f_equal.
      rewrite seq_app, map_app. f_equal.
      * cbn [seq map Nat.add]. f_equal. unfold ctp7_line. replace (6 * n / 6)%nat with n by (apply (Nat.div_unique _ 6 n 0); lia).
        replace ((6 * n) mod 6)%nat with 0%nat by (symmetry; rewrite Nat.mul_comm, Nat.mod_mul by lia; reflexivity).
        rewrite (nth_error_nth _ _ _ Eev). cbn [Nat.eqb]. reflexivity.
      * cbn [Nat.add]. apply map_ext_in. intros x Hx. apply in_seq in Hx. unfold ctp7_line.
        assert (XB : (6 * n < x < 6 * n + 6)%nat) by lia.
        replace (x / 6)%nat with n by (apply (Nat.div_unique x 6 n (x - 6 * n)); lia). replace (x mod 6)%nat with (x - 6 * n)%nat by (apply (Nat.mod_unique x 6 n (x - 6 * n)); lia).
        rewrite (nth_error_nth _ _ _ Eev). destruct (Nat.eqb_spec (x - 6 * n) 0); [lia|reflexivity].
Qed.

Lemma ctp7_session_ok calls : Forall (fun p => (snd p <= length (fst p))%nat) (firstn 171 calls) ->
  ctp7_session true 1 calls = Ok (map (ctp7_line calls) (seq 0 (Nat.min 1024 (6 * length calls)))).
Proof.
  intros H. unfold ctp7_session, ctp7_open. cbn [Nat.eqb bind].
  destruct (ctp7_calls calls (length calls) (mkCtp7 true 1 0 []) (le_n _) H eq_refl eq_refl eq_refl eq_refl) as (s & E & _ & _ & _ & L).
  rewrite firstn_all in E. rewrite E. cbn [bind]. rewrite L. reflexivity.
Qed.

Lemma ctp7_text_back isInput nmax calls ls : Z.of_nat nmax < 2 ^ 32 -> Forall (fun p => (snd p <= length (fst p))%nat /\ Forall (inU 32) (fst p)) calls ->
  ctp7_session true 1 calls = Ok ls -> ctp7_read (ctp7_text isInput nmax ls) = Some (map (ctp7_line calls) (seq 0 (Nat.min 1024 (6 * length calls)))).
Proof.
  intros Hn H E. rewrite ctp7_session_ok in E.
  - injection E as <-. apply ctp7_read_text; [exact Hn|]. intros l Hl. apply in_map_iff in Hl. destruct Hl as (i & <- & Hi). apply in_seq in Hi.
    unfold ctp7_line. destruct (nth (i / 6) calls ([], 0%nat)) as [e n] eqn:En. cbn [fst snd]. split; [lia|].
    destruct (i mod 6 =? 0)%nat.
    + assert (Fe : Forall (inU 32) e).
      { destruct (nth_in_or_default (i / 6) calls ([], 0%nat)) as [I|D]; [|rewrite En in D; injection D as -> _; constructor].
        rewrite Forall_forall in H. rewrite En in I. apply (H _ I). }
      apply Forall_forall. intros x Hx. rewrite Forall_forall in Fe. apply Fe. rewrite <- (firstn_skipn n e). apply in_or_app. left. exact Hx.
    + apply Forall_forall. intros x Hx. apply repeat_spec in Hx. subst. unfold inU. lia.
  - apply Forall_forall. intros p Hp. rewrite Forall_forall in H. apply H. rewrite <- (firstn_skipn 171 calls). apply in_or_app. left. exact Hp.
Qed.

Lemma ctp7_nothing named nmux calls : nmux <> 0%nat -> named = false \/ nmux <> 1%nat -> ctp7_session named nmux calls = Ok [].
Proof.
  intros N0 H. unfold ctp7_session, ctp7_open. destruct (Nat.eqb_spec nmux 0); [contradiction|]. cbn [bind].
  assert (F : foldM ctp7_event calls (mkCtp7 named nmux 0 []) = Ok (mkCtp7 named nmux 0 [])).
  { induction calls as [|[e k] l IH]; [reflexivity|]. cbn [foldM]. unfold ctp7_event at 1. cbn [c_open c_ipattern c_nmux].
    replace (if negb named then Ok (mkCtp7 named nmux 0 []) else if (1023 <? 0)%nat then Ok (mkCtp7 named nmux 0 []) else if (nmux =? 1)%nat then ctp7_print 0 e k (mkCtp7 named nmux 0 []) else Ok (mkCtp7 named nmux 0 [])) with (Ok (mkCtp7 named nmux 0 [])).
    - cbn [bind]. exact IH.
    - destruct H as [-> | H]; [reflexivity|]. destruct named; [|reflexivity]. destruct (Nat.eqb_spec nmux 1); [contradiction|reflexivity]. }
  rewrite F. reflexivity.
Qed.
