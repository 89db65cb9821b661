(** The pattern files as functions of the event history (C43-C46). *)
From Coq Require Import Ascii String.
From Verif Require Import Base BaseFacts Data TabFacts Serializer SpecSer SerFacts SerText SerTextFacts.
Local Open Scope list_scope.

(** ** The magic filler *)
Lemma lor_add a b n : 0 <= n -> 0 <= b < 2 ^ n -> Z.lor (a * 2 ^ n) b = a * 2 ^ n + b.
Proof.
  intros Hn Hb. assert (D : Z.land (a * 2 ^ n) b = 0).
  { apply Z.bits_inj'. intros i Hi. rewrite Z.land_spec, Z.bits_0. destruct (Z.lt_ge_cases i n).
    - rewrite Z.mul_pow2_bits_low by lia. reflexivity.
    - destruct (Z.eq_dec b 0) as [->|]; [rewrite Z.bits_0; apply andb_false_r|]. rewrite (Z.bits_above_log2 b i); [apply andb_false_r|lia|]. apply Z.log2_lt_pow2; [lia|]. apply Z.lt_le_trans with (2 ^ n); [lia|]. apply Z.pow_le_mono_r; lia. }
  rewrite Z.add_nocarry_lxor by exact D. rewrite Z.lxor_lor by exact D. reflexivity.
Qed.

Lemma magic_filler cfg p e j : mp7_magic cfg (Z.of_nat p) (Z.of_nat e) (Z.of_nat j) = filler (p_magic cfg) p e j.
Proof.
  unfold mp7_magic, filler. destruct (p_magic cfg); [|reflexivity].
  set (P := Z.of_nat p). set (E := Z.of_nat e). set (J := Z.of_nat j).
  assert (A : Z.land (wrapU 32 (Z.shiftl P 16)) 0xFFFF0000 = P mod 65536 * 2 ^ 16).
  { unfold wrapU. rewrite Z.shiftl_mul_pow2 by lia. replace (P * 2 ^ 16 mod 2 ^ 32) with (Z.shiftl (P mod 2 ^ 16) 16)
      by (rewrite Z.shiftl_mul_pow2 by lia; change (2 ^ 32) with (2 ^ 16 * 2 ^ 16); rewrite Z.mul_mod_distr_r by lia; reflexivity).
    change 0xFFFF0000 with (Z.shiftl (Z.ones 16) 16). rewrite <- Z.shiftl_land, Z.land_ones by lia. rewrite Z.shiftl_mul_pow2 by lia. rewrite Z.mod_mod by lia. reflexivity. }
  assert (B : Z.land (wrapU 32 (Z.shiftl E 8)) 0xFF00 = E mod 256 * 2 ^ 8).
  { unfold wrapU. rewrite Z.shiftl_mul_pow2 by lia. replace (E * 2 ^ 8 mod 2 ^ 32) with (Z.shiftl (E mod 2 ^ 24) 8)
      by (rewrite Z.shiftl_mul_pow2 by lia; change (2 ^ 32) with (2 ^ 24 * 2 ^ 8); rewrite Z.mul_mod_distr_r by lia; reflexivity).
    change 0xFF00 with (Z.shiftl (Z.ones 8) 8). rewrite <- Z.shiftl_land, Z.land_ones by lia. rewrite Z.shiftl_mul_pow2 by lia. f_equal.
    change (2 ^ 8) with 256. change (2 ^ 24) with (256 * 65536). rewrite Z.rem_mul_r by lia. rewrite (Z.mul_comm 256), Z.mod_add by lia. apply Z.mod_mod. lia. }
  rewrite A, B. change 0xFF with (Z.ones 8). rewrite Z.land_ones by lia. change (2 ^ 8) with 256.
  rewrite (lor_add _ _ 16) by lia. replace (P mod 65536 * 2 ^ 16 + E mod 256 * 256) with ((P mod 65536 * 256 + E mod 256) * 2 ^ 8) by lia.
  rewrite (lor_add _ _ 8) by lia. lia.
Qed.

Local Opaque MP7_NCHANN.

(** ** MP7 sessions *)
Section session.
Variables (nmux : nat) (nempty : Z) (nlinks : nat).
Let nl := links nmux nlinks.
Let ne := Z.abs_nat nempty.
Let cfg := mkMp7Cfg nl nmux (MP7_NCHANN / nmux) ne (nempty <? 0).
Hypothesis HC : mux_ok nmux nempty nlinks.

Lemma open_ok named : exists s, mp7_open named nmux nempty nlinks = Ok (cfg, s) /\ s_open s = named /\ s_ipattern s = 0 /\ s_lines s = [] /\
  ((1 < nmux)%nat -> s_buffer s = buf nmux (fun _ _ => 0)).
Proof.
  destruct HC as (H1 & H2 & H3 & H4). unfold mp7_open. destruct (Nat.eqb_spec nmux 0); [lia|]. rewrite i32_Ok by lia. cbn [bind].
  replace (Z.to_nat (Z.abs nempty)) with ne by (unfold ne; lia). change (if (nlinks =? 0)%nat then (MP7_NCHANN / nmux)%nat else nlinks) with nl. fold cfg.
  destruct (Nat.ltb_spec 1 nmux).
  - rewrite H2, Nat.eqb_refl. eexists. split; [reflexivity|]. repeat split. intros _. cbn [s_buffer]. rewrite zero_buf. reflexivity.
  - eexists. split; [reflexivity|]. repeat split. intros; lia.
Qed.

Section run.
Variable events : list (list Z).
Hypothesis HE : Forall (fun e => length e = MP7_NCHANN) events.
Hypothesis HF : few nempty events.
Let pat := pattern ne (nempty <? 0) events.
Let N := npatterns ne events.

Lemma events_inv n s : (n <= length events)%nat -> inv cfg pat 0 s ->
  exists s', foldM (mp7_event cfg) (firstn n events) s = Ok s' /\ inv cfg pat (n * (ne + 1)) s'.
Proof.
  intros Hn I. destruct HC as (H1 & H2 & H3 & H4). induction n as [|n IH].
  - exists s. split; [reflexivity|exact I].
  - destruct IH as [s1 [E1 I1]]; [lia|]. destruct (nth_error_lt events n ltac:(lia)) as [ev Eev].
    assert (F : firstn (S n) events = firstn n events ++ [ev]).
    { clear - Eev. revert events Eev. induction n as [|n IH]; intros [|x l] E; try discriminate; cbn in *; [congruence|]. f_equal. apply IH. exact E. }
    rewrite F, foldM_app, E1. cbn [bind foldM].
    assert (Hev : length ev = MP7_NCHANN) by (rewrite Forall_forall in HE; apply HE; eapply nth_error_In; exact Eev).
    assert (BN : (n * (ne + 1) + ne + 1 <= N)%nat) by (unfold N, npatterns; nia).
    assert (PF : forall k, (k <= ne)%nat -> ((n * (ne + 1) + k) mod (ne + 1) = k /\ (n * (ne + 1) + k) / (ne + 1) = n)%nat).
    { intros k Hk. split; [symmetry; apply (Nat.mod_unique _ (ne + 1) n k); lia|symmetry; apply (Nat.div_unique _ (ne + 1) n k); lia]. }
    assert (FB : Z.of_nat N < 2 ^ 32) by exact HF.
    unfold mp7_event. destruct I1 as [O1 I1']. rewrite O1.
    destruct (one_inv cfg pat H1 H2 eq_refl H3 (n * (ne + 1)) s1 ev (conj O1 I1') Hev) as [s2 [E2 I2]].
    { intros j Hj. unfold pat, pattern. fold N. destruct (PF 0%nat ltac:(lia)) as [PM PD]. rewrite Nat.add_0_r in PM, PD. rewrite PM, PD, Nat.eqb_refl.
      destruct (Nat.ltb_spec (n * (ne + 1)) N); [|lia]. rewrite (nth_error_nth _ _ _ Eev). reflexivity. }
    { lia. }
    rewrite E2. cbn [bind].
    destruct (runs_inv cfg pat H1 H2 eq_refl H3 (fun k s => map (fun j => mp7_magic cfg (s_ipattern s) (Z.of_nat k) (Z.of_nat j)) (seq 0 MP7_NCHANN)) ne (n * (ne + 1) + 1) s2 I2) as [s3 [E3 I3]].
    { lia. }
    { intros k st Hk (_ & Ip & _). split; [rewrite map_length, seq_length; reflexivity|]. intros j Hj. rewrite Ip.
      replace (map _ (seq 0 MP7_NCHANN)) with (tab MP7_NCHANN (fun j => filler (nempty <? 0) (n * (ne + 1) + 1 + k) k j))
        by (apply map_ext; intros; symmetry; apply (magic_filler cfg)).
      rewrite nth_tab by exact Hj. unfold pat, pattern. fold N. replace (n * (ne + 1) + 1 + k)%nat with (n * (ne + 1) + (1 + k))%nat by lia.
      destruct (PF (1 + k)%nat ltac:(lia)) as [PM _]. rewrite PM. destruct (Nat.ltb_spec (n * (ne + 1) + (1 + k)) N); [|lia]. destruct (Nat.eqb_spec (1 + k) 0); [lia|]. f_equal. lia. }
    change (p_nempty cfg) with ne. exists s3. split; [rewrite E3; reflexivity|].
    replace (S n * (ne + 1))%nat with (n * (ne + 1) + 1 + ne)%nat by lia. exact I3.
Qed.

Definition closed_file : list line :=
  map (frame nmux nl pat) (seq 0 (nmux * (N / nmux))) ++
  (if (N mod nmux =? 0)%nat then []
   else map (fun t => (wrapU 32 (Z.of_nat N - Z.of_nat nmux + 1 + Z.of_nat t), clock nmux nl pat (nmux * (N / nmux) + t))) (seq 0 nmux)).

Lemma session_ok : mp7_session true nmux nempty nlinks events = Ok (map (frame nmux nl pat) (seq 0 (nmux * (N / nmux))), closed_file).
Proof.
  destruct HC as (H1 & H2 & H3 & H4). destruct (open_ok true) as (s0 & E0 & O0 & I0 & L0 & B0).
  unfold mp7_session. rewrite E0. cbn [bind].
  destruct (events_inv (length events) s0 (le_n _)) as [s [E I]].
  { split; [exact O0|]. split; [exact I0|]. split; [rewrite L0; unfold frames; rewrite Nat.div_0_l by (cbn; lia); rewrite Nat.mul_0_r; reflexivity|].
    intros M2. change (p_nmux cfg) with nmux in *. rewrite B0 by lia. apply buf_ext. intros t w Ht Hw. unfold pending. rewrite Nat.mod_0_l by (change (p_nmux cfg) with nmux; lia). destruct (Nat.ltb_spec (w / p_nchann cfg) 0) as [X|X]; [destruct (Nat.nlt_0_r _ X)|reflexivity]. }
  rewrite firstn_all in E. rewrite E. cbn [bind]. change (length events * (ne + 1))%nat with N in I.
  destruct I as (Io & Ii & Il & Ib). unfold mp7_close. rewrite Io, Ii. change (p_nmux cfg) with nmux.
  rewrite <- Nat2Z.inj_mod. unfold closed_file. rewrite Il. unfold frames. change (p_nmux cfg) with nmux. change (p_nlinks cfg) with nl.
  destruct (Nat.ltb_spec 1 nmux) as [M|M]; cbn [andb].
  - replace (Z.of_nat (N mod nmux) =? 0) with (N mod nmux =? 0)%nat by (destruct (Nat.eqb_spec (N mod nmux) 0); symmetry; [apply Z.eqb_eq|apply Z.eqb_neq]; lia).
    destruct (Nat.eqb_spec (N mod nmux) 0) as [Z0|Z0]; cbn [negb].
    + cbn [bind]. rewrite app_nil_r. reflexivity.
    + rewrite (flush_ok cfg pat H1 H2 eq_refl H3 s (pending cfg pat N)) by (apply Ib; cbn; lia). cbn [bind s_lines]. rewrite Il, Ii. f_equal. f_equal. unfold frames. f_equal.
      apply map_ext_in. intros t Ht. apply in_seq in Ht. f_equal. unfold clock. apply map_ext_in. intros w Hw. apply in_seq in Hw. change (p_nlinks cfg) with nl in Hw.
      unfold pending, muxed. change (p_nmux cfg) with nmux in *. change (p_nchann cfg) with (MP7_NCHANN / nmux)%nat. set (nch := (MP7_NCHANN / nmux)%nat).
      replace ((nmux * (N / nmux) + t) / nmux)%nat with (N / nmux)%nat by (apply (Nat.div_unique _ nmux (N / nmux) t); lia).
      replace ((nmux * (N / nmux) + t) mod nmux)%nat with t by (apply (Nat.mod_unique _ nmux (N / nmux) t); lia).
      destruct (Nat.ltb_spec (w / nch) (N mod nmux)) as [G|G]; [reflexivity|]. unfold pat, pattern. fold N.
      destruct (Nat.ltb_spec (N / nmux * nmux + w / nch) N) as [G2|G2]; [|reflexivity]. pose proof (Nat.div_mod N nmux ltac:(lia)). lia.
  - assert (E1 : nmux = 1%nat) by lia. clear - E1. replace (N mod nmux)%nat with 0%nat by (rewrite E1, Nat.mod_1_r; reflexivity). cbn [Nat.eqb bind]. rewrite app_nil_r. reflexivity.
Qed.

(** the words of the closed file, whatever the frame numbers *)
Definition nframes : nat := (nmux * ((N + nmux - 1) / nmux))%nat.
Lemma nframes_eq : nframes = if (N mod nmux =? 0)%nat then (nmux * (N / nmux))%nat else (nmux * (N / nmux) + nmux)%nat.
Proof.
  destruct HC as (H1 & _). unfold nframes. pose proof (Nat.div_mod N nmux ltac:(lia)) as D. pose proof (Nat.mod_upper_bound N nmux ltac:(lia)) as M.
  destruct (Nat.eqb_spec (N mod nmux) 0) as [E|E].
  - f_equal. symmetry. apply (Nat.div_unique _ nmux (N / nmux) (nmux - 1)); lia.
  - replace (nmux * (N / nmux) + nmux)%nat with (nmux * (N / nmux + 1))%nat by lia. f_equal. symmetry. apply (Nat.div_unique _ nmux (N / nmux + 1) (N mod nmux - 1)); lia.
Qed.
Lemma closed_words : map snd closed_file = map (clock nmux nl pat) (seq 0 nframes).
Proof.
  unfold closed_file. rewrite nframes_eq. destruct (N mod nmux =? 0)%nat.
  - rewrite app_nil_r, map_map. reflexivity.
  - rewrite seq_app, map_app, !map_app, !map_map. f_equal. rewrite Nat.add_0_l, (map_seq_shift (clock nmux nl pat) (nmux * (N / nmux))). reflexivity.
Qed.
Lemma closed_numbers : closed_file = map (frame nmux nl pat) (seq 0 nframes) <-> (N mod nmux = 0 \/ N mod nmux = nmux - 1)%nat.
Proof.
  destruct HC as (H1 & _). unfold closed_file. rewrite nframes_eq. pose proof (Nat.div_mod N nmux ltac:(lia)) as D. pose proof (Nat.mod_upper_bound N nmux ltac:(lia)) as M.
  assert (FB : Z.of_nat N < 2 ^ 32) by exact HF.
  destruct (Nat.eqb_spec (N mod nmux) 0) as [E|E].
  - rewrite app_nil_r. split; [auto|reflexivity].
  - rewrite seq_app, map_app, Nat.add_0_l, (map_seq_shift (frame nmux nl pat) (nmux * (N / nmux))). split.
    + intros H. apply app_inv_head in H. right. apply (f_equal (fun l => nth_error l 0)) in H. rewrite !nth_error_map', !nth_error_seq in H.
      destruct (Nat.ltb_spec 0 nmux); [|lia]. cbn [option_map] in H. unfold frame in H. injection H as H.
      set (q := (nmux * (N / nmux))%nat) in *. set (r := (N mod nmux)%nat) in *. clearbody q r. unfold wrapU in H.
      assert (QB : Z.of_nat q < 2 ^ 32) by lia. clear HE. clearbody N. change (2 ^ 32) with 4294967296 in *. destruct HC as (_ & HD & _).
      assert (MB : (nmux <= MP7_NCHANN)%nat) by (apply Nat.divide_pos_le; [exact NCH_pos|apply Nat.mod_divide; [lia|exact HD]]).
      Transparent MP7_NCHANN. unfold MP7_NCHANN in MB. Opaque MP7_NCHANN. lia.
    + intros [H|H]; [lia|]. f_equal. apply map_ext_in. intros t Ht. apply in_seq in Ht. unfold frame. f_equal.
      set (q := (nmux * (N / nmux))%nat) in *. clearbody q. rewrite wrapU_id by (unfold inU; lia). lia.
Qed.
End run.
End session.

(** an unnamed serializer writes nothing *)
Lemma session_unnamed nmux nempty nlinks events : mux_ok nmux nempty nlinks -> exists l, mp7_session false nmux nempty nlinks events = Ok (l, []).
Proof.
  intros HC. destruct (open_ok nmux nempty nlinks HC false) as (s & E & O & _). unfold mp7_session. rewrite E. cbn [bind].
  assert (F : forall l c, foldM (mp7_event c) l s = Ok s).
  { induction l as [|x l IH]; intros c; [reflexivity|]. cbn [foldM]. unfold mp7_event at 1. rewrite O. cbn [bind]. apply IH. }
  rewrite F. cbn [bind]. unfold mp7_close. rewrite O. eexists. reflexivity.
Qed.
