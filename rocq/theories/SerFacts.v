(** Lemmas on the MP7 pattern serializer. *)
From Verif Require Import Base BaseFacts Data TabFacts Serializer SpecSer.

Lemma NCH_pos : (0 < MP7_NCHANN)%nat. Proof. cbv. lia. Qed.
Local Opaque MP7_NCHANN.

Lemma foldM_seq_ext {T} (f g : T -> nat -> res T) n s : (forall s k, (k < n)%nat -> f s k = g s k) -> foldM f (seq 0 n) s = foldM g (seq 0 n) s.
Proof.
  intros H. assert (G : forall m a s, (a + m <= n)%nat -> foldM f (seq a m) s = foldM g (seq a m) s).
  { induction m as [|m IH]; intros a s0 Hm; cbn [seq foldM]; [reflexivity|]. rewrite H by lia. destruct (g s0 a); cbn [bind]; [apply IH; lia|reflexivity]. }
  apply G. lia.
Qed.

Lemma mapM_rd_tab {A} n m (f : nat -> A) : (m <= n)%nat -> mapM (rd (tab n f)) (seq 0 m) = Ok (map f (seq 0 m)).
Proof.
  intros H. rewrite (mapM_Ok (rd (tab n f)) f); [reflexivity|].
  intros x Hx. apply in_seq in Hx. apply rd_tab. lia.
Qed.

Lemma map_seq_shift {A} (f : nat -> A) a n : map f (seq a n) = map (fun t => f (a + t)%nat) (seq 0 n).
Proof.
  revert a; induction n as [|n IH]; intros a; cbn [seq map]; [reflexivity|]. f_equal; [f_equal; lia|].
  rewrite IH, <- seq_shift, map_map. apply map_ext. intros. f_equal. lia.
Qed.


Lemma mux_div n m : (1 <= m)%nat -> (n mod m = 0)%nat -> (n = n / m * m)%nat.
Proof. intros H E. pose proof (Nat.div_mod n m ltac:(lia)). lia. Qed.

(** the buffer as a function *)
Definition buf (nmux : nat) (b : nat -> nat -> Z) : list (list Z) := tab nmux (fun t => tab MP7_NCHANN (b t)).
Lemma zero_buf cfg : mp7_zero cfg = buf (p_nmux cfg) (fun _ _ => 0).
Proof. unfold mp7_zero, buf. rewrite <- tab_repeat. apply tab_ext; intros. rewrite tab_repeat. reflexivity. Qed.
Lemma buf_ext n b b' : (forall t w, (t < n)%nat -> (w < MP7_NCHANN)%nat -> b t w = b' t w) -> buf n b = buf n b'.
Proof. intros H. apply tab_ext; intros t Ht. apply tab_ext; intros w Hw. apply H; assumption. Qed.

Section fill.
Variables (cfg : mp7cfg) (event : list Z).
Let nmux := p_nmux cfg.
Let nch := p_nchann cfg.

Lemma fill_inner offs ic b : (nch * nmux <= length event)%nat -> (ic < nch)%nat -> (offs + nch <= MP7_NCHANN)%nat ->
  foldM (fun '(i, b) im =>
          do w <- rd event i;
          do row <- rd b im;
          do row' <- wr row (offs + ic) w;
          do b' <- wr b im row';
          Ok (S i, b')) (seq 0 nmux) ((ic * nmux)%nat, buf nmux b)
  = Ok (((ic + 1) * nmux)%nat, buf nmux (fun t w => if (w =? offs + ic)%nat then nth (ic * nmux + t) event 0 else b t w)).
Proof.
  intros He Hic Ho.
  apply (foldM_states0 _ (fun im => ((ic * nmux + im)%nat, buf nmux (fun t w => if (w =? offs + ic)%nat && (t <? im)%nat then nth (ic * nmux + t) event 0 else b t w)))).
  - f_equal; [lia|]. apply buf_ext. intros. destruct (w =? offs + ic)%nat; cbn [andb]; [|reflexivity]. natcases.
  - f_equal; [lia|]. apply buf_ext. intros. destruct (w =? offs + ic)%nat; cbn [andb]; [|reflexivity]. natcases.
  - intros k Hk. cbn beta iota.
    assert (Hi : (ic * nmux + k < length event)%nat) by (assert ((ic + 1) * nmux <= nch * nmux)%nat by (apply Nat.mul_le_mono_r; lia); lia).
    rewrite (rd_Ok event _ 0 Hi). cbn [bind].
    unfold buf at 1. rewrite rd_tab by assumption. cbn [bind]. rewrite wr_tab by lia. cbn [bind].
    unfold buf. rewrite wr_tab by assumption. cbn [bind]. f_equal. f_equal; [lia|].
    apply tab_ext; intros t Ht. destruct (Nat.eqb_spec t k) as [->|N]; [|apply tab_ext; intros w Hw; natcases].
    apply tab_ext; intros w Hw. destruct (w =? offs + ic)%nat; cbn [andb]; natcases.
Qed.

Lemma fill_buf offs b : (nch * nmux <= length event)%nat -> (offs + nch <= MP7_NCHANN)%nat ->
  mp7_fill cfg offs event (buf nmux b) =
  Ok (buf nmux (fun t w => if (offs <=? w)%nat && (w <? offs + nch)%nat then nth ((w - offs) * nmux + t) event 0 else b t w)).
Proof.
  intros He Ho. unfold mp7_fill. fold nmux nch.
  rewrite (foldM_states0 _ (fun ic => ((ic * nmux)%nat, buf nmux (fun t w => if (offs <=? w)%nat && (w <? offs + ic)%nat then nth ((w - offs) * nmux + t) event 0 else b t w))) nch _
    ((nch * nmux)%nat, buf nmux (fun t w => if (offs <=? w)%nat && (w <? offs + nch)%nat then nth ((w - offs) * nmux + t) event 0 else b t w))).
  - reflexivity.
  - f_equal. apply buf_ext. intros. destruct (Nat.leb_spec offs w); cbn [andb]; [|reflexivity]. natcases.
  - reflexivity.
  - intros k Hk. rewrite fill_inner by lia. f_equal. f_equal. apply buf_ext. intros t w Ht Hw.
    destruct (Nat.leb_spec offs w); cbn [andb]; natcases. f_equal. f_equal. f_equal. lia.
Qed.
End fill.

(** ** The invariant *)
Section inv.
Variables (cfg : mp7cfg) (pat : nat -> nat -> Z).
Let nmux := p_nmux cfg.
Let nch := p_nchann cfg.
Let nl := p_nlinks cfg.
Hypothesis Hmux : (1 <= nmux)%nat.
Hypothesis Hdiv : (MP7_NCHANN mod nmux = 0)%nat.
Hypothesis Hch : nch = (MP7_NCHANN / nmux)%nat.
Hypothesis Hnl : (nl <= MP7_NCHANN)%nat.

Lemma nch_mux : (nch * nmux = MP7_NCHANN)%nat.
Proof. rewrite Hch. symmetry. apply mux_div; assumption. Qed.
Lemma nch_pos : (1 <= nch)%nat.
Proof. pose proof nch_mux. pose proof NCH_pos. destruct nch; lia. Qed.

Definition frames (P : nat) : list line := map (frame nmux nl pat) (seq 0 (nmux * (P / nmux))).

(** content of the multiplexing buffer when P patterns have been pushed *)
Definition pending (P : nat) (t w : nat) : Z :=
  if (w / nch <? P mod nmux)%nat then pat (P / nmux * nmux + w / nch)%nat (w mod nch * nmux + t)%nat else 0.

Definition inv (P : nat) (s : mp7) : Prop :=
  s_open s = true /\ s_ipattern s = Z.of_nat P /\ s_lines s = frames P /\ ((2 <= nmux)%nat -> s_buffer s = buf nmux (pending P)).

Lemma print_ok f ev ls : length ev = MP7_NCHANN -> mp7_print cfg f ev ls = Ok (ls ++ [(f, map (fun i => nth i ev 0) (seq 0 nl))]).
Proof.
  intros L. unfold mp7_print. fold nl. rewrite (list_tab ev 0) at 1. rewrite mapM_rd_tab by lia. reflexivity.
Qed.

Lemma flush_ok s b : s_buffer s = buf nmux b ->
  mp7_flush cfg s = Ok (mkMp7 (s_open s) (s_ipattern s) (buf nmux (fun _ _ => 0))
     (s_lines s ++ map (fun t => (wrapU 32 (s_ipattern s - Z.of_nat nmux + 1 + Z.of_nat t), map (b t) (seq 0 nl))) (seq 0 nmux))).
Proof.
  intros E. unfold mp7_flush. fold nmux. rewrite zero_buf. fold nmux.
  rewrite (foldM_states0 _ (fun k => s_lines s ++ map (fun t => (wrapU 32 (s_ipattern s - Z.of_nat nmux + 1 + Z.of_nat t), map (b t) (seq 0 nl))) (seq 0 k)) nmux _
     (s_lines s ++ map (fun t => (wrapU 32 (s_ipattern s - Z.of_nat nmux + 1 + Z.of_nat t), map (b t) (seq 0 nl))) (seq 0 nmux))).
  - reflexivity.
  - cbn. rewrite app_nil_r. reflexivity.
  - reflexivity.
  - intros k Hk. rewrite E. unfold buf. rewrite rd_tab by assumption. cbn [bind].
    rewrite print_ok by apply tab_length. f_equal. rewrite <- app_assoc. f_equal.
    replace (k + 1)%nat with (S k) by lia. rewrite seq_S, map_app. f_equal. cbn. f_equal. f_equal.
    apply map_ext_in. intros i Hi. apply in_seq in Hi. apply nth_tab. lia.
Qed.

Lemma one_inv P s ev : inv P s -> length ev = MP7_NCHANN -> (forall j, (j < MP7_NCHANN)%nat -> nth j ev 0 = pat P j) -> Z.of_nat P + 1 < 2 ^ 32 ->
  exists s', mp7_one cfg s ev = Ok s' /\ inv (P + 1) s'.
Proof.
  intros (Ho & Hi & Hl & Hb) Hlen Hev HP. unfold mp7_one. fold nmux. pose proof nch_mux as NM. pose proof nch_pos as NP.
  destruct (Nat.eqb_spec nmux 1) as [E1|N1].
  - rewrite print_ok by assumption. cbn [bind s_open s_ipattern s_buffer s_lines]. eexists. split; [reflexivity|].
    split; [assumption|]. split; [cbn; rewrite Hi; rewrite wrapU_id by (unfold inU; lia); lia|]. split; [|intros; lia].
    cbn [s_lines]. rewrite Hl. unfold frames. rewrite E1, !Nat.div_1_r. replace (1 * (P + 1))%nat with (1 * P + 1)%nat by lia.
    rewrite seq_app, map_app. f_equal. cbn [map seq]. f_equal. unfold frame, clock. f_equal; [rewrite Hi; lia|].
    apply map_ext_in. intros i Hi2. apply in_seq in Hi2. rewrite Hev by lia. unfold muxed.
    rewrite !Nat.div_1_r, Nat.mod_1_r, !Nat.mul_1_r, !Nat.add_0_r, Nat.add_0_l, Nat.mul_1_l.
    rewrite (Nat.div_small i), (Nat.mod_small i) by lia. rewrite Nat.add_0_r. reflexivity.
  - unfold mp7_push. fold nmux nch. rewrite Hi.
    set (imux := Z.to_nat (Z.of_nat P mod Z.of_nat nmux)).
    assert (EI : imux = (P mod nmux)%nat) by (unfold imux; rewrite <- Nat2Z.inj_mod, Nat2Z.id; reflexivity).
    assert (BI : (imux < nmux)%nat) by (rewrite EI; apply Nat.mod_upper_bound; lia).
    assert (OB : (imux * nch + nch <= MP7_NCHANN)%nat) by nia.
    rewrite Hb by lia. unfold nch, nmux. rewrite (fill_buf cfg ev) by (fold nch nmux; lia). fold nch nmux. cbn [bind].
    set (b' := fun t w => if (imux * nch <=? w)%nat && (w <? imux * nch + nch)%nat then nth ((w - imux * nch) * nmux + t) ev 0 else pending P t w).
    assert (PD : (P = P / nmux * nmux + imux)%nat) by (rewrite EI; pose proof (Nat.div_mod P nmux ltac:(lia)); lia).
    (* what the buffer holds after the new pattern *)
    assert (EB : forall t w, (t < nmux)%nat -> (w < MP7_NCHANN)%nat ->
       b' t w = if (w / nch <? imux + 1)%nat then pat (P / nmux * nmux + w / nch)%nat (w mod nch * nmux + t)%nat else 0).
    { intros t w Ht Hw. unfold b', pending. rewrite <- EI. pose proof (Nat.div_mod w nch ltac:(lia)) as DM. pose proof (Nat.mod_upper_bound w nch ltac:(lia)) as MB.
      destruct (Nat.leb_spec (imux * nch) w) as [G|G]; cbn [andb].
      - destruct (Nat.ltb_spec w (imux * nch + nch)) as [G2|G2].
        + assert (Q : (w / nch = imux)%nat) by (symmetry; apply (Nat.div_unique w nch imux (w - imux * nch)); lia).
          rewrite Q. destruct (Nat.ltb_spec imux (imux + 1)); [|lia]. rewrite <- PD.
          assert (M : (w mod nch = w - imux * nch)%nat) by (rewrite Q in DM; lia). rewrite M. apply Hev. nia.
        + assert (Q : (imux + 1 <= w / nch)%nat) by (apply Nat.div_le_lower_bound; lia). natcases.
      - assert (Q : (w / nch < imux)%nat) by (apply Nat.div_lt_upper_bound; lia). natcases. }
    destruct (Nat.eqb_spec imux (nmux - 1)) as [EL|NL].
    + cbn [s_open s_ipattern s_lines s_buffer]. erewrite flush_ok by reflexivity. cbn [bind s_open s_ipattern s_lines s_buffer].
      eexists. split; [reflexivity|]. split; [assumption|]. split; [cbn; rewrite wrapU_id by (unfold inU; lia); lia|].
      assert (D1 : ((P + 1) / nmux = P / nmux + 1)%nat) by (symmetry; apply (Nat.div_unique (P + 1) nmux (P / nmux + 1) 0); lia).
      assert (M1 : ((P + 1) mod nmux = 0)%nat) by (symmetry; apply (Nat.mod_unique (P + 1) nmux (P / nmux + 1) 0); lia).
      split.
      * cbn [s_lines]. rewrite Hl. unfold frames. rewrite D1. replace (nmux * (P / nmux + 1))%nat with (nmux * (P / nmux) + nmux)%nat by lia.
        rewrite seq_app, map_app. f_equal. rewrite Nat.add_0_l.
        rewrite (map_seq_shift (frame nmux nl pat) (nmux * (P / nmux))).
        apply map_ext_in. intros t Ht. apply in_seq in Ht. unfold frame, clock. f_equal.
        { assert (X : (P + 1 + t = nmux * (P / nmux) + t + nmux)%nat) by (rewrite (Nat.mul_comm nmux); lia).
          clear - X HP Ht. revert X. generalize (nmux * (P / nmux))%nat. intros q X. rewrite wrapU_id by (unfold inU; lia). lia. }
        apply map_ext_in. intros w Hw. apply in_seq in Hw. rewrite EB by lia. unfold muxed. rewrite <- Hch.
        replace ((nmux * (P / nmux) + t) / nmux)%nat with (P / nmux)%nat by (apply (Nat.div_unique _ nmux (P / nmux) t); lia).
        replace ((nmux * (P / nmux) + t) mod nmux)%nat with t by (apply (Nat.mod_unique _ nmux (P / nmux) t); lia).
        assert (w / nch < nmux)%nat by (apply Nat.div_lt_upper_bound; lia). destruct (Nat.ltb_spec (w / nch) (imux + 1)); [reflexivity|lia].
      * intros _. cbn [s_buffer]. apply buf_ext. intros t w Ht Hw. unfold pending. rewrite M1. reflexivity.
    + cbn [bind s_open s_ipattern s_lines s_buffer]. eexists. split; [reflexivity|]. split; [assumption|].
      split; [cbn; rewrite wrapU_id by (unfold inU; lia); lia|].
      assert (D1 : ((P + 1) / nmux = P / nmux)%nat) by (symmetry; apply (Nat.div_unique (P + 1) nmux (P / nmux) (imux + 1)); lia).
      assert (M1 : ((P + 1) mod nmux = imux + 1)%nat) by (symmetry; apply (Nat.mod_unique (P + 1) nmux (P / nmux) (imux + 1)); lia).
      split; [cbn [s_lines]; rewrite Hl; unfold frames; rewrite D1; reflexivity|].
      intros _. cbn [s_buffer]. apply buf_ext. intros t w Ht Hw. rewrite EB by assumption. unfold pending. rewrite M1, D1. reflexivity.
Qed.

(** a run of patterns *)
Lemma runs_inv (evs : nat -> mp7 -> list Z) n P s :
  inv P s -> Z.of_nat (P + n) < 2 ^ 32 ->
  (forall k st, (k < n)%nat -> inv (P + k) st -> length (evs k st) = MP7_NCHANN /\ forall j, (j < MP7_NCHANN)%nat -> nth j (evs k st) 0 = pat (P + k)%nat j) ->
  exists s', foldM (fun s k => mp7_one cfg s (evs k s)) (seq 0 n) s = Ok s' /\ inv (P + n) s'.
Proof.
  revert P s evs. induction n as [|n IH]; intros P s evs I HP H; cbn [seq foldM].
  - exists s. split; [reflexivity|]. rewrite Nat.add_0_r. assumption.
  - destruct (H 0%nat s ltac:(lia) ltac:(rewrite Nat.add_0_r; assumption)) as [L E]. rewrite Nat.add_0_r in E.
    destruct (one_inv P s (evs 0%nat s) I L E ltac:(lia)) as [s1 [E1 I1]]. rewrite E1. cbn [bind].
    destruct (IH (P + 1)%nat s1 (fun k st => evs (S k) st) I1 ltac:(lia)) as [s' [E' I']].
    + intros k st Hk Ik. destruct (H (S k) st ltac:(lia) ltac:(replace (P + S k)%nat with (P + 1 + k)%nat by lia; assumption)) as [L2 E2]. split; [assumption|].
      intros j Hj. rewrite E2 by assumption. f_equal. lia.
    + exists s'. split; [|replace (P + S n)%nat with (P + 1 + n)%nat by lia; assumption].
      rewrite <- E'. clear. rewrite <- seq_shift. generalize s1. generalize (seq 0 n). induction l as [|a l IHl]; intros x; [reflexivity|]. cbn [map foldM].
      destruct (mp7_one cfg x (evs (S a) x)); cbn [bind]; [apply IHl|reflexivity].
Qed.
End inv.
