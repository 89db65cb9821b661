(** Events for C01 and C73, and deciders for the four situations of SpecPFRef. *)
From Verif Require Import Base BaseFacts Data PFHw PFRef TestUtils SpecLink SpecPF SpecOut SpecPFWrap SpecPFRef LinkFacts MapiFacts
  PFHwSpec PFWrap PFWrapFacts PFRefWrap PFRefAgree Witness.

Section Dec.
Variables (em : list EmCalo) (had : list HadCalo) (track : list Tk) (mu : list Mu).
Definition neg_b : bool :=
  existsb (fun '(k, _) => em_tksum_w em track mu k <? 0) (indexed em) || existsb (fun '(h, _) => had_tksum_w em had track mu h <? 0) (indexed had).
Definition keep_b : bool :=
  existsb (fun '(h, c) => h_isem c && existsb (fun '(k, e) => opt_is (best (cand_em_had had e)) h && negb (is_em_w em track mu k e)) (indexed em)) (indexed had).
Definition one_b : bool :=
  existsb (fun tk => (t_pterr tk =? 1) && existsb (fun c => (0 <? h_pt c) && (h_pt c =? t_pt tk - 1)
     && (dist2 (t_eta tk) (t_phi tk) (h_eta c) (h_phi c) <? 756)) (had_left_w em had track mu)) track.
Definition dirty_b : bool :=
  existsb (fun '(i, tk) => (t_pt tk =? 0) && negb (t_pterr tk =? 0) && existsb (fun h => in_had_w em had track mu h i tk) (seq 0 (length had))) (indexed track).

Lemma neg_dec : neg_b = true <-> NegativeSum em had track mu.
Proof.
  unfold neg_b, NegativeSum. rewrite orb_true_iff, !existsb_exists. split.
  - intros [([k e] & Hin & H)|([k e] & Hin & H)]; apply in_indexed in Hin; apply Z.ltb_lt in H; [left|right]; exists k, e; auto.
  - intros [(k & e & Hk & H)|(k & e & Hk & H)]; [left|right]; exists (k, e); (split; [apply in_indexed; assumption|apply Z.ltb_lt; assumption]).
Qed.
Lemma keep_dec : keep_b = true <-> KeepConflict_w em had track mu.
Proof.
  unfold keep_b, KeepConflict_w. rewrite existsb_exists. split.
  - intros ([h c] & Hin & H). apply in_indexed in Hin. apply andb_true_iff in H as [A B]. apply existsb_exists in B as ([k e] & Hk & B).
    apply in_indexed in Hk. apply andb_true_iff in B as [B1 B2]. apply opt_is_Some in B1. apply best_spec in B1. apply negb_true_iff in B2.
    exists h, c, k, e. auto.
  - intros (h & c & k & e & Hh & I & Hk & B & C). exists (h, c). split; [apply in_indexed; assumption|]. rewrite I. cbn [andb].
    apply existsb_exists. exists (k, e). split; [apply in_indexed; assumption|]. apply best_spec in B. rewrite B, C. cbn. rewrite Nat.eqb_refl. reflexivity.
Qed.
Lemma one_dec : one_b = true <-> ErrOneConflict em had track mu.
Proof.
  unfold one_b, ErrOneConflict. rewrite existsb_exists. split.
  - intros (tk & Hin & H). apply andb_true_iff in H as [A B]. apply existsb_exists in B as (c & Hc & B).
    apply andb_true_iff in B as [B D]. apply andb_true_iff in B as [B C]. apply In_nth_error in Hin as [i Hi]. apply In_nth_error in Hc as [h Hh].
    apply Z.eqb_eq in A, C. apply Z.ltb_lt in B, D. exists i, tk, h, c. auto 10.
  - intros (i & tk & h & c & Hi & A & Hh & B & C & D). exists tk. split; [eapply nth_error_In; eauto|]. rewrite A. cbn [andb].
    apply existsb_exists. exists c. split; [eapply nth_error_In; eauto|].
    apply andb_true_iff; split; [apply andb_true_iff; split|]; [apply Z.ltb_lt|apply Z.eqb_eq|apply Z.ltb_lt]; assumption.
Qed.
Lemma dirty_dec : dirty_b = true <-> DirtySlot em had track mu.
Proof.
  unfold dirty_b, DirtySlot. rewrite existsb_exists. split.
  - intros ([i tk] & Hin & H). apply in_indexed in Hin. apply andb_true_iff in H as [A B]. apply andb_true_iff in A as [A1 A2].
    apply existsb_exists in B as (h & _ & B). apply Z.eqb_eq in A1. apply negb_true_iff, Z.eqb_neq in A2. exists i, tk, h. auto.
  - intros (i & tk & h & Hi & A & B & C). exists (i, tk). split; [apply in_indexed; assumption|].
    apply andb_true_iff. split; [apply andb_true_iff; split; [apply Z.eqb_eq; assumption|apply negb_true_iff, Z.eqb_neq; assumption]|].
    apply existsb_exists. exists h. split; [|assumption]. apply in_seq. unfold in_had_w in C. apply andb_true_iff in C as [_ C].
    apply opt_is_Some in C. apply had_match_w_lt in C. lia.
Qed.
Lemma not_neg : neg_b = false -> ~ NegativeSum em had track mu.
Proof. intros E H. apply neg_dec in H. congruence. Qed.
Lemma not_keep : keep_b = false -> ~ KeepConflict_w em had track mu.
Proof. intros E H. apply keep_dec in H. congruence. Qed.
Lemma not_one : one_b = false -> ~ ErrOneConflict em had track mu.
Proof. intros E H. apply one_dec in H. congruence. Qed.
Lemma not_dirty : dirty_b = false -> ~ DirtySlot em had track mu.
Proof. intros E H. apply dirty_dec in H. congruence. Qed.
End Dec.

(** sums that wrap to a positive number: 75000 linked to the EM cluster (9464), 70000 to the hadronic one (4464),
    a track of error 1 and an empty slot with an error but linked to nothing *)
Definition ag_em := [mkEm 10000 200 100 0].
Definition ag_had := [mkHad 22000 (-99) 1 0 false].
Definition ag_tk := [mkTk 25000 150 100 1 3 true; mkTk 25000 200 101 0 (-5) true; mkTk 25000 99 99 0 0 true;
  mkTk 23000 900 (-100) 1 3 true; mkTk 23500 1000 (-99) 0 (-5) true; mkTk 23500 980 (-99) 2 0 true; mkTk 30 1 (-98) 0 1 true; mkTk 0 7 0 0 0 false].
Lemma ag_phys : phys ag_em ag_had ag_tk [].
Proof. concrete. Qed.
Lemma ag_hyp : ~ NegativeSum ag_em ag_had ag_tk [] /\ ~ KeepConflict_w ag_em ag_had ag_tk [] /\
  ~ ErrOneConflict ag_em ag_had ag_tk [] /\ ~ DirtySlot ag_em ag_had ag_tk [] /\
  em_tksum ag_em ag_tk [] 0 = 75000 /\ sum_where (in_had_w ag_em ag_had ag_tk [] 0) t_pt ag_tk = 70030 /\
  exists r, pfalgo3_full_ref mem0 1 ag_em ag_had ag_tk [] = Ok r.
Proof.
  split; [apply not_neg; vm_compute; reflexivity|]. split; [apply not_keep; vm_compute; reflexivity|].
  split; [apply not_one; vm_compute; reflexivity|]. split; [apply not_dirty; vm_compute; reflexivity|].
  split; [vm_compute; reflexivity|]. split; [vm_compute; reflexivity|]. eexists. vm_compute. reflexivity.
Qed.

(** ** each of the four situations alone suffices for a disagreement *)
Ltac quiet := first [apply not_neg | apply not_keep | apply not_one | apply not_dirty]; vm_compute; reflexivity.

Lemma neg_needed : exists em had track mu mem nsel o r, phys em had track mu /\ (nsel <= length had)%nat /\
  ~ KeepConflict_w em had track mu /\ ~ ErrOneConflict em had track mu /\ ~ DirtySlot em had track mu /\
  pfalgo3_full mem nsel em had track mu = Ok o /\ pfalgo3_full_ref mem nsel em had track mu = Ok r /\ ~ agree r o.
Proof.
  exists ov_em, [], ov_tk, [], mem0, 0%nat. eexists. eexists. split; [concrete|]. split; [cbn; lia|].
  split; [quiet|]. split; [quiet|]. split; [quiet|].
  split; [vm_compute; reflexivity|]. split; [vm_compute; reflexivity|].
  intros (_ & H & _). cbn in H. inversion H as [|? ? ? ? X]; subst. discriminate X.
Qed.
Lemma keep_needed : exists em had track mu mem nsel o r, phys em had track mu /\ (nsel <= length had)%nat /\
  ~ NegativeSum em had track mu /\ ~ ErrOneConflict em had track mu /\ ~ DirtySlot em had track mu /\
  pfalgo3_full mem nsel em had track mu = Ok o /\ pfalgo3_full_ref mem nsel em had track mu = Ok r /\ ~ agree r o.
Proof.
  exists kw_em, kw_had, kw_tk, [], mem0, 1%nat. eexists. eexists. split; [concrete|]. split; [cbn; lia|].
  split; [quiet|]. split; [quiet|]. split; [quiet|].
  split; [vm_compute; reflexivity|]. split; [vm_compute; reflexivity|].
  intros (_ & _ & H & _). cbn in H. inversion H as [|? ? ? ? X]; subst. discriminate X.
Qed.
Lemma one_needed : exists em had track mu mem nsel o r, phys em had track mu /\ (nsel <= length had)%nat /\
  ~ NegativeSum em had track mu /\ ~ KeepConflict_w em had track mu /\ ~ DirtySlot em had track mu /\
  pfalgo3_full mem nsel em had track mu = Ok o /\ pfalgo3_full_ref mem nsel em had track mu = Ok r /\ ~ agree r o.
Proof.
  exists [], e1_had, e1_tk, [], mem0, 2%nat. eexists. eexists. split; [concrete|]. split; [cbn; lia|].
  split; [quiet|]. split; [quiet|]. split; [quiet|].
  split; [vm_compute; reflexivity|]. split; [vm_compute; reflexivity|].
  intros (_ & _ & H & _). cbn in H. inversion H as [|? ? ? ? X]; subst. discriminate X.
Qed.
(** a track of 100 and an empty slot of error 500, both linked to a cluster of 200 *)
Definition ds_had := [mkHad 200 0 0 0 false].
Definition ds_tk := [mkTk 100 5 0 0 0 true; mkTk 0 500 1 0 0 false].
Lemma dirty_needed : exists em had track mu mem nsel o r, phys em had track mu /\ (nsel <= length had)%nat /\
  ~ NegativeSum em had track mu /\ ~ KeepConflict_w em had track mu /\ ~ ErrOneConflict em had track mu /\
  pfalgo3_full mem nsel em had track mu = Ok o /\ pfalgo3_full_ref mem nsel em had track mu = Ok r /\ ~ agree r o.
Proof.
  exists [], ds_had, ds_tk, [], mem0, 1%nat. eexists. eexists. split; [concrete|]. split; [cbn; lia|].
  split; [quiet|]. split; [quiet|]. split; [quiet|].
  split; [vm_compute; reflexivity|]. split; [vm_compute; reflexivity|].
  intros (_ & _ & H & _). cbn in H. inversion H as [|? ? ? ? X]; subst. discriminate X.
Qed.

(** ** the firmware may be defined where the reference is not *)
Definition rs_had := [mkHad 1100 0 0 0 false].
Definition rs_tk := [mkTk 1000 32767 0 0 0 true; mkTk 1000 32767 1 0 0 true].
Lemma ref_stricter : exists em had track mu mem nsel o, phys em had track mu /\ (nsel <= length had)%nat /\
  ~ NegativeSum em had track mu /\ ~ KeepConflict_w em had track mu /\ ~ ErrOneConflict em had track mu /\ ~ DirtySlot em had track mu /\
  pfalgo3_full mem nsel em had track mu = Ok o /\ pfalgo3_full_ref mem nsel em had track mu = UB SignedOverflow.
Proof.
  exists [], rs_had, rs_tk, [], mem0, 1%nat. eexists. split; [concrete|]. split; [cbn; lia|].
  split; [quiet|]. split; [quiet|]. split; [quiet|]. split; [quiet|].
  split; vm_compute; reflexivity.
Qed.

(** two EM clusters of 20000 linked to a hadronic cluster of 1000: the sum of 40000 reads as -25536 *)
Definition nb_em := [mkEm 20000 100 0 0; mkEm 20000 100 3 0].
Definition nb_had := [mkHad 1000 1 0 20000 false].
Lemma ref_neutral_exceeds : exists em had track mu mem nsel out n, phys em had track mu /\ (nsel <= length had)%nat /\
  pfalgo3_full_ref mem nsel em had track mu = Ok out /\ In n (o_ne out) /\ forall c, In c had -> n_pt n > h_pt c.
Proof.
  exists nb_em, nb_had, [], [], mem0, 1%nat. eexists. eexists. split; [concrete|]. split; [cbn; lia|].
  split; [vm_compute; reflexivity|]. split; [left; reflexivity|]. intros c [<-|[]]. cbn. lia.
Qed.
Lemma ow_ints_r : ints_fit_r ow_em ow_had ow_tk [] true.
Proof.
  split.
  - intros [|[|k]] e H; cbn in H; try discriminate; injection H as <-; intros _; vm_compute; reflexivity.
  - intros [|[|k]] c H; cbn in H; try discriminate; injection H as <-; split; [vm_compute; reflexivity|]; intros _; vm_compute; reflexivity.
Qed.
Lemma oi_not_ints_r : ~ ints_fit_r oi_em oi_had oi_tk [] true.
Proof. intros [H _]. specialize (H 0%nat _ eq_refl). vm_compute in H. specialize (H ltac:(discriminate)). discriminate H. Qed.
Lemma ow_ref_run : exists out, pfalgo3_full_ref mem0 1 ow_em ow_had ow_tk [] = Ok out.
Proof. eexists. vm_compute. reflexivity. Qed.
