(** Consequences of PFWrap, and events whose sums leave their types (C72). *)
From Verif Require Import Base BaseFacts Data PFHw SpecLink SpecPF SpecPFWrap SpecSort LinkFacts MapiFacts SortFacts RankFacts PFHwSpec PFWrap PFProofs Witness.

Lemma wrap_defined_iff em had track mu mem nsel : phys em had track mu -> (nsel <= length had)%nat ->
  ((exists out, pfalgo3_full mem nsel em had track mu = Ok out) <-> ints_fit em had track mu) /\
  (~ ints_fit em had track mu -> pfalgo3_full mem nsel em had track mu = UB SignedOverflow).
Proof.
  intros HP Hn. destruct (pfalgo3_full_wrap em had track mu HP mem nsel Hn) as [[I E]|[I E]]; rewrite E.
  - split; [split; [auto|eauto]|intros N; contradiction].
  - split; [split; [intros [o H]; discriminate|contradiction]|reflexivity].
Qed.

Lemma wrap_result em had track mu mem nsel out : phys em had track mu -> (nsel <= length had)%nat ->
  pfalgo3_full mem nsel em had track mu = Ok out ->
  o_ch out = mapi (sp_ch_w em had track mu) track /\
  o_pho out = mapi (sp_pho_w em track mu (fun k => n_puppi (old_outpho mem k))) em /\
  top_n n_pt true nsel (mapi (sp_ne_w em had track mu (fun h => n_puppi (junk_ne_all mem h))) had) (o_ne out) /\
  o_mu out = map (sp_mu track) mu.
Proof.
  intros HP Hn HR. rewrite (outw_eq em had track mu mem nsel out HP Hn HR). cbn [o_ch o_pho o_ne o_mu].
  split; [reflexivity|]. split; [reflexivity|]. split; [|reflexivity]. exact (top_n_rsort true n_pt nsel _).
Qed.

Lemma wrap_exact em had track mu : phys em had track mu -> sums_fit em had track mu (Some 131071) false ->
  ints_fit em had track mu /\
  (forall i tk, sp_ch_w em had track mu i tk = sp_ch em had track mu (Some 131071) false i tk) /\
  (forall pup k e, nth_error em k = Some e -> sp_pho_w em track mu pup k e = sp_pho em track mu pup k e) /\
  (forall pup h c, nth_error had h = Some c -> sp_ne_w em had track mu pup h c = sp_ne em had track mu (Some 131071) false pup h c).
Proof.
  intros HP HF. split; [apply fit_ints; assumption|]. split; [intros; eapply fit_ch; eauto|]. split.
  - intros pup k e Hk. unfold sp_pho_w, sp_pho. rewrite (fit_pho em had track mu HP HF k e Hk). reflexivity.
  - intros pup h c Hh. unfold sp_ne_w, sp_ne. rewrite (fit_ne em had track mu HP HF h c Hh). reflexivity.
Qed.

Lemma wrap_positions em had track mu mem nsel out : phys em had track mu -> (nsel <= length had)%nat ->
  pfalgo3_full mem nsel em had track mu = Ok out ->
  (forall k e p, nth_error em k = Some e -> nth_error (o_pho out) k = Some p -> n_pt p <> 0 ->
     0 < n_pt p <= 32767 /\ n_eta p = e_eta e /\ n_phi p = e_phi e) /\
  (forall n, In n (o_ne out) -> n_pt n <> 0 -> 0 < n_pt n <= 32767 /\
     exists h c, nth_error had h = Some c /\ n_eta n = h_eta c /\ n_phi n = h_phi c).
Proof.
  intros HP Hn HR. split.
  - intros k e p Hk Hp NZ. rewrite (outw_eq em had track mu mem nsel out HP Hn HR) in Hp. cbn [o_pho] in Hp.
    rewrite nth_error_mapi, Hk in Hp. cbn in Hp. injection Hp as <-.
    destruct (em_at _ _ _ _ HP k e Hk) as [(A & _) [PP _]]. unfold inS in A; simpl in A.
    pose proof (w16_rg (e_pt e - em_tksum_w em track mu k)) as W.
    revert NZ. unfold sp_pho_w, ne_obj. destruct (Z.eqb_spec (pho_pt_w e (em_tksum_w em track mu k)) 0) as [E|E]; [intros F; elim F; reflexivity|].
    intros _. cbn [n_pt n_eta n_phi]. split; [|auto]. revert E. unfold pho_pt_w. cbv zeta. destruct (_ =? 0); [lia|].
    destruct (Z.ltb_spec 0 (w16 (e_pt e - em_tksum_w em track mu k))); cbn [andb]; [|lia]. destruct (_ <? _); lia.
  - intros n Hin NZ. destruct (outw_ne_in em had track mu mem nsel out HP Hn HR n Hin) as (h & c & Hh & ->).
    pose proof (ne_pt_w_nonneg em had track mu HP h c Hh) as R. revert NZ. unfold sp_ne_w, ne_obj.
    destruct (Z.eqb_spec (ne_pt_w em had track mu h c) 0) as [E|E]; [intros F; elim F; reflexivity|].
    intros _. cbn [n_pt n_eta n_phi]. split; [lia|]. exists h, c. auto.
Qed.

Lemma full_turn em had track mu mem nsel out k e : phys em had track mu -> (nsel <= length had)%nat ->
  pfalgo3_full mem nsel em had track mu = Ok out -> nth_error em k = Some e -> em_tksum em track mu k mod 65536 = 0 ->
  exists p, nth_error (o_pho out) k = Some p /\ n_pt p = e_pt e.
Proof.
  intros HP Hn HR Hk M. rewrite (outw_eq em had track mu mem nsel out HP Hn HR). cbn [o_pho]. rewrite nth_error_mapi, Hk.
  eexists. split; [reflexivity|]. cbn [option_map]. unfold sp_pho_w, pho_pt_w.
  assert (E : em_tksum_w em track mu k = 0).
  { unfold em_tksum_w, w16, wrapS. cbn [Z.pow Z.sub]. change (2 ^ (16 - 1)) with 32768. change (2 ^ 16) with 65536.
    pose proof (Z.div_mod (em_tksum em track mu k) 65536 ltac:(lia)) as D. rewrite M in D.
    rewrite D. lia. }
  rewrite E. cbn. unfold ne_obj. destruct (Z.eqb_spec (e_pt e) 0); cbn; lia.
Qed.

(** ** events *)
(** two tracks of total pt 50000 linked to an EM cluster of 10000 *)
Definition ow_em := [mkEm 10000 200 100 0].
Definition ow_had := [mkHad 10500 101 1 10000 true].
Definition ow_tk := [mkTk 25000 150 100 1 3 true; mkTk 25000 200 101 0 (-5) true].
Lemma ow_phys : phys ow_em ow_had ow_tk [].
Proof. concrete. Qed.
Lemma ow_ints : ints_fit ow_em ow_had ow_tk [].
Proof.
  split.
  - intros [|[|k]] e H; cbn in H; try discriminate; injection H as <-; intros _; vm_compute; reflexivity.
  - intros [|[|k]] c H; cbn in H; try discriminate; injection H as <-; split; [vm_compute; reflexivity|]; intros _ _; vm_compute; reflexivity.
Qed.
Lemma ow_not_fit : ~ sums_fit ow_em ow_had ow_tk [] (Some 131071) false.
Proof. intros [H _]. destruct (H 0%nat _ eq_refl) as [X _]. vm_compute in X. apply X. reflexivity. Qed.
(** an EM cluster with a track and an error whose square times four exceeds int *)
Definition oi_em := [mkEm 10000 23171 100 0].
Definition oi_had := [had0].
Definition oi_tk := [mkTk 9000 150 100 1 3 true].
Lemma oi_phys : phys oi_em oi_had oi_tk [].
Proof. concrete. Qed.
Lemma oi_not_ints : ~ ints_fit oi_em oi_had oi_tk [].
Proof. intros [H _]. specialize (H 0%nat _ eq_refl). vm_compute in H. assert (X : 9000 <> 0) by lia. specialize (H ltac:(discriminate)). discriminate H. Qed.

Lemma photon_exceeds : exists em had track mu mem nsel out e p, phys em had track mu /\ (nsel <= length had)%nat /\
  pfalgo3_full mem nsel em had track mu = Ok out /\
  nth_error em 0 = Some e /\ nth_error (o_pho out) 0 = Some p /\ n_pt p > e_pt e.
Proof.
  exists ow_em, ow_had, ow_tk, [], mem0, 1%nat. eexists. eexists. eexists. split; [exact ow_phys|]. split; [cbn; lia|].
  split; [vm_compute; reflexivity|]. split; [reflexivity|]. split; [reflexivity|]. cbn. lia.
Qed.

(** two tracks of total pt 50000 linked to a hadronic cluster of 30000 *)
Definition on_had := [mkHad 14000 101 1 0 false].
Definition on_tk := [mkTk 25000 6000 100 1 3 true; mkTk 25000 6000 101 0 (-5) true].
Lemma neutral_exceeds : exists em had track mu mem nsel out n, phys em had track mu /\ (nsel <= length had)%nat /\
  pfalgo3_full mem nsel em had track mu = Ok out /\ In n (o_ne out) /\ forall c, In c had -> n_pt n > h_pt c.
Proof.
  exists [], on_had, on_tk, [], mem0, 1%nat. eexists. eexists. split; [concrete|]. split; [cbn; lia|].
  split; [vm_compute; reflexivity|]. split; [left; reflexivity|]. intros c [<-|[]]. cbn. lia.
Qed.

Definition ft_em := [mkEm 100 20 100 0].
Definition ft_tk := [mkTk 32000 150 100 1 3 true; mkTk 32000 200 101 0 (-5) true; mkTk 1536 30 100 0 0 false].
Lemma ft_hyp : phys ft_em [] ft_tk [] /\ em_tksum ft_em ft_tk [] 0 = 65536 /\ exists out, pfalgo3_full mem0 0 ft_em [] ft_tk [] = Ok out.
Proof. split; [concrete|]. split; [vm_compute; reflexivity|]. eexists. vm_compute. reflexivity. Qed.
