(** Corollaries for the particle-flow test program. *)
From Coq Require Import Ascii String.
From Verif Require Import Base BaseFacts Data PFHw PFRef Encoding TestUtils SpecPF SpecOut SpecPFWrap SpecPFRef PFProofs PFWrap PFRefWrap PFRefAgree Discrete Convert DiscreteIO SpecIO IOFacts IOProofs RegionLoop PFTest SpecTest PFTestProofs.
Local Open Scope list_scope.
Local Open Scope Z_scope.

(** the domain on which C01 proves that firmware and reference are defined and agree *)
Definition in_domain (c : config) (r : fwregion) : Prop :=
  let em := fw_emcalo r in let had := fw_calo r in let tk := fw_track r in let mu := fw_muon r in
  phys em had tk mu /\ ints_fit_r em had tk mu true /\ ~ NegativeSum em had tk mu /\ ~ KeepConflict_w em had tk mu /\
  ~ ErrOneConflict em had tk mu /\ ~ DirtySlot em had tk mu /\ (NSELCALO c <= length had)%nat.
Lemma domain_agree c m1 m2 r : in_domain c r -> exists o q, hw_on c m1 r = Ok o /\ ref_on c m2 r = Ok q /\ agree q o.
Proof.
  intros (HP & HI & HN & HK & H1 & HD & Hn). destruct (proj2 (proj1 (ref_wrap_defined_iff _ _ _ _ m2 _ HP Hn)) HI) as (q & Hq).
  destruct (ref_defined_agree _ _ _ _ true HP HN H1 HD (or_intror HK) m1 m2 _ q Hn Hq) as (o & Ho & A). exists o, q. auto.
Qed.
(** on physical regions the only undefined behaviour is an int that overflows *)
Lemma phys_undefined b c mh mr r k : phys (fw_emcalo r) (fw_calo r) (fw_track r) (fw_muon r) -> (NSELCALO c <= length (fw_calo r))%nat -> undefined_on b c mh mr r k ->
  k = SignedOverflow /\ (~ ints_fit (fw_emcalo r) (fw_calo r) (fw_track r) (fw_muon r) \/ ~ ints_fit_r (fw_emcalo r) (fw_calo r) (fw_track r) (fw_muon r) true).
Proof.
  intros HP Hn HU.
  assert (H1 : hw_on c mh r = UB k -> k = SignedOverflow /\ ~ ints_fit (fw_emcalo r) (fw_calo r) (fw_track r) (fw_muon r)).
  { unfold hw_on. intros E. destruct (pfalgo3_full_wrap _ _ _ _ HP mh _ Hn) as [[_ X]|[N X]]; rewrite X in E; [discriminate|]. split; [congruence|exact N]. }
  assert (H2 : ref_on c mr r = UB k -> k = SignedOverflow /\ ~ ints_fit_r (fw_emcalo r) (fw_calo r) (fw_track r) (fw_muon r) true).
  { unfold ref_on, pfalgo3_full_ref. intros E. destruct (pfalgo3_full_ref_wrap _ _ _ _ true HP mr _ Hn) as [[_ X]|[N X]]; rewrite X in E; [discriminate|]. split; [congruence|exact N]. }
  destruct b; destruct HU as [HU|(x & _ & HU)]; (apply H1 in HU || apply H2 in HU); tauto.
Qed.
Lemma c57_undefined b validate c mh mr evs special k : Forall (fun r => phys (fw_emcalo r) (fw_calo r) (fw_track r) (fw_muon r) /\ (NSELCALO c <= length (fw_calo r))%nat) (tested c special NTEST evs) ->
  reaches_undefined b validate c mh mr 1 (tested c special NTEST evs) k ->
  k = SignedOverflow /\ exists r, In r (tested c special NTEST evs) /\
    (~ ints_fit (fw_emcalo r) (fw_calo r) (fw_track r) (fw_muon r) \/ ~ ints_fit_r (fw_emcalo r) (fw_calo r) (fw_track r) (fw_muon r) true).
Proof.
  intros HF (runs & r & Hr & HU & _). apply nth_error_In in Hr. rewrite Forall_forall in HF. destruct (HF r Hr) as [HP Hn].
  destruct (phys_undefined _ _ _ _ _ _ HP Hn HU) as [E X]. split; [exact E|]. exists r. auto.
Qed.
Lemma agree_same q o o' : same_out o o' -> agree q o -> agree q o'.
Proof.
  intros (E1 & E2 & E3 & E4) (A1 & A2 & A3 & A4). unfold agree. rewrite <- E1, <- E4.
  assert (G : forall l l1 l2, Forall2 same_ne l1 l2 -> Forall2 (fun a b => pf_equals_ne a b = true) l l1 -> Forall2 (fun a b => pf_equals_ne a b = true) l l2).
  { intros l l1 l2 H. revert l. induction H as [|x y l1 l2 (F1 & F2 & F3 & F4) _ IH]; intros l HA; inversion HA; subst; constructor; [|auto]. unfold TestUtils.pf_equals_ne in *. rewrite <- F1, <- F2, <- F3, <- F4. assumption. }
  repeat split; [assumption|eapply G; eassumption|eapply G; eassumption|assumption].
Qed.
Lemma c57_passes b validate c special mh mr g arr pho ne evs : build_ok b c -> (forall t, mem_typed (mh t)) -> arrays_ok c arr -> length pho = NEMCALO c -> length ne = NSELCALO c -> Forall good_event evs ->
  Forall (in_domain c) (tested c special NTEST evs) ->
  exists N runs, (forall fuel, (N <= fuel)%nat -> pf_main b validate c special (Ok true) fuel mh mr g arr pho ne (Some (dump evs)) = Some (Ok (0, runs))) /\
    map pr_region runs = tested c special NTEST evs.
Proof.
  intros HB HM HA Lp Ln HG HD.
  destruct (main_outcome b validate c special mh mr g arr pho ne evs HB HM HA Lp Ln HG) as (N & code & runs & HR & O1 & O2).
  { intros i r Hi. apply nth_error_In in Hi. destruct (domain_agree c (mh (1 + i)%nat) (mr (1 + i)%nat) r (proj1 (Forall_forall _ _) HD r Hi)) as (o & q & H1 & H2 & _). eauto. }
  destruct O2 as [(-> & L & _)|(_ & _ & before & bad & -> & _ & B)].
  - exists N, runs. split; [exact HR|]. apply nth_ext with (d := mkFw [] [] [] [] 0) (d' := mkFw [] [] [] [] 0); [rewrite map_length; exact L|]. intros i Hi. rewrite map_length in Hi.
    destruct (nth_error runs i) as [t|] eqn:E; [|apply nth_error_None in E; lia]. destruct (O1 i t E) as (r & Hr & Er & _).
    apply (map_nth_error pr_region) in E. rewrite (nth_error_nth _ _ _ E), (nth_error_nth _ _ _ Hr). exact Er.
  - exfalso. apply B. destruct (O1 (length before) bad) as (r & Hr & Er & Hq & o & Ho & Hs & _); [rewrite nth_error_app2, Nat.sub_diag by lia; reflexivity|].
    destruct (domain_agree c (mh (1 + length before)%nat) (mr (1 + length before)%nat) r (proj1 (Forall_forall _ _) HD r (nth_error_In _ _ Hr))) as (o' & q' & H1 & H2 & H3).
    rewrite Ho in H1. rewrite Hq in H2. injection H1 as <-. injection H2 as <-. exact (agree_same _ _ _ Hs H3).
Qed.
Lemma c57_standard b validate c special mh mr g arr pho ne e evs fuel : good_event e ->
  pf_main b validate c special (UB MissingReturn) (S fuel) mh mr g arr pho ne (Some (dump (e :: evs))) = Some (UB MissingReturn).
Proof.
  intros HG. unfold pf_main. destruct (inputs_open g (Some (dump (e :: evs)))) as [s|k] eqn:EO; [|discriminate EO].
  pose proof (c48_standard c special g e evs 0 s fuel (clear_arrays arr) HG EO) as H. cbn [region_calls] in H.
  change NTEST with (S 499). cbn [region_loop]. destruct (next_region_fw c special (UB MissingReturn) (S fuel) (clear_arrays arr) s) as [[[[r out] s']|k]|]; try discriminate H. injection H as ->. reflexivity.
Qed.
Lemma builds_ok : build_ok MP7 cfg_TESTMP7 /\ build_ok CTP7 cfg_TESTCTP7 /\ build_ok Plain cfg_default.
Proof. repeat split; try (apply Nat.leb_le; reflexivity). Qed.
