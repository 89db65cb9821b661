(** C01 and C73 on every physical input: the reference particle-flow algorithm in
    16-bit arithmetic and its agreement with the firmware. *)
From Verif Require Import Base Data PFHw PFRef TestUtils SpecLink SpecPF SpecOut SpecPFWrap SpecPFRef SpecSort SortFacts
  PFWrapFacts PFRefAgree PFRefEvents Witness.

(** ** C01 without bounds on the sums.
    Wherever the reference is defined the firmware is defined and agrees with it,
    unless a sum of linked tracks reads as negative, a keep conflict occurs, a
    track of error 1 sits next to a cluster one unit below it, or an empty slot
    with an error is linked to a hadronic cluster. *)
Theorem C01_agree_where_reference_defined_partial : forall em had track mu mem1 mem2 nsel r,
  phys em had track mu -> (nsel <= length had)%nat ->
  ~ NegativeSum em had track mu -> ~ KeepConflict_w em had track mu ->
  ~ ErrOneConflict em had track mu -> ~ DirtySlot em had track mu ->
  pfalgo3_full_ref mem2 nsel em had track mu = Ok r ->
  exists o, pfalgo3_full mem1 nsel em had track mu = Ok o /\ agree r o.
Proof.
  exact (fun em had track mu mem1 mem2 nsel r HP Hn HN HK H1 HD HR =>
    ref_defined_agree em had track mu true HP HN H1 HD (or_intror HK) mem1 mem2 nsel r Hn HR).
Qed.
Print Assumptions C01_agree_where_reference_defined_partial.
Example C01_agree_where_reference_defined_hyp : phys ag_em ag_had ag_tk [] /\ (1 <= length ag_had)%nat /\
  ~ NegativeSum ag_em ag_had ag_tk [] /\ ~ KeepConflict_w ag_em ag_had ag_tk [] /\
  ~ ErrOneConflict ag_em ag_had ag_tk [] /\ ~ DirtySlot ag_em ag_had ag_tk [] /\
  em_tksum ag_em ag_tk [] 0 = 75000 /\ sum_where (in_had_w ag_em ag_had ag_tk [] 0) t_pt ag_tk = 70030 /\
  exists r, pfalgo3_full_ref mem0 1 ag_em ag_had ag_tk [] = Ok r.
Proof. exact (conj ag_phys (conj (le_n 1) ag_hyp)). Qed.

(** none of the four hypotheses can be dropped *)
Theorem C01_negative_sum_refuted : exists em had track mu mem nsel o r, phys em had track mu /\ (nsel <= length had)%nat /\
  ~ KeepConflict_w em had track mu /\ ~ ErrOneConflict em had track mu /\ ~ DirtySlot em had track mu /\
  pfalgo3_full mem nsel em had track mu = Ok o /\ pfalgo3_full_ref mem nsel em had track mu = Ok r /\ ~ agree r o.
Proof. exact neg_needed. Qed.
Print Assumptions C01_negative_sum_refuted.
Theorem C01_keep_conflict_refuted : exists em had track mu mem nsel o r, phys em had track mu /\ (nsel <= length had)%nat /\
  ~ NegativeSum em had track mu /\ ~ ErrOneConflict em had track mu /\ ~ DirtySlot em had track mu /\
  pfalgo3_full mem nsel em had track mu = Ok o /\ pfalgo3_full_ref mem nsel em had track mu = Ok r /\ ~ agree r o.
Proof. exact keep_needed. Qed.
Print Assumptions C01_keep_conflict_refuted.
Theorem C01_error_one_refuted : exists em had track mu mem nsel o r, phys em had track mu /\ (nsel <= length had)%nat /\
  ~ NegativeSum em had track mu /\ ~ KeepConflict_w em had track mu /\ ~ DirtySlot em had track mu /\
  pfalgo3_full mem nsel em had track mu = Ok o /\ pfalgo3_full_ref mem nsel em had track mu = Ok r /\ ~ agree r o.
Proof. exact one_needed. Qed.
Print Assumptions C01_error_one_refuted.
Theorem C01_dirty_slot_refuted : exists em had track mu mem nsel o r, phys em had track mu /\ (nsel <= length had)%nat /\
  ~ NegativeSum em had track mu /\ ~ KeepConflict_w em had track mu /\ ~ ErrOneConflict em had track mu /\
  pfalgo3_full mem nsel em had track mu = Ok o /\ pfalgo3_full_ref mem nsel em had track mu = Ok r /\ ~ agree r o.
Proof. exact dirty_needed. Qed.
Print Assumptions C01_dirty_slot_refuted.

(** nor can "the reference is defined" be replaced by "the firmware is defined" *)
Theorem C01_reference_stricter_refuted : exists em had track mu mem nsel o, phys em had track mu /\ (nsel <= length had)%nat /\
  ~ NegativeSum em had track mu /\ ~ KeepConflict_w em had track mu /\ ~ ErrOneConflict em had track mu /\ ~ DirtySlot em had track mu /\
  pfalgo3_full mem nsel em had track mu = Ok o /\ pfalgo3_full_ref mem nsel em had track mu = UB SignedOverflow.
Proof. exact ref_stricter. Qed.
Print Assumptions C01_reference_stricter_refuted.

(** ** C73: the reference algorithm *)
Theorem C73_defined_iff : forall em had track mu mem nsel, phys em had track mu -> (nsel <= length had)%nat ->
  ((exists out, pfalgo3_full_ref mem nsel em had track mu = Ok out) <-> ints_fit_r em had track mu true) /\
  (~ ints_fit_r em had track mu true -> pfalgo3_full_ref mem nsel em had track mu = UB SignedOverflow).
Proof. exact ref_wrap_defined_iff. Qed.
Print Assumptions C73_defined_iff.
Example C73_defined_hyp : phys ow_em ow_had ow_tk [] /\ ints_fit_r ow_em ow_had ow_tk [] true.
Proof. exact (conj ow_phys ow_ints_r). Qed.
Example C73_overflow_hyp : phys oi_em oi_had oi_tk [] /\ ~ ints_fit_r oi_em oi_had oi_tk [] true.
Proof. exact (conj oi_phys oi_not_ints_r). Qed.

Theorem C73_result : forall em had track mu mem nsel out, phys em had track mu -> (nsel <= length had)%nat ->
  pfalgo3_full_ref mem nsel em had track mu = Ok out ->
  o_ch out = mapi (sp_ch_r em had track mu true) track /\
  o_pho out = mapi (sp_pho_r em track mu (fun k => n_puppi (old_outpho mem k))) em /\
  top_n n_pt true nsel (mapi (sp_ne_r em had track mu true (fun h => n_puppi (junk_ne_all mem h))) had) (o_ne out) /\
  o_mu out = map (sp_mu track) mu.
Proof. exact ref_wrap_result. Qed.
Print Assumptions C73_result.
Example C73_result_hyp : exists out, pfalgo3_full_ref mem0 1 ow_em ow_had ow_tk [] = Ok out.
Proof. exact ow_ref_run. Qed.

(** in the reference a photon never exceeds its cluster, even when the sums wrap
    (in the firmware it may: C72_photon_bound_refuted) *)
Theorem C73_photon_bound : forall em had track mu mem nsel out k e p, phys em had track mu -> (nsel <= length had)%nat ->
  pfalgo3_full_ref mem nsel em had track mu = Ok out -> nth_error em k = Some e -> nth_error (o_pho out) k = Some p ->
  0 <= n_pt p <= e_pt e.
Proof. exact ref_photon_bound. Qed.
Print Assumptions C73_photon_bound.

(** a neutral hadron may exceed every hadronic cluster, once the EM energy subtracted wraps *)
Theorem C73_neutral_bound_refuted : exists em had track mu mem nsel out n, phys em had track mu /\ (nsel <= length had)%nat /\
  pfalgo3_full_ref mem nsel em had track mu = Ok out /\ In n (o_ne out) /\ forall c, In c had -> n_pt n > h_pt c.
Proof. exact ref_neutral_exceeds. Qed.
Print Assumptions C73_neutral_bound_refuted.
