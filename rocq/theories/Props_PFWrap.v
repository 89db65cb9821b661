(** C72: the particle-flow firmware on every physical input, including those
    whose transverse momentum sums leave 16 bits. *)
From Verif Require Import Base Data PFHw SpecLink SpecPF SpecPFWrap SpecSort SortFacts PFWrap PFWrapFacts Witness.

(** the run is defined exactly when no [int] overflows (whatever the memory and the number of outputs) *)
Theorem C72_defined_iff : forall em had track mu mem nsel, phys em had track mu -> (nsel <= length had)%nat ->
  ((exists out, pfalgo3_full mem nsel em had track mu = Ok out) <-> ints_fit em had track mu) /\
  (~ ints_fit em had track mu -> pfalgo3_full mem nsel em had track mu = UB SignedOverflow).
Proof. exact wrap_defined_iff. Qed.
Print Assumptions C72_defined_iff.
Example C72_defined_hyp : phys ow_em ow_had ow_tk [] /\ ints_fit ow_em ow_had ow_tk [] /\ ~ sums_fit ow_em ow_had ow_tk [] (Some 131071) false.
Proof. exact (conj ow_phys (conj ow_ints ow_not_fit)). Qed.
Example C72_overflow_hyp : phys oi_em oi_had oi_tk [] /\ ~ ints_fit oi_em oi_had oi_tk [].
Proof. exact (conj oi_phys oi_not_ints). Qed.

(** a defined run yields the 16-bit specification *)
Theorem C72_result : forall em had track mu mem nsel out, phys em had track mu -> (nsel <= length had)%nat ->
  pfalgo3_full mem nsel em had track mu = Ok out ->
  o_ch out = mapi (sp_ch_w em had track mu) track /\
  o_pho out = mapi (sp_pho_w em track mu (fun k => n_puppi (old_outpho mem k))) em /\
  top_n n_pt true nsel (mapi (sp_ne_w em had track mu (fun h => n_puppi (junk_ne_all mem h))) had) (o_ne out) /\
  o_mu out = map (sp_mu track) mu.
Proof. exact wrap_result. Qed.
Print Assumptions C72_result.
Example C72_result_hyp : exists out, pfalgo3_full mem0 1 ow_em ow_had ow_tk [] = Ok out.
Proof. eexists. vm_compute. reflexivity. Qed.

(** where the sums fit, the 16-bit specification is the exact one *)
Theorem C72_exact_where_sums_fit : forall em had track mu, phys em had track mu -> sums_fit em had track mu (Some 131071) false ->
  ints_fit em had track mu /\
  (forall i tk, sp_ch_w em had track mu i tk = sp_ch em had track mu (Some 131071) false i tk) /\
  (forall pup k e, nth_error em k = Some e -> sp_pho_w em track mu pup k e = sp_pho em track mu pup k e) /\
  (forall pup h c, nth_error had h = Some c -> sp_ne_w em had track mu pup h c = sp_ne em had track mu (Some 131071) false pup h c).
Proof. exact wrap_exact. Qed.
Print Assumptions C72_exact_where_sums_fit.
Example C72_exact_hyp : phys lg_em lg_had lg_tk [] /\ sums_fit lg_em lg_had lg_tk [] (Some 131071) false.
Proof. exact (conj lg_phys lg_fit). Qed.

(** charged candidates and muons never carry anything but their track's values,
    and every candidate of non-zero pt keeps the position of its cluster *)
Theorem C72_positions : forall em had track mu mem nsel out, phys em had track mu -> (nsel <= length had)%nat ->
  pfalgo3_full mem nsel em had track mu = Ok out ->
  (forall k e p, nth_error em k = Some e -> nth_error (o_pho out) k = Some p -> n_pt p <> 0 ->
     0 < n_pt p <= 32767 /\ n_eta p = e_eta e /\ n_phi p = e_phi e) /\
  (forall n, In n (o_ne out) -> n_pt n <> 0 -> 0 < n_pt n <= 32767 /\
     exists h c, nth_error had h = Some c /\ n_eta n = h_eta c /\ n_phi n = h_phi c).
Proof. exact wrap_positions. Qed.
Print Assumptions C72_positions.

(** but a photon may exceed its cluster, and a neutral hadron its own, once the sums wrap *)
Theorem C72_photon_bound_refuted : exists em had track mu mem nsel out e p, phys em had track mu /\ (nsel <= length had)%nat /\
  pfalgo3_full mem nsel em had track mu = Ok out /\
  nth_error em 0 = Some e /\ nth_error (o_pho out) 0 = Some p /\ n_pt p > e_pt e.
Proof. exact photon_exceeds. Qed.
Print Assumptions C72_photon_bound_refuted.

Theorem C72_neutral_bound_refuted : exists em had track mu mem nsel out n, phys em had track mu /\ (nsel <= length had)%nat /\
  pfalgo3_full mem nsel em had track mu = Ok out /\ In n (o_ne out) /\ forall c, In c had -> n_pt n > h_pt c.
Proof. exact neutral_exceeds. Qed.
Print Assumptions C72_neutral_bound_refuted.

(** tracks of total pt 65536 linked to an EM cluster count as no track at all *)
Theorem C72_full_turn : forall em had track mu mem nsel out k e, phys em had track mu -> (nsel <= length had)%nat ->
  pfalgo3_full mem nsel em had track mu = Ok out -> nth_error em k = Some e -> em_tksum em track mu k mod 65536 = 0 ->
  exists p, nth_error (o_pho out) k = Some p /\ n_pt p = e_pt e.
Proof. exact full_turn. Qed.
Print Assumptions C72_full_turn.
Example C72_full_turn_hyp : phys ft_em [] ft_tk [] /\ em_tksum ft_em ft_tk [] 0 = 65536 /\
  exists out, pfalgo3_full mem0 0 ft_em [] ft_tk [] = Ok out.
Proof. exact ft_hyp. Qed.
