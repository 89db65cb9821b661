(** C51: the testbench comparators. *)
From Verif Require Import Base Data TestUtils SpecOut LinkProofs.

Theorem C51_had_equals_equivalence : equivb had_equals.
Proof. exact had_equals_equiv. Qed.
Print Assumptions C51_had_equals_equivalence.
Theorem C51_em_equals_equivalence : equivb em_equals.
Proof. exact em_equals_equiv. Qed.
Print Assumptions C51_em_equals_equivalence.
Theorem C51_track_equals_equivalence : equivb track_equals.
Proof. exact track_equals_equiv. Qed.
Print Assumptions C51_track_equals_equivalence.
Theorem C51_mu_equals_equivalence : equivb mu_equals.
Proof. exact mu_equals_equiv. Qed.
Print Assumptions C51_mu_equals_equivalence.
Theorem C51_pf_equals_charged_equivalence : equivb pf_equals_ch.
Proof. exact pf_equals_ch_equiv. Qed.
Print Assumptions C51_pf_equals_charged_equivalence.
Theorem C51_pf_equals_neutral_equivalence : equivb pf_equals_ne.
Proof. exact pf_equals_ne_equiv. Qed.
Print Assumptions C51_pf_equals_neutral_equivalence.

(** which fields each comparator sees *)
Theorem C51_had_equals_sees : forall r o, had_equals r o = true <->
  (h_pt r = 0 /\ h_pt o = 0) \/
  (h_pt r <> 0 /\ h_pt o = h_pt r /\ h_empt o = h_empt r /\ h_eta o = h_eta r /\ h_phi o = h_phi r /\ h_isem o = h_isem r).
Proof. exact had_equals_iff. Qed.
Print Assumptions C51_had_equals_sees.
Theorem C51_em_equals_sees : forall r o, em_equals r o = true <->
  (e_pt r = 0 /\ e_pt o = 0) \/
  (e_pt r <> 0 /\ e_pt o = e_pt r /\ e_pterr o = e_pterr r /\ e_eta o = e_eta r /\ e_phi o = e_phi r).
Proof. exact em_equals_iff. Qed.
Print Assumptions C51_em_equals_sees.
Theorem C51_track_equals_sees : forall r o, track_equals r o = true <->
  (t_pt r = 0 /\ t_pt o = 0) \/
  (t_pt r <> 0 /\ t_pt o = t_pt r /\ t_pterr o = t_pterr r /\ t_eta o = t_eta r /\ t_phi o = t_phi r /\ t_z0 o = t_z0 r).
Proof. exact track_equals_iff. Qed.
Print Assumptions C51_track_equals_sees.
Theorem C51_mu_equals_sees : forall r o, mu_equals r o = true <->
  (m_pt r = 0 /\ m_pt o = 0) \/
  (m_pt r <> 0 /\ m_pt o = m_pt r /\ m_pterr o = m_pterr r /\ m_eta o = m_eta r /\ m_phi o = m_phi r).
Proof. exact mu_equals_iff. Qed.
Print Assumptions C51_mu_equals_sees.
Theorem C51_pf_equals_charged_sees : forall r o, pf_equals_ch r o = true <->
  (c_pt r = 0 /\ c_pt o = 0) \/
  (c_pt r <> 0 /\ c_pt o = c_pt r /\ c_eta o = c_eta r /\ c_phi o = c_phi r /\ c_id o = c_id r /\ c_z0 o = c_z0 r).
Proof. exact pf_equals_ch_iff. Qed.
Print Assumptions C51_pf_equals_charged_sees.
Theorem C51_pf_equals_neutral_sees : forall r o, pf_equals_ne r o = true <->
  (n_pt r = 0 /\ n_pt o = 0) \/
  (n_pt r <> 0 /\ n_pt o = n_pt r /\ n_eta o = n_eta r /\ n_phi o = n_phi r /\ n_id o = n_id r).
Proof. exact pf_equals_ne_iff. Qed.
Print Assumptions C51_pf_equals_neutral_sees.
Example C51_ex : pf_equals_ne (mkNe 5 1 2 3 4) (mkNe 5 1 2 3 99) = true /\ pf_equals_ne (mkNe 5 1 2 3 4) (mkNe 5 1 3 3 4) = false
  /\ pf_equals_ch (mkCh 0 1 2 3 4) (mkCh 0 9 9 9 9) = true /\ track_equals (mkTk 1 0 0 0 0 true) (mkTk 1 0 0 0 0 false) = true.
Proof. repeat split. Qed.
(** [count_nonzero] is the number of objects with positive pt: it is 0 exactly
    when no object has one, and splitting the objects splits the count. *)
Theorem C51_count_nonzero_counts : forall {T} (pt : T -> Z) objs, count_nonzero pt objs = Z.of_nat (length (filter (fun o => 0 <? pt o) objs)).
Proof. exact @count_nonzero_counts. Qed.
Print Assumptions C51_count_nonzero_counts.
Example C51_count_ex : count_nonzero (fun x => x) [5; 0; -3; 7] = 2.
Proof. reflexivity. Qed.
