(** C02: links go to the nearest admissible object and only to it. *)
From Verif Require Import Base Data PFHw SpecLink SpecPF LinkFacts LinkProofs Witness.

(** at most one bit is set, and one is set exactly when some object is admissible *)
Theorem C02_at_most_one_link : forall row cand, marks_best row cand ->
  (forall k k', nth_error row k = Some true -> nth_error row k' = Some true -> k = k') /\
  ((exists k, nth_error row k = Some true) <-> some_admissible cand).
Proof. exact marks_unique. Qed.
Print Assumptions C02_at_most_one_link.
Example C02_at_most_one_link_hyp : marks_best [false; true; false] [None; Some 3; Some 3].
Proof. exact (onehot_marks 3 [None; Some 3; Some 3] eq_refl). Qed.

(** the scan used in other specifications computes the best candidate *)
Theorem first_best_is_best : forall cand i, best cand = Some i <-> is_best cand i.
Proof. exact best_spec. Qed.
Print Assumptions first_best_is_best.

Theorem C02_tk2em_link : forall em track isMu i tk m, nth_error track i = Some tk -> nth_error isMu i = Some m ->
  exists row, nth_error (tk2em_link em track isMu) i = Some row /\
    (m = false -> marks_best row (cand_tk_em em tk)) /\
    (m = true -> length row = length em /\ forall k, nth_error row k <> Some true).
Proof. exact c02_tk2em. Qed.
Print Assumptions C02_tk2em_link.
Example C02_tk2em_link_ex : tk2em_link ev_em ev_tk [false; false; true; false] =
  [[false; false]; [true; false]; [false; false]; [false; true]].
Proof. vm_compute. reflexivity. Qed.

Theorem C02_tk2calo_link_dronly : forall had track i tk, nth_error track i = Some tk ->
  exists row, nth_error (tk2calo_link_dronly had track) i = Some row /\ marks_best row (cand_tk_had_dr had tk).
Proof. exact c02_dronly. Qed.
Print Assumptions C02_tk2calo_link_dronly.
Example C02_tk2calo_link_dronly_ex : tk2calo_link_dronly (ev_had ++ [mkHad 300 50 51 0 false]) ev_tk =
  [[false; false; false; true]; [false; true; false; false]; [false; false; false; false]; [false; false; false; false]].
Proof. vm_compute. reflexivity. Qed.

Theorem C02_tk2calo_link_drdpt : forall had track, Forall tk_phys track -> Forall had_phys had ->
  exists rows, tk2calo_link_drdpt had track = Ok rows /\
  forall i tk, nth_error track i = Some tk ->
    exists row, nth_error rows i = Some row /\ marks_best row (cand_tk_had (Some 131071) had tk).
Proof. exact c02_drdpt. Qed.
Print Assumptions C02_tk2calo_link_drdpt.
Example C02_tk2calo_link_drdpt_hyp : Forall tk_phys ev_tk /\ Forall had_phys ev_had /\
  tk2calo_link_drdpt ev_had ev_tk = Ok [[true; false; false]; [false; true; false]; [false; false; false]; [false; false; false]].
Proof. split; [exact (proj1 (proj2 (proj2 ev_phys)))|]. split; [exact (proj1 (proj2 ev_phys))|]. vm_compute. reflexivity. Qed.

Theorem C02_em2calo_link : forall em had i e, Forall em_ok em -> nth_error em i = Some e ->
  exists row, nth_error (em2calo_link em had) i = Some row /\ marks_best row (cand_em_had had e).
Proof. exact c02_em2calo. Qed.
Print Assumptions C02_em2calo_link.
Example C02_em2calo_link_hyp : Forall em_ok ev_em /\ em2calo_link ev_em ev_had = [[false; true; false]; [false; false; false]].
Proof. split; [concrete|vm_compute; reflexivity]. Qed.
