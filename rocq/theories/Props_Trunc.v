(** Reading dumps that are cut short (the program writing them was interrupted,
    a copy was incomplete). *)
From Verif Require Import Base Data Discrete Convert DiscreteIO SpecIO Bhv BhvTest RegTest PFTest SpecTrunc TruncFacts TruncProofs TruncRuns.

(** ** C63 *)
(** Whatever bytes follow them, the complete events are read as written. *)
Theorem C63_complete_events : forall g evs rest n s, Forall event_wf evs -> inputs_open g (Some (dump evs ++ rest)) = Ok s -> (n <= length evs)%nat ->
  event_calls (Ok true) n s = Ok (map Some (firstn n (map event_kept evs))).
Proof. exact c63_intact. Qed.
Print Assumptions C63_complete_events.
(** Up to three more bytes (a cut in the run number) make no difference. *)
Theorem C63_cut_in_run_number : forall g evs p, Forall event_wf evs -> (length p < 4)%nat -> same_reading g (dump evs ++ p) (dump evs) /\ same_programs g (dump evs ++ p) (dump evs).
Proof. exact c63_few. Qed.
Print Assumptions C63_cut_in_run_number.
(** A cut from there to the last count is not noticed: the reader goes on with a
    count it never read. *)
Theorem C63_cut_in_body_refuted : forall g evs e p n s, Forall event_wf evs -> event_wf e -> cut_from e p -> (4 <= length p < muons_at e)%nat ->
  inputs_open g (Some (dump evs ++ p)) = Ok s -> (length evs < n)%nat -> event_calls (Ok true) n s = UB Uninit.
Proof. exact c63_body. Qed.
Print Assumptions C63_cut_in_body_refuted.
Theorem C63_cut_in_body_regions_refuted : forall c special g evs e p n s, Forall good_event evs -> event_wf e -> cut_from e p -> (4 <= length p < muons_at e)%nat ->
  inputs_open g (Some (dump evs ++ p)) = Ok s -> (length (all_regions event_regions evs) < n)%nat ->
  exists N, forall fuel out, (N <= fuel)%nat -> arrays_ok c out -> region_calls c special (Ok true) fuel n out s = Some (UB Uninit).
Proof. exact c63_body_regions. Qed.
Print Assumptions C63_cut_in_body_regions_refuted.
(** So do the test programs that pass on the complete events. *)
Theorem C63_cut_in_body_vertexing_test_refuted : forall g arr tmp evs e p nerr tests, Forall event_wf evs -> event_wf e -> cut_from e p -> (4 <= length p < muons_at e)%nat -> (length evs < 250)%nat ->
  bhv_main (Ok true) g arr tmp (Some (dump evs)) = Ok (0, nerr, tests) -> bhv_main (Ok true) g arr tmp (Some (dump evs ++ p)) = UB Uninit.
Proof. exact c63_body_bhv. Qed.
Print Assumptions C63_cut_in_body_vertexing_test_refuted.
Theorem C63_cut_in_body_regionizer_test_refuted : forall c junk work g st0 evs e p tests, Forall event_wf evs -> event_wf e -> cut_from e p -> (4 <= length p < muons_at e)%nat -> (length evs < 50)%nat ->
  reg_main c (Ok true) junk work g st0 (Some (dump evs)) = Ok (0, tests) -> reg_main c (Ok true) junk work g st0 (Some (dump evs ++ p)) = UB Uninit.
Proof. exact c63_body_reg. Qed.
Print Assumptions C63_cut_in_body_regionizer_test_refuted.
(** After that the incomplete event is accepted as if it were complete: exactly
    what is read for the missing muons and floats is said by [patched]. *)
Theorem C63_cut_in_tail_partial : forall g evs e p, Forall event_wf evs -> event_wf e -> inU 32 g -> cut_from e p -> (muons_at e <= length p)%nat ->
  exists e', patched (before g evs) e (length p) e' /\ event_wf e' /\ event_kept e' = e' /\
    same_reading g (dump evs ++ p) (dump (evs ++ [e'])) /\ same_programs g (dump evs ++ p) (dump (evs ++ [e'])).
Proof. exact c63_tail. Qed.
Print Assumptions C63_cut_in_tail_partial.

(** ** Concrete cases *)
Definition qx_region (pt : Z) : Region := mkRegion 0 0 0 0 0 0 0 [mkClu 300 0 0 50 50 0 false false] [] [] [mkDMu pt 1 2 0 true].
Definition qx_first : event := mkEv 1 2 3 100 200 300 400 500 600 [qx_region 7].
Definition qx_second : event := mkEv 1 2 4 101 201 301 401 501 601 [qx_region 8].
Lemma qx_region_wf pt : 0 <= pt < 100 -> region_wf (qx_region pt).
Proof.
  intros H. split; [repeat (apply Forall_cons; [unfold inU; cbn; lia|]); apply Forall_nil|].
  split; [split; [apply Forall_cons; [unfold clu_wf, inS, inU; cbn; lia|apply Forall_nil]|unfold fits; cbn; lia]|]. split; [split; [apply Forall_nil|unfold fits; cbn; lia]|]. split; [split; [apply Forall_nil|unfold fits; cbn; lia]|].
  split; [apply Forall_cons; [unfold dmu_wf, inS, inU; cbn; lia|apply Forall_nil]|unfold fits; cbn; lia].
Qed.
Lemma qx_wf : event_wf qx_first /\ event_wf qx_second.
Proof.
  split; (split; [unfold inU; cbn; lia|]; split; [unfold inU; cbn; lia|]; split; [unfold inU; cbn; lia|]; split; [repeat (apply Forall_cons; [unfold inU; cbn; lia|]); apply Forall_nil|]; split; [|unfold fits; cbn; lia]);
    (apply Forall_cons; [apply qx_region_wf; lia|apply Forall_nil]).
Qed.
(** [n] bytes of the second event *)
Definition qx_cut (n : nat) : list Z := firstn n (event_dump qx_second).
Lemma qx_cuts n : (n < 110)%nat -> length (event_dump qx_second) = 110%nat -> cut_from qx_second (qx_cut n).
Proof.
  intros H L. exists (skipn n (event_dump qx_second)). split; [unfold qx_cut; symmetry; apply firstn_skipn|]. intros E. apply (f_equal (@length _)) in E. rewrite skipn_length, L in E. change (length (@nil Z)) with 0%nat in E. lia.
Qed.
Lemma qx_sizes : length (event_dump qx_second) = 110%nat /\ muons_at qx_second = 77%nat. Proof. vm_compute. split; reflexivity. Qed.
Lemma qx_cut_ok n : (n < 110)%nat -> cut_from qx_second (qx_cut n) /\ length (qx_cut n) = n.
Proof. intros H. destruct qx_sizes as (L & _). split; [apply qx_cuts; assumption|]. unfold qx_cut. rewrite firstn_length, L. lia. Qed.
(** the hypotheses can be met: cuts in the body and in the tail *)
Example C63_ex_body : event_wf qx_second /\ cut_from qx_second (qx_cut 40) /\ (4 <= length (qx_cut 40) < muons_at qx_second)%nat.
Proof. destruct (qx_cut_ok 40 ltac:(lia)) as (C & L). split; [apply qx_wf|]. split; [exact C|]. rewrite L, (proj2 qx_sizes). lia. Qed.
Example C63_ex_tail : event_wf qx_second /\ cut_from qx_second (qx_cut 90) /\ (muons_at qx_second <= length (qx_cut 90))%nat.
Proof. destruct (qx_cut_ok 90 ltac:(lia)) as (C & L). split; [apply qx_wf|]. split; [exact C|]. rewrite L, (proj2 qx_sizes). lia. Qed.
Definition qx_open (bytes : list Z) : inputs := mkIn (mkFile bytes false) (event0 0) 0.
(** The second event, 33 bytes short, is shown with the muon, the vertex and the
    other floats of the first one. *)
Theorem C63_stale_event_refuted : exists e', event_wf qx_first /\ event_wf qx_second /\ cut_from qx_second (qx_cut 77) /\
  inputs_open 0 (Some (dump [qx_first] ++ qx_cut 77)) = Ok (qx_open (dump [qx_first] ++ qx_cut 77)) /\
  event_calls (Ok true) 3 (qx_open (dump [qx_first] ++ qx_cut 77)) = Ok [Some qx_first; Some e'; None] /\
  ev_event e' = 4 /\ floats e' = floats qx_first /\ last_muons e' = last_muons qx_first /\ floats e' <> floats qx_second /\ last_muons e' <> last_muons qx_second.
Proof.
  exists (mkEv 1 2 4 100 200 300 400 500 600 [qx_region 7]). split; [apply qx_wf|]. split; [apply qx_wf|]. split; [apply qx_cut_ok; lia|]. split; [reflexivity|]. split; [vm_compute; reflexivity|].
  split; [reflexivity|]. split; [reflexivity|]. split; [reflexivity|]. split; discriminate.
Qed.
Print Assumptions C63_stale_event_refuted.
(** With 12 bytes of floats: z0, genZ0 and the median alpha are right, the rest is
    that of the previous event. *)
Example C63_ex_mixed : event_calls (Ok true) 2 (qx_open (dump [qx_first] ++ qx_cut 98)) = Ok [Some qx_first; Some (mkEv 1 2 4 101 201 301 400 500 600 [qx_region 8])].
Proof. vm_compute. reflexivity. Qed.
