(** C82: the debugging printout of the reference particle-flow algorithm. *)
From Coq Require Import Ascii String.
From Verif Require Import Base Data PFHw PFRef SpecPF SerText PFDebug SpecPFDebug SpecPFSession PFDebugFacts PFDebugProofs Witness.
Local Open Scope string_scope.
Local Open Scope list_scope.
Local Open Scope Z_scope.

(** ** The printout tells the rules.
    Whenever a physical event is processed with the printout on, the console
    receives exactly the lines of [trace_lines]: the inputs, each muon's link,
    each track's EM cluster, the sums of linked tracks, the class of each EM
    cluster with its window, the electrons, the links and subtractions of EM
    clusters from hadronic ones, the tracks linked to what is left and the
    neutral pt assigned.  The square roots and coordinates shown are accurate to
    about a hundredth. *)
Theorem C82_trace : forall more, exists root angle, roots_shown root /\ angles_shown angle /\
  forall mem nsel em had track mu out text, op_phys (Run mem nsel em had track mu) ->
  pfalgo3_full_say more true mem nsel em had track mu = Ok (out, text) -> read_trace text = trace_lines root angle em had track mu more.
Proof. exact trace_reads. Qed.
Print Assumptions C82_trace.

Definition dg_em := [mkEm 400 40 10 0; mkEm 100 20 60 0].
Definition dg_had := [mkHad 600 10 1 380 true; mkHad 300 60 0 20 false].
Definition dg_tk := [mkTk 200 8 10 0 3 true; mkTk 320 10 61 0 4 true; mkTk 80 8 (-50) 0 0 true].
Definition dg_mu := [mkMu 80 8 (-50) 1; mkMu 40 8 0 100].
Definition dg_run := Run mem0 2 dg_em dg_had dg_tk dg_mu.
Lemma dg_phys : op_phys dg_run.
Proof.
  unfold op_phys, dg_run, phys, dg_em, dg_had, dg_tk, dg_mu. split; [|cbn; repeat split; lia].
  unfold em_phys, had_phys, tk_phys, mu_phys, em_ok, had_ok, tk_ok, mu_ok, inS.
  split; [|split; [|split]]; repeat constructor; cbn; lia.
Qed.
(** an event with 24 lines *)
Example C82_trace_hyp : op_phys dg_run /\ exists out text, pfalgo3_full_say true true mem0 2 dg_em dg_had dg_tk dg_mu = Ok (out, text) /\ length (read_trace text) = 24%nat /\
  In ("FW" :: ["muon"; "linked"; "to"; "track"], [0; 2], []) (read_trace text).
Proof. split; [exact dg_phys|]. eexists. eexists. split; [vm_compute; reflexivity|]. split; [vm_compute; reflexivity|]. vm_compute. intuition auto. Qed.

(** ** The printout changes nothing.
    For every input, physical or not, the result and the definedness are the same
    with and without it: the values read only for printing are always in bounds. *)
Theorem C82_harmless : forall more on mem nsel em had track mu,
  rmap fst (pfalgo3_full_say more on mem nsel em had track mu) = pfalgo3_full_ref mem nsel em had track mu.
Proof. exact say_same. Qed.
Print Assumptions C82_harmless.

(** ** Sessions.
    In any sequence of events and of calls that switch the printout, the results
    are those of the events taken one by one; the lines are those of the events
    processed while the printout is on; it is off at first. *)
Theorem C82_session_results : forall more ops, rmap fst (ref_session more ops) = mapM (fun x => x) (session_results ops).
Proof. exact session_result. Qed.
Print Assumptions C82_session_results.
Theorem C82_session_lines : forall more, exists root angle, roots_shown root /\ angles_shown angle /\
  forall ops outs text, Forall op_phys ops -> ref_session more ops = Ok (outs, text) -> read_trace text = session_lines root angle more false ops.
Proof. exact session_reads. Qed.
Print Assumptions C82_session_lines.
Example C82_session_lines_hyp : Forall op_phys [dg_run; SetDebug true; dg_run; SetDebug false; dg_run] /\
  exists outs text, ref_session true [dg_run; SetDebug true; dg_run; SetDebug false; dg_run] = Ok (outs, text) /\ length outs = 3%nat /\ length (read_trace text) = 24%nat.
Proof.
  pose proof dg_phys as D. assert (T : forall b, op_phys (SetDebug b)) by (intros; exact Logic.I). split; [exact (Forall_cons _ D (Forall_cons _ (T true) (Forall_cons _ D (Forall_cons _ (T false) (Forall_cons _ D (Forall_nil _))))))|]. eexists. eexists. split; [vm_compute; reflexivity|]. split; vm_compute; reflexivity.
Qed.
(** without a call that switches it on, nothing is printed, physical or not *)
Theorem C82_silent : forall more ops outs text, Forall (fun o => o <> SetDebug true) ops -> ref_session more ops = Ok (outs, text) -> text = [].
Proof. exact session_silent. Qed.
Print Assumptions C82_silent.
Example C82_silent_hyp : Forall (fun o => o <> SetDebug true) [dg_run; SetDebug false; dg_run] /\ exists outs text, ref_session true [dg_run; SetDebug false; dg_run] = Ok (outs, text).
Proof. split; [apply Forall_forall; intros o [<-|[<-|[<-|[]]]]; discriminate|]. eexists. eexists. vm_compute. reflexivity. Qed.
