(** C70: nextRegion and nextEvent called on one object in any order. *)
From Coq Require Import Sorting.Sorted.
From Verif Require Import Base Data Discrete Convert DiscreteIO SpecIO MixedIO SpecMixed MixedProofs Props_IO.
Open Scope Z_scope.

(** Full statement: on every dump of numbered events that have regions, every
    sequence of nextRegion and nextEvent calls is defined, goes forward through
    the file, and skips nothing but the rest of the event that nextEvent leaves.
    It is false in two ways.  As in C48, Event::readFromFile is taken to return
    true where it lacks a return statement. *)

(** exactly what every sequence of calls does *)
Theorem C70_calls_partial : forall c special g evs h s, Forall good_event evs -> Forall (fun e => ev_event e <> 0) evs -> inputs_open g (Some (dump evs)) = Ok s ->
  exists N o, follows evs 0 0 h o /\ match o with
  | None => forall fuel out, (N <= fuel)%nat -> arrays_ok c out -> mixed_calls c special (Ok true) fuel h out s = Some (UB OutOfBounds)
  | Some marks => exists ls, Forall2 (describes c special evs) marks ls /\
      forall fuel out, (N <= fuel)%nat -> arrays_ok c out -> mixed_calls c special (Ok true) fuel h out s = Some (Ok ls)
  end.
Proof. exact c70_exact. Qed.
Print Assumptions C70_calls_partial.
(** the specification allows one result for each sequence of calls *)
Theorem C70_calls_unique : forall evs h o1 o2, follows evs 0 0 h o1 -> follows evs 0 0 h o2 -> o1 = o2.
Proof. exact (fun evs h o1 o2 H1 H2 => follows_unique evs 0 0 h o1 H1 o2 H2). Qed.
Print Assumptions C70_calls_unique.
(** When all events have the same number of regions every sequence of calls is
    defined, and what it shows goes forward through the file: no region or
    event is shown twice. *)
Theorem C70_same_size_partial : forall c special g evs m h s, Forall good_event evs -> Forall (fun e => ev_event e <> 0) evs -> Forall (fun e => length (ev_regions e) = m) evs ->
  inputs_open g (Some (dump evs)) = Ok s ->
  exists N ls marks, Forall2 answers h marks /\ Forall2 (describes c special evs) marks ls /\ StronglySorted forward marks /\
  forall fuel out, (N <= fuel)%nat -> arrays_ok c out -> mixed_calls c special (Ok true) fuel h out s = Some (Ok ls).
Proof. exact c70_same_size. Qed.
Print Assumptions C70_same_size_partial.
(** Calls of nextEvent before the first nextRegion are harmless: the regions of
    the last event read, and of the events after it, follow. *)
Theorem C70_events_first : forall c special g pre e post n s, Forall good_event (pre ++ e :: post) -> Forall (fun e => ev_event e <> 0) (e :: post) ->
  inputs_open g (Some (dump (pre ++ e :: post))) = Ok s ->
  exists N, forall fuel out, (N <= fuel)%nat -> arrays_ok c out ->
  mixed_calls c special (Ok true) fuel (repeat CallEvent (S (length pre)) ++ repeat CallRegion n) out s =
  Some (Ok (map (fun e => SawEvent (event_kept e)) (pre ++ [e]) ++
            map region_seen (shown (map (fun p => fw_arrays c special (fst p) (snd p)) (all_regions barrel_regions (e :: post))) n))).
Proof. exact c70_events_first. Qed.
Print Assumptions C70_events_first.

(** A nextEvent after a nextRegion does not go back to region 0: the next call
    shows region 1 of the new event, and region 0 is lost. *)
Theorem C70_nothing_lost_refuted : forall c special g evs e0 e1 r0 r1 s, Forall good_event evs -> Forall (fun e => ev_event e <> 0) evs -> inputs_open g (Some (dump evs)) = Ok s ->
  nth_error evs 0 = Some e0 -> nth_error evs 1 = Some e1 -> nth_error (ev_regions e0) 0 = Some r0 -> nth_error (ev_regions e1) 1 = Some r1 -> barrel r0 = true -> barrel r1 = true ->
  exists N, forall fuel out, (N <= fuel)%nat -> arrays_ok c out ->
  mixed_calls c special (Ok true) fuel [CallRegion; CallEvent; CallRegion] out s =
  Some (Ok [SawRegion (fw_arrays c special e0 r0); SawEvent (event_kept e1); SawRegion (fw_arrays c special e1 r1)]).
Proof. exact c70_skips. Qed.
Print Assumptions C70_nothing_lost_refuted.
(** After n regions of the first event, nextEvent and nextRegion read past the
    end of a second event that has fewer than n regions. *)
Theorem C70_defined_refuted : forall c special g evs e0 e1 n s, Forall good_event evs -> Forall (fun e => ev_event e <> 0) evs -> inputs_open g (Some (dump evs)) = Ok s ->
  nth_error evs 0 = Some e0 -> nth_error evs 1 = Some e1 -> Forall (fun r => barrel r = true) (firstn n (ev_regions e0)) -> (length (ev_regions e1) < n <= length (ev_regions e0))%nat ->
  exists N, forall fuel out, (N <= fuel)%nat -> arrays_ok c out ->
  mixed_calls c special (Ok true) fuel (repeat CallRegion n ++ [CallEvent; CallRegion]) out s = Some (UB OutOfBounds).
Proof. exact c70_past_end. Qed.
Print Assumptions C70_defined_refuted.

Definition mx_event (num : Z) (etas : list Z) : event := mkEv 1 2 num 1084227584 0 0 0 0 0 (map ix_region etas).
Lemma mx_event_good num etas : inU 64 num -> etas <> [] -> Z.of_nat (length etas) < 2 ^ 32 -> Forall (fun b => inU 32 b /\ f32_finite b) etas -> good_event (mx_event num etas).
Proof.
  intros H NE L F. unfold inU in H. split.
  - split; [unfold inU; cbn; lia|]. split; [unfold inU; cbn; lia|]. split; [exact H|]. split; [repeat constructor; cbn; lia|]. cbn [mx_event ev_regions].
    split; [rewrite Forall_map; eapply Forall_impl; [|exact F]; intros b (B & _); apply ix_region_wf; exact B|unfold fits; rewrite map_length; exact L].
  - cbn [mx_event ev_regions]. split; [rewrite Forall_map; eapply Forall_impl; [|exact F]; intros b (_ & B); exact B|destruct etas; [congruence|discriminate]].
Qed.
(** |eta| = 1, 2 (not barrel), 1.5 *)
Definition mx_dump : list event := [mx_event 7 [1065353216; 3221225472; 1069547520]; mx_event 8 [1065353216; 1069547520; 3221225472]].
Definition mx_short : list event := [mx_event 7 [1065353216; 1069547520]; mx_event 8 [1065353216]].
Lemma mx_good : Forall good_event mx_dump /\ Forall good_event mx_short.
Proof.
  split; unfold mx_dump, mx_short; repeat (apply Forall_cons; [apply mx_event_good; [unfold inU; lia|discriminate|cbn; lia|repeat (apply Forall_cons; [split; [unfold inU; lia|vm_compute; discriminate]|]); constructor]|]); constructor.
Qed.
(** all the hypotheses, and what the calls give: the vertex position, or the
    number of the event, or -1 *)
Example C70_hyp : Forall good_event mx_dump /\ Forall (fun e => ev_event e <> 0) mx_dump /\ Forall (fun e => length (ev_regions e) = 3%nat) mx_dump /\
  (exists e0 e1 r0 r1, nth_error mx_dump 0 = Some e0 /\ nth_error mx_dump 1 = Some e1 /\ nth_error (ev_regions e0) 0 = Some r0 /\ nth_error (ev_regions e1) 1 = Some r1 /\ barrel r0 = true /\ barrel r1 = true) /\
  Forall good_event mx_short /\ Forall (fun e => ev_event e <> 0) mx_short /\
  (exists e0 e1, nth_error mx_short 0 = Some e0 /\ nth_error mx_short 1 = Some e1 /\ Forall (fun r => barrel r = true) (firstn 2 (ev_regions e0)) /\ (length (ev_regions e1) < 2 <= length (ev_regions e0))%nat) /\
  (forall s, inputs_open 0 (Some (dump mx_dump)) = Ok s -> exists out l, arrays_ok cfg_default out /\
    mixed_calls cfg_default (fun b => b) (Ok true) 20 [CallRegion; CallEvent; CallRegion; CallEvent; CallRegion; CallEvent] out s = Some (Ok l) /\
    map (fun o => match o with SawRegion r => fw_zpv r | SawEvent e => ev_event e | SawNothing => -1 end) l = [100; 8; 100; -1; -1; -1]).
Proof.
  destruct mx_good as (G1 & G2). split; [exact G1|]. split; [repeat constructor; discriminate|]. split; [repeat constructor|]. split; [do 4 eexists; repeat split|].
  split; [exact G2|]. split; [repeat constructor; discriminate|]. split; [do 2 eexists; split; [reflexivity|]; split; [reflexivity|]; split; [repeat constructor|cbn; lia]|].
  intros s E. injection E as <-. exists (mkFw (repeat had0 5) (repeat em0 5) (repeat tk0 7) (repeat mu0 2) 0). eexists. split; [vm_compute; auto|]. split; [vm_compute; reflexivity|reflexivity].
Qed.
