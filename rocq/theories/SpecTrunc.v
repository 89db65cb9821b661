(** Vocabulary for dumps cut short, e.g. because the program writing them was
    interrupted. *)
From Verif Require Import Base Data Discrete Convert DiscreteIO SpecIO Bhv BhvTest RegTest PFTest.

(** [p] is what is left of the bytes of event [e]: some are missing *)
Definition cut_from (e : event) (p : list Z) : Prop := exists q, event_dump e = p ++ q /\ q <> [].
(** the muons of the last region, and the position of their first byte in the
    event: only they (9 bytes each) and the 24 bytes of the floats follow *)
Definition last_muons (e : event) : list DMu := rg_muon (last (ev_regions e) region0).
Definition muons_at (e : event) : nat := length (event_dump e) - 24 - 9 * length (last_muons e).
(** the event in memory before any is read (one field is not initialised), and after [evs] have been read *)
Definition no_event (g : Z) : event := {| ev_run := 0; ev_lumi := 0; ev_event := 0; ev_z0 := 0; ev_genz0 := g; ev_acm := 0; ev_acr := 0; ev_afm := 0; ev_afr := 0; ev_regions := [] |}.
Definition before (g : Z) (evs : list event) : event := last (map event_kept evs) (no_event g).
Definition floats (e : event) : list Z := [ev_z0 e; ev_genz0 e; ev_acm e; ev_acr e; ev_afm e; ev_afr e].
(** a muon the vector did not hold for the previous event *)
Definition new_muon : DMu := mkDMu 0 0 0 0 false.
(** [old] is the event in memory, [e'] what reading the first [n] bytes of
    event [e] makes of it: fields completely in the file are those of [e];
    muons and floats of which the file holds no byte keep the value they had for
    the previous event, or are those of a new muon *)
Definition patched (old e : event) (n : nat) (e' : event) : Prop :=
  ev_run e' = ev_run e /\ ev_lumi e' = ev_lumi e /\ ev_event e' = ev_event e /\
  (exists mus, ev_regions e' = map region_kept (removelast (ev_regions e)) ++
      match ev_regions e with [] => [] | r0 :: _ => let r := region_kept (last (ev_regions e) r0) in [mkRegion (rg_etac r) (rg_etamin r) (rg_etamax r) (rg_phic r) (rg_phihw r) (rg_etax r) (rg_phix r) (rg_calo r) (rg_emcalo r) (rg_track r) mus] end /\
    length mus = length (last_muons e) /\
    (forall i, (muons_at e + 9 * i + 9 <= n)%nat -> nth i mus new_muon = nth i (last_muons e) new_muon) /\
    (forall i, (i < length mus)%nat -> (n <= muons_at e + 9 * i)%nat -> nth i mus new_muon = nth i (rg_muon (nth (length (ev_regions e) - 1) (ev_regions old) region0)) new_muon)) /\
  (forall j, (length (event_dump e) - 24 + 4 * j + 4 <= n)%nat -> nth j (floats e') 0 = nth j (floats e) 0) /\
  (forall j, (j < 6)%nat -> (n <= length (event_dump e) - 24 + 4 * j)%nat -> nth j (floats e') 0 = nth j (floats old) 0).
(** the two files are the same to every program reading events or regions with
    the reader *)
Definition same_reading (g : Z) (bytes bytes' : list Z) : Prop := forall s s', inputs_open g (Some bytes) = Ok s -> inputs_open g (Some bytes') = Ok s' ->
  (forall n, event_calls (Ok true) n s = event_calls (Ok true) n s') /\
  (forall c special fuel n out, region_calls c special (Ok true) fuel n out s = region_calls c special (Ok true) fuel n out s').
(** the test programs of the vertex finder, the regionizer and the particle flow
    algorithm give the same results on the two files *)
Definition same_programs (g : Z) (bytes bytes' : list Z) : Prop :=
  (forall arr tmp, bhv_main (Ok true) g arr tmp (Some bytes) = bhv_main (Ok true) g arr tmp (Some bytes')) /\
  (forall c junk work st0, reg_main c (Ok true) junk work g st0 (Some bytes) = reg_main c (Ok true) junk work g st0 (Some bytes')) /\
  (forall b validate c special fuel mh mr arr pho ne, pf_main b validate c special (Ok true) fuel mh mr g arr pho ne (Some bytes) = pf_main b validate c special (Ok true) fuel mh mr g arr pho ne (Some bytes')).
