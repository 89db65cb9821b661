(** Specification of mixed nextRegion and nextEvent calls: positions in the
    dump instead of file contents. *)
From Verif Require Import Base Data Discrete Convert DiscreteIO SpecIO MixedIO.

(** region k of event j of the dump (both counted from 0) exists and is a barrel region *)
Definition barrel_at (evs : list event) (j k : nat) : Prop :=
  exists e r, nth_error evs j = Some e /\ nth_error (ev_regions e) k = Some r /\ barrel r = true.
(** with J events read and region P the next of the last of them: regions still ahead *)
Definition ahead (J P j k : nat) : Prop := (J <= j \/ (J = S j /\ P <= k))%nat.
Definition before (j k j' k' : nat) : Prop := (j < j' \/ (j = j' /\ k < k'))%nat.
(** the first barrel region ahead *)
Definition first_ahead (evs : list event) (J P j k : nat) : Prop :=
  barrel_at evs j k /\ ahead J P j k /\ (forall j' k', barrel_at evs j' k' -> ahead J P j' k' -> ~ before j' k' j k).
Definition none_ahead (evs : list event) (J P : nat) : Prop := forall j k, barrel_at evs j k -> ~ ahead J P j k.
(** P is the number of a region of the last event read, or one past its end *)
Definition within (evs : list event) (J P : nat) : Prop := forall j e, J = S j -> nth_error evs j = Some e -> (P <= length (ev_regions e))%nat.

(** what a call shows, as a place in the dump *)
Inductive mark := AtRegion (j k : nat) | AtEvent (j : nat) | AtNothing.
Inductive describes (c : config) (special : Z -> Z) (evs : list event) : mark -> seen -> Prop :=
| describes_region j k e r : nth_error evs j = Some e -> nth_error (ev_regions e) k = Some r -> barrel r = true -> describes c special evs (AtRegion j k) (SawRegion (fw_arrays c special e r))
| describes_event j e : nth_error evs j = Some e -> describes c special evs (AtEvent j) (SawEvent (event_kept e))
| describes_nothing : describes c special evs AtNothing SawNothing.

(** ** What the calls show.  J events have been read and P is the number of the
    next region; [None]: some call reads past the end of an event's regions.
    nextEvent moves to the next event but keeps P. *)
Inductive follows (evs : list event) : nat -> nat -> list call -> option (list mark) -> Prop :=
| follows_nil J P : follows evs J P [] (Some [])
| follows_event J P h o : (J < length evs)%nat -> follows evs (S J) P h o -> follows evs J P (CallEvent :: h) (option_map (cons (AtEvent J)) o)
| follows_no_event J P h o : (length evs <= J)%nat -> follows evs J P h o -> follows evs J P (CallEvent :: h) (option_map (cons AtNothing) o)
| follows_region J P h o j k : within evs J P -> first_ahead evs J P j k -> follows evs (S j) (S k) h o -> follows evs J P (CallRegion :: h) (option_map (cons (AtRegion j k)) o)
| follows_no_region J P h : within evs J P -> none_ahead evs J P -> follows evs J P (CallRegion :: h) (Some (repeat AtNothing (S (length h))))
| follows_past_end J P h : ~ within evs J P -> follows evs J P (CallRegion :: h) None.

(** the marks of a history go forward through the dump: an event comes before
    its own regions *)
Definition forward (a b : mark) : Prop :=
  match a, b with
  | AtRegion j k, AtRegion j' k' => before j k j' k'
  | AtRegion j _, AtEvent j' => (j < j')%nat
  | AtEvent j, AtRegion j' _ => (j <= j')%nat
  | AtEvent j, AtEvent j' => (j < j')%nat
  | _, _ => True
  end.
Definition answers (x : call) (a : mark) : Prop :=
  match x, a with CallRegion, AtEvent _ | CallEvent, AtRegion _ _ => False | _, _ => True end.
