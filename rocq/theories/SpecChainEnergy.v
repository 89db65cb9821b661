(** Specification of the energy budget of the chain from the fibres to the
    candidates (C101). *)
From Verif Require Import Base Data PFHw PFRef SpecPF SpecRegion RegTest SpecChain.

(** The regions overlap: an object of an even sector belongs to two of them in
    phi, one of an odd sector to one; two of the three slices in eta have it for
    57 <= |eta| <= 171, one does up to 342, none beyond. *)
Definition regions_of (s : nat) (eta : Z) : Z :=
  (if Nat.odd s then 1 else 2) * (if 342 <? Z.abs eta then 0 else if (57 <=? Z.abs eta) && (Z.abs eta <=? 171) then 2 else 1).
(** the transverse momentum that arrives on the fibres, each object counted once
    for every region it belongs to *)
Definition arriving {T} (pt eta : T -> Z) (on : nat -> list T) : Z :=
  sumZ (map (fun s => sumZ (map (fun x => regions_of s (eta x) * pt x) (filter (fun x => 0 <? pt x) (on s)))) (seq 0 12)).
Definition tk_arriving (e : event) : Z := arriving t_pt t_eta (sector_tracks e).
Definition em_arriving (e : event) : Z := arriving e_pt e_eta (fun s => firstn 12 (nth s (ev_em e) [])).
Definition had_arriving (e : event) : Z := arriving h_pt h_eta (fun s => firstn 15 (nth s (ev_had e) [])).

(** the results of particle flow on the 18 regions, of the firmware or of the
    reference, each time with some content of the memory *)
Definition all_regions (run : nat -> pfout -> Prop) (outs : list pfout) : Prop := length outs = 18%nat /\ forall r o, nth_error outs r = Some o -> run r o.
Definition hw_run (c : config) em had tk mu (r : nat) (o : pfout) : Prop :=
  exists mem, pfalgo3_full mem (NSELCALO c) (nth r em []) (nth r had []) (nth r tk []) (nth r mu []) = Ok o.
Definition ref_run (c : config) em had tk mu (r : nat) (o : pfout) : Prop :=
  exists mem, pfalgo3_full_ref mem (NSELCALO c) (nth r em []) (nth r had []) (nth r tk []) (nth r mu []) = Ok o.
(** ... and no sum of the region exceeds its type *)
Definition hw_run_fit (c : config) em had tk mu (r : nat) (o : pfout) : Prop :=
  hw_run c em had tk mu r o /\ sums_fit (nth r em []) (nth r had []) (nth r tk []) (nth r mu []) (Some 131071) false.
Definition ref_run_fit (c : config) em had tk mu (r : nat) (o : pfout) : Prop :=
  ref_run c em had tk mu r o /\ sums_fit (nth r em []) (nth r had []) (nth r tk []) (nth r mu []) None true.

(** the transverse momentum of the candidates of all regions *)
Definition found_ch (outs : list pfout) : Z := sumZ (map (fun o => sumZ (map c_pt (o_ch o))) outs).
Definition found_pho (outs : list pfout) : Z := sumZ (map (fun o => sumZ (map n_pt (o_pho o))) outs).
Definition found_ne (outs : list pfout) : Z := sumZ (map (fun o => sumZ (map n_pt (o_ne o))) outs).

(** There is room in a region for all its tracks: nine of each of its three
    sectors, and [NTRACK] together. *)
Definition tracks_in (e : event) (s ie : nat) : nat := length (filter (fun t => (0 <? t_pt t) && ((slice_lo ie <=? t_eta t) && (t_eta t <=? slice_hi ie))) (sector_tracks e s)).
Definition room (c : config) (e : event) (ie ip : nat) : Prop :=
  (forall j, (j < 3)%nat -> (tracks_in e (region_sector ip j) ie <= 9)%nat) /\
  (tracks_in e (region_sector ip 0) ie + tracks_in e (region_sector ip 1) ie + tracks_in e (region_sector ip 2) ie <= NTRACK c)%nat.
(** tracks below the cut for tracks without a cluster *)
Definition soft (t : Tk) : Prop := t_pt t < (if t_tight t then 80 else 40).

(** The sum of [f] over the objects on the fibres of the three sectors of a
    region; an event is calm if the tracks and EM clusters there sum up to numbers
    of sixteen bits, their squared errors leave room for half of them in an [int],
    and so does four times the squared error of an EM cluster. *)
Definition near_sum {T} (pt f : T -> Z) (on : nat -> list T) (ip : nat) : Z :=
  sumZ (map (fun j => sumZ (map f (filter (fun x => 0 <? pt x) (on (region_sector ip j))))) [0; 1; 2]%nat).
Definition calm (e : event) : Prop :=
  (forall ip, (ip < 6)%nat ->
    near_sum t_pt t_pt (sector_tracks e) ip <= 32767 /\ near_sum t_pt (fun t => t_pterr t * t_pterr t) (sector_tracks e) ip <= 1431655765 /\
    near_sum e_pt e_pt (fun s => firstn 12 (nth s (ev_em e) [])) ip <= 32767) /\
  everywhere (fun x => e_pterr x <= 23170) (ev_em e).
(** no track has an error of 1 and no hadronic cluster is flagged EM-like *)
Definition plain (e : event) : Prop := everywhere (fun t => t_pterr t <> 1) (ev_tk e) /\ everywhere (fun h => h_isem h = false) (ev_had e).
(** the tracks of every three neighbouring sectors sum up to at most 1448 *)
Definition quiet (e : event) : Prop := forall ip, (ip < 6)%nat -> near_sum t_pt t_pt (sector_tracks e) ip <= 1448.
