(** Specification of the chain from the fibres to the candidates (C98). *)
From Verif Require Import Base Data Regionizer RegTest SpecRegion SpecPF.

(** the objects on the fibres: 12 of hadronic clusters, 12 of EM clusters, 24 of
    tracks (two per sector), 4 of muons *)
Record event := mkEvent { ev_had : list (list HadCalo); ev_em : list (list EmCalo); ev_tk : list (list Tk); ev_mu : list (list Mu) }.
Definition fibres {T} (n len : nat) (l : list (list T)) : Prop := length l = n /\ forall f, In f l -> (len <= length f)%nat.
Definition complete (c : config) (e : event) : Prop :=
  fibres 12 15 (ev_had e) /\ fibres 12 12 (ev_em e) /\ fibres 24 10 (ev_tk e) /\ fibres 4 (NMU c) (ev_mu e).
(** fields in the range of their types, errors and electromagnetic parts not
    negative; the transverse momenta may be anything the type holds *)
Definition everywhere {T} (P : T -> Prop) (l : list (list T)) : Prop := Forall (Forall P) l.
Definition in_range (e : event) : Prop :=
  everywhere (fun h => had_ok h /\ 0 <= h_empt h) (ev_had e) /\ everywhere (fun x => em_ok x /\ 0 <= e_pterr x) (ev_em e) /\
  everywhere (fun t => tk_ok t /\ 0 <= t_pterr t) (ev_tk e) /\ everywhere mu_ok (ev_mu e).

(** [out] is what the function writes to the 18 regions, for some content of
    its memory and of the output before the call *)
Definition had_firmware (c : config) (e : event) (out : list (list HadCalo)) : Prop :=
  exists junk work regions o rest, dims3 12 3 7 work /\ dims2 18 (NCALO c) regions /\
    regionize_hadcalo c had_d junk work (map (map r_of_had) (ev_had e)) regions = Ok (o, rest) /\ out = map (map had_of_r) o.
Definition had_reference (c : config) (e : event) (out : list (list HadCalo)) : Prop :=
  exists work regions o rest static, dims3 12 3 7 work /\ dims2 18 (NCALO c) regions /\
    regionize_hadcalo_ref c had_d work (map (map r_of_had) (ev_had e)) regions = Ok (o, rest, static) /\ out = map (map had_of_r) o.
Definition em_reference (c : config) (e : event) (out : list (list EmCalo)) : Prop :=
  exists work regions o rest static, dims3 12 3 7 work /\ dims2 18 (NEMCALO c) regions /\
    regionize_emcalo_ref c 0 work (map (map r_of_em) (ev_em e)) regions = Ok (o, rest, static) /\ out = map (map em_of_r) o.
Definition tk_reference (c : config) (e : event) (out : list (list Tk)) : Prop :=
  exists work regions o rest static, dims3 12 3 9 work /\ dims2 18 (NTRACK c) regions /\
    regionize_track_ref c tk_d work (map (map r_of_tk) (ev_tk e)) regions = Ok (o, rest, static) /\ out = map (map tk_of_r) o.
Definition mu_reference (c : config) (e : event) (out : list (list Mu)) : Prop :=
  exists work regions o rest static, dims3 4 3 (NMU c) work /\ dims2 18 (NMU c) regions /\
    regionize_muon_ref 0 (NMU c) work (map (map r_of_mu) (ev_mu e)) regions = Ok (o, rest, static) /\ out = map (map mu_of_r) o.
(** EM clusters, tracks and muons have no firmware regionizer *)
Definition other_regions (c : config) (e : event) em tk mu : Prop := em_reference c e em /\ tk_reference c e tk /\ mu_reference c e mu.

(** candidates of PUPPI: equal where there is one *)
Definition same_weighted (a b : PFNe) : Prop := n_pt a = n_pt b /\ (n_pt a <> 0 -> a = b).

(** candidate [x] of the region in slice [ie] and phi sector [ip] is a track that
    arrived on one of the two fibres of sector [s]: the same transverse momentum,
    z0 and direction *)
Definition from_track (e : event) (ie ip : nat) (x : PFCh) : Prop :=
  exists s f t, (s < 12)%nat /\ (f < 2)%nat /\ In t (firstn 10 (nth (2 * s + f) (ev_tk e) [])) /\ c_pt x = t_pt t /\ c_z0 x = t_z0 t /\
    region_eta ie (c_eta x) = t_eta t /\ region_phi ip (c_phi x) = sector_phi s (t_phi t).

(** neutral candidate [x] points where a cluster points that arrived on the
    fibre of sector [s] *)
Definition from_em (e : event) (ie ip : nat) (x : PFNe) : Prop :=
  exists s u, (s < 12)%nat /\ In u (firstn 12 (nth s (ev_em e) [])) /\ 0 < e_pt u /\ n_pt x <= e_pt u /\
    region_eta ie (n_eta x) = e_eta u /\ region_phi ip (n_phi x) = sector_phi s (e_phi u).
Definition from_had (e : event) (ie ip : nat) (x : PFNe) : Prop :=
  exists s u, (s < 12)%nat /\ In u (firstn 15 (nth s (ev_had e) [])) /\ 0 < h_pt u /\
    region_eta ie (n_eta x) = h_eta u /\ region_phi ip (n_phi x) = sector_phi s (h_phi u).

(** the tracks that arrive for sector [s], those of its two fibres *)
Definition sector_tracks (e : event) (s : nat) : list Tk := firstn 10 (nth (2 * s) (ev_tk e) []) ++ firstn 10 (nth (2 * s + 1) (ev_tk e) []).
(** ... among them those in the slice [ie] in eta that are at least as hard as [t] *)
Definition as_hard (e : event) (s ie : nat) (t : Tk) : list Tk :=
  filter (fun u => (t_pt t <=? t_pt u) && (slice_lo ie <=? t_eta u) && (t_eta u <=? slice_hi ie)) (sector_tracks e s).
(** [x] is the track [t] of sector [s], seen from the region *)
Definition is_track (ie ip s : nat) (t : Tk) (x : PFCh) : Prop :=
  c_pt x = t_pt t /\ c_z0 x = t_z0 t /\ region_eta ie (c_eta x) = t_eta t /\ region_phi ip (c_phi x) = sector_phi s (t_phi t).

(** the same for the clusters, which have one fibre per sector *)
Definition em_as_hard (e : event) (s ie : nat) (u : EmCalo) : list EmCalo :=
  filter (fun v => (e_pt u <=? e_pt v) && (slice_lo ie <=? e_eta v) && (e_eta v <=? slice_hi ie)) (firstn 12 (nth s (ev_em e) [])).
Definition had_as_hard (e : event) (s ie : nat) (u : HadCalo) : list HadCalo :=
  filter (fun v => (h_pt u <=? h_pt v) && (slice_lo ie <=? h_eta v) && (h_eta v <=? slice_hi ie)) (firstn 15 (nth s (ev_had e) [])).
Definition is_photon (ie ip s : nat) (u : EmCalo) (x : PFNe) : Prop :=
  n_pt x = e_pt u /\ n_id x = PID_Photon /\ region_eta ie (n_eta x) = e_eta u /\ region_phi ip (n_phi x) = sector_phi s (e_phi u).
Definition is_neutral (ie ip s : nat) (u : HadCalo) (x : PFNe) : Prop :=
  n_pt x = h_pt u /\ n_id x = PID_Neutral /\ region_eta ie (n_eta x) = h_eta u /\ region_phi ip (n_phi x) = sector_phi s (h_phi u).
(** no track of the region is near the EM cluster [u] of its [j]-th sector; no
    track and no EM cluster is near the hadronic cluster *)
Definition em_alone (ie j : nat) (u : EmCalo) (tk : list Tk) : Prop :=
  forall t, In t tk -> 0 < t_pt t -> 84 <= dist2 (t_eta t) (t_phi t) (e_eta u - slice_centre ie) (e_phi u + 120 * (Z.of_nat j - 1)).
Definition had_alone (ie j : nat) (u : HadCalo) (tk : list Tk) (em : list EmCalo) : Prop :=
  (forall t, In t tk -> 0 < t_pt t -> 756 <= dist2 (t_eta t) (t_phi t) (h_eta u - slice_centre ie) (h_phi u + 120 * (Z.of_nat j - 1))) /\
  (forall v, In v em -> 0 < e_pt v -> 525 <= dist2 (e_eta v) (e_phi v) (h_eta u - slice_centre ie) (h_phi u + 120 * (Z.of_nat j - 1))).
