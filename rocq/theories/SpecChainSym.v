(** Specification of the symmetries of the chain from the fibres to the
    candidates (C100). *)
From Coq Require Import Permutation.
From Verif Require Import Base Data SpecRegion SpecChain.

(** the event in a mirror at eta = 0 *)
Definition mirror_event (e : event) : event := mkEvent
  (map (map (fun h => mkHad (h_pt h) (- h_eta h) (h_phi h) (h_empt h) (h_isem h))) (ev_had e))
  (map (map (fun x => mkEm (e_pt x) (e_pterr x) (- e_eta x) (e_phi x))) (ev_em e))
  (map (map (fun t => mkTk (t_pt t) (t_pterr t) (- t_eta t) (t_phi t) (t_z0 t) (t_tight t))) (ev_tk e))
  (map (map (fun m => mkMu (m_pt m) (m_pterr m) (- m_eta m) (m_phi m))) (ev_mu e)).

(** fibre [i] now carries what fibre [i + n] carried, around the ring *)
Definition fibres_turned {T} (n : nat) (l l' : list (list T)) : Prop :=
  length l' = length l /\ forall i, (i < length l)%nat -> nth i l' [] = nth ((i + n) mod length l) l [].
(** the detector turned by [k] sixths (2 sectors): clusters have one fibre per
    sector and tracks two *)
Definition turned_by (k : nat) (e e' : event) : Prop :=
  fibres_turned (2 * k) (ev_had e) (ev_had e') /\ fibres_turned (2 * k) (ev_em e) (ev_em e') /\ fibres_turned (4 * k) (ev_tk e) (ev_tk e').

(** the same clusters and tracks on the fibres of the three sectors of phi sector [ip] *)
Definition same_near (ip : nat) (e e' : event) : Prop :=
  forall j, (j < 3)%nat -> let s := region_sector ip j in
    nth s (ev_had e) [] = nth s (ev_had e') [] /\ nth s (ev_em e) [] = nth s (ev_em e') [] /\
    nth (2 * s) (ev_tk e) [] = nth (2 * s) (ev_tk e') [] /\ nth (2 * s + 1) (ev_tk e) [] = nth (2 * s + 1) (ev_tk e') [].

(** the objects of a sector that count in the slice [ie] *)
Definition counted {T} (pt eta : T -> Z) (ie : nat) (l : list T) : list T := filter (fun x => (0 <? pt x) && ((slice_lo ie <=? eta x) && (eta x <=? slice_hi ie))) l.
(** the same ones in another order, no two of them equally hard *)
Definition reordered {T} (pt eta : T -> Z) (ie : nat) (l l' : list T) : Prop :=
  Permutation (counted pt eta ie l) (counted pt eta ie l') /\ NoDup (map pt (counted pt eta ie l)).
(** ... for the clusters and the tracks of the three sectors of a region; the
    tracks may also change between the two fibres of their sector *)
Definition reordered_near (ie ip : nat) (e e' : event) : Prop :=
  forall j, (j < 3)%nat -> let s := region_sector ip j in
    reordered h_pt h_eta ie (firstn 15 (nth s (ev_had e) [])) (firstn 15 (nth s (ev_had e') [])) /\
    reordered e_pt e_eta ie (firstn 12 (nth s (ev_em e) [])) (firstn 12 (nth s (ev_em e') [])) /\
    reordered t_pt t_eta ie (sector_tracks e s) (sector_tracks e' s).
