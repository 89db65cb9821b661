(** Specification of the particle-flow algorithm: candidate lists for each
    matching step, the outputs in exact arithmetic and the input domains used in
    the theorems.  Independent of the model (only the records of Data.v are shared). *)
From Verif Require Import Base Data SpecLink.

(** Squared distance of two points with 10-bit coordinates; the coordinate
    differences are themselves reduced to 10 bits (Props_Dist: exact whenever
    they fit). *)
Definition dist2 (eta1 phi1 eta2 phi2 : Z) : Z :=
  let deta := wrapS 10 (eta1 - eta2) in
  let dphi := wrapS 10 (phi1 - phi2) in
  deta * deta + dphi * dphi.

(** ** Candidates of the four matchings *)

(** EM clusters near a track: squared distance strictly below 84. *)
Definition cand_tk_em (em : list EmCalo) (tk : Tk) : list (option Z) :=
  map (fun c => let d := dist2 (t_eta tk) (t_phi tk) (e_eta c) (e_phi c) in cand_if (d <? 84) d) em.

(** Hadronic clusters near an EM cluster: the EM energy of the hadronic cluster
    exceeds half the cluster's pt, and the squared distance is below 525. *)
Definition cand_em_had (had : list HadCalo) (em : EmCalo) : list (option Z) :=
  map (fun h => let d := dist2 (e_eta em) (e_phi em) (h_eta h) (h_phi h) in
                cand_if ((e_pt em / 2 <? h_empt h) && (d <? 525)) d) had.

(** lower pt bound of a hadronic cluster linkable to a track: pt - 2 ptErr, at least 0
    (the difference is stored in 16 bits) *)
Definition pt_floor (tk : Tk) : Z := Z.max 0 (wrapS 16 (t_pt tk - 2 * t_pterr tk)).

(** Hadronic clusters near a track, distance only: squared distance below 756. *)
Definition cand_tk_had_dr (had : list HadCalo) (tk : Tk) : list (option Z) :=
  map (fun h => let d := dist2 (t_eta tk) (t_phi tk) (h_eta h) (h_phi h) in
                cand_if ((pt_floor tk <? h_pt h) && (d <? 756)) d) had.

(** The combined metric: squared distance plus pt excess of the track over the
    cluster in units of its error, scaled so that one sigma counts 756.
    [cap] bounds the scale factor (firmware: 2^17-1; reference: none). *)
Definition metric (cap : option Z) (tk : Tk) (h : HadCalo) : Z :=
  let scale := 756 * 256 / Z.max 1 (t_pterr tk * t_pterr tk) in
  let scale := match cap with Some m => Z.min m scale | None => scale end in
  let d := Z.max 0 (t_pt tk - h_pt h) in
  dist2 (t_eta tk) (t_phi tk) (h_eta h) (h_phi h) + d * d * scale / 256.
Definition cand_tk_had (cap : option Z) (had : list HadCalo) (tk : Tk) : list (option Z) :=
  map (fun h => let d := dist2 (t_eta tk) (t_phi tk) (h_eta h) (h_phi h) in
                cand_if ((pt_floor tk <? h_pt h) && (d <? 756)) (metric cap tk h)) had.

(** Tracks near a muon: squared distance below 2101 and pt difference below half the muon pt. *)
Definition cand_mu_tk (track : list Tk) (mu : Mu) : list (option Z) :=
  map (fun t => let d := dist2 (m_eta mu) (m_phi mu) (t_eta t) (t_phi t) in
                let dpt := Z.abs (t_pt t - m_pt mu) in
                cand_if ((d <? 2101) && (dpt <? m_pt mu / 2)) dpt) track.

(** ** The algorithm, in exact arithmetic *)
Definition opt_is (o : option nat) (k : nat) : bool := match o with Some i => (i =? k)%nat | None => false end.

(** sum of [f x] over the elements [x] (at index [i]) with [sel i x] *)
Definition sum_where {A} (sel : nat -> A -> bool) (f : A -> Z) (l : list A) : Z :=
  sumZ (mapi (fun i x => if sel i x then f x else 0) l).

(** Balance between an EM cluster and the tracks of total pt [S] linked to it. *)
Definition em_class (e : EmCalo) (S : Z) : bool :=
  let d := e_pt e - S in
  let sigma2 := e_pterr e * e_pterr e in
  (S =? 0) || (0 <? d) || ((d <? 0) && (d * d <? 4 * sigma2)).
Definition pho_pt (e : EmCalo) (S : Z) : Z :=
  let d := e_pt e - S in
  let sigma2 := e_pterr e * e_pterr e in
  if S =? 0 then e_pt e else if (0 <? d) && (sigma2 + sigma2 / 2 <? d * d) then d else 0.

(** Balance between what is left of a hadronic cluster and the tracks linked to it. *)
Definition ne_balance (P S err2 : Z) : Z :=
  if S =? 0 then P else let d := P - S in if (0 <? d) && (err2 + err2 / 2 <? d * d) then d else 0.

Section Spec.
Variables (em : list EmCalo) (had : list HadCalo) (track : list Tk) (mu : list Mu).
(** [cap]: bound on the scale of the combined metric (see [metric]);
    [kv]: value given to the keep flag of a hadronic cluster linked to a
    non-electromagnetic EM cluster (firmware: false; reference: true). *)
Variables (cap : option Z) (kv : bool).

Definition mu_match (m : Mu) : option nat := if 0 <? m_pt m then best (cand_mu_tk track m) else None.
Definition is_mu (i : nat) : bool := existsb (fun m => opt_is (mu_match m) i) mu.

Definition em_match (i : nat) (tk : Tk) : option nat := if is_mu i then None else best (cand_tk_em em tk).
Definition em_tksum (k : nat) : Z := sum_where (fun i tk => opt_is (em_match i tk) k) t_pt track.
Definition is_em (k : nat) (e : EmCalo) : bool := em_class e (em_tksum k).
Definition is_ele (i : nat) (tk : Tk) : bool :=
  match em_match i tk with
  | Some k => match nth_error em k with Some e => is_em k e | None => false end
  | None => false
  end.

(** EM energy attributed to hadronic cluster number [h], and what is left of it *)
Definition had_emsum (h : nat) : Z :=
  sum_where (fun k e => is_em k e && opt_is (best (cand_em_had had e)) h) e_pt em.
Definition had_keep (h : nat) : bool :=
  kv && existsb (fun '(k, e) => negb (is_em k e) && opt_is (best (cand_em_had had e)) h) (indexed em).
Definition had_left_pt (h : nat) (c : HadCalo) : Z :=
  let E := had_emsum h in
  if (h_pt c - E <=? h_pt c / 16) || (h_isem c && (h_empt c - E <=? h_empt c / 8) && negb (had_keep h))
  then 0 else h_pt c - E.
(** only pt and position matter from here on *)
Definition had_left : list HadCalo :=
  mapi (fun h c => mkHad (had_left_pt h c) (h_eta c) (h_phi c) 0 false) had.

Definition had_match (tk : Tk) : option nat := best (cand_tk_had cap had_left tk).
Definition in_had (h i : nat) (tk : Tk) : bool :=
  negb (is_ele i tk) && negb (is_mu i) && opt_is (had_match tk) h.
Definition had_tksum (h : nat) : Z := sum_where (in_had h) t_pt track.
Definition had_err2 (h : nat) : Z := sum_where (in_had h) (fun t => t_pterr t * t_pterr t) track.
Definition ne_pt (h : nat) (c : HadCalo) : Z := ne_balance (had_left_pt h c) (had_tksum h) (had_err2 h).

(** The outputs. *)
Definition sp_mu (m : Mu) : PFCh :=
  match mu_match m with
  | Some i => match nth_error track i with
              | Some tk => mkCh (t_pt tk) (t_eta tk) (t_phi tk) PID_Muon (t_z0 tk)
              | None => mkCh 0 0 0 0 0
              end
  | None => mkCh 0 0 0 0 0
  end.
Definition ch_kept (i : nat) (tk : Tk) : bool :=
  is_mu i || is_ele i tk || (t_pt tk <? if t_tight tk then 80 else 40)
  || match had_match tk with Some _ => true | None => false end.
Definition sp_ch (i : nat) (tk : Tk) : PFCh :=
  if ch_kept i tk
  then mkCh (t_pt tk) (t_eta tk) (t_phi tk)
            (if is_ele i tk then PID_Electron else if is_mu i then PID_Muon else PID_Charged) (t_z0 tk)
  else mkCh 0 0 0 0 0.
Definition ne_obj (p eta phi id pup : Z) : PFNe :=
  if p =? 0 then mkNe 0 0 0 0 pup else mkNe p eta phi id pup.
(** [pup]: the hwPtPuppi left over in memory, which the algorithm does not write *)
Definition sp_pho (pup : nat -> Z) (k : nat) (e : EmCalo) : PFNe :=
  ne_obj (pho_pt e (em_tksum k)) (e_eta e) (e_phi e) PID_Photon (pup k).
Definition sp_ne (pup : nat -> Z) (h : nat) (c : HadCalo) : PFNe :=
  ne_obj (ne_pt h c) (h_eta c) (h_phi c) PID_Neutral (pup h).
End Spec.

(** ** Domains *)
(** fields in the range of their C++ types, transverse momenta and errors not negative *)
Definition tk_phys (t : Tk) : Prop := tk_ok t /\ 0 <= t_pt t /\ 0 <= t_pterr t.
Definition had_phys (h : HadCalo) : Prop := had_ok h /\ 0 <= h_pt h /\ 0 <= h_empt h.
Definition em_phys (e : EmCalo) : Prop := em_ok e /\ 0 <= e_pt e /\ 0 <= e_pterr e.
Definition mu_phys (m : Mu) : Prop := mu_ok m /\ 0 <= m_pt m.
Definition phys (em : list EmCalo) (had : list HadCalo) (track : list Tk) (mu : list Mu) : Prop :=
  Forall em_phys em /\ Forall had_phys had /\ Forall tk_phys track /\ Forall mu_phys mu.

(** no intermediate sum leaves its fixed-width type *)
Definition no_overflow (em : list EmCalo) (track : list Tk) : Prop :=
  sumZ (map t_pt track) <= 32767 /\
  sumZ (map (fun t => t_pterr t * t_pterr t) track) <= 1431655765 /\
  sumZ (map e_pt em) <= 32767 /\
  Forall (fun e => e_pterr e <= 23170) em.

(** what the algorithm needs of [no_overflow]: the sums it forms for one cluster
    fit ([cap] and [kv] as in [Spec]; 23170 is the largest error whose square
    times four fits [int], 1431655765 the largest sum that fits with half of it added) *)
Definition sums_fit (em : list EmCalo) (had : list HadCalo) (track : list Tk) (mu : list Mu) (cap : option Z) (kv : bool) : Prop :=
  (forall k e, nth_error em k = Some e ->
     em_tksum em track mu k <= 32767 /\ (em_tksum em track mu k <> 0 -> e_pterr e <= 23170)) /\
  (forall h c, nth_error had h = Some c ->
     had_emsum em had track mu h <= 32767 /\ had_tksum em had track mu cap kv h <= 32767 /\ had_err2 em had track mu cap kv h <= 1431655765).

(** empty track slots carry no error (as produced by clear() and the converters) *)
Definition clean_empty (track : list Tk) : Prop :=
  Forall (fun t => t_pt t = 0 -> t_pterr t = 0) track.

(** ** The same notions as propositions *)
Section PropSpec.
Variables (em : list EmCalo) (had : list HadCalo) (track : list Tk) (mu : list Mu).
(** track number [i] is the best match of some muon *)
Definition MuTrack (i : nat) : Prop := exists m, In m mu /\ 0 < m_pt m /\ is_best (cand_mu_tk track m) i.
(** track [tk] (number [i]) is linked to EM cluster number [k] *)
Definition EmLinked (i : nat) (tk : Tk) (k : nat) : Prop := ~ MuTrack i /\ is_best (cand_tk_em em tk) k.
(** ... and that cluster is classified electromagnetic *)
Definition Electron (i : nat) (tk : Tk) : Prop :=
  exists k e, EmLinked i tk k /\ nth_error em k = Some e /\ em_class e (em_tksum em track mu k) = true.
(** track [tk] is linked to hadronic cluster number [h] (firmware: scale bounded by 2^17-1, keep flag false) *)
Definition HadLinked (tk : Tk) (h : nat) : Prop :=
  is_best (cand_tk_had (Some 131071) (had_left em had track mu false) tk) h.
(** a hadronic cluster flagged EM-like is linked to an EM cluster classified as not electromagnetic *)
Definition KeepConflict : Prop :=
  exists h c k e, nth_error had h = Some c /\ h_isem c = true /\ nth_error em k = Some e /\
    is_best (cand_em_had had e) h /\ em_class e (em_tksum em track mu k) = false.
End PropSpec.
