(** Specification of the reference particle-flow algorithm in 16-bit arithmetic.
    The rules are those of SpecPF with every sum of transverse momenta reduced to
    [pt_t]; unlike the firmware (SpecPFWrap) the reference takes a reduced sum of
    linked tracks that is not positive for "no track", skips tracks of zero
    transverse momentum, does not bound the scale of the combined metric and
    honours the keep flag. *)
From Verif Require Import Base Data SpecLink SpecPF SpecPFWrap.

Section Spec.
Variables (em : list EmCalo) (had : list HadCalo) (track : list Tk) (mu : list Mu).
(** value given to the keep flag (as in SpecPF; the reference has true) *)
Variable (kv : bool).

Definition em_tksum_r (k : nat) : Z := Z.max 0 (w16 (em_tksum em track mu k)).
Definition is_em_r (k : nat) (e : EmCalo) : bool := em_class e (em_tksum_r k).
Definition is_ele_r (i : nat) (tk : Tk) : bool :=
  match em_match em track mu i tk with
  | Some k => match nth_error em k with Some e => is_em_r k e | None => false end
  | None => false
  end.
Definition had_emsum_r (h : nat) : Z :=
  w16 (sum_where (fun k e => is_em_r k e && opt_is (best (cand_em_had had e)) h) e_pt em).
Definition had_keep_r (h : nat) : bool :=
  kv && existsb (fun '(k, e) => negb (is_em_r k e) && opt_is (best (cand_em_had had e)) h) (indexed em).
Definition had_left_pt_r (h : nat) (c : HadCalo) : Z :=
  let E := had_emsum_r h in
  if (w16 (h_pt c - E) <=? h_pt c / 16) || (h_isem c && (w16 (h_empt c - E) <=? h_empt c / 8) && negb (had_keep_r h))
  then 0 else w16 (h_pt c - E).
Definition had_left_r : list HadCalo :=
  mapi (fun h c => mkHad (had_left_pt_r h c) (h_eta c) (h_phi c) 0 false) had.
Definition had_match_r (tk : Tk) : option nat := best (cand_tk_had None had_left_r tk).
Definition in_had_r (h i : nat) (tk : Tk) : bool :=
  (0 <? t_pt tk) && negb (is_ele_r i tk) && negb (is_mu track mu i) && opt_is (had_match_r tk) h.
Definition had_tksum_r (h : nat) : Z := Z.max 0 (w16 (sum_where (in_had_r h) t_pt track)).
Definition had_err2_r (h : nat) : Z := sum_where (in_had_r h) (fun t => t_pterr t * t_pterr t) track.
Definition ne_pt_r (h : nat) (c : HadCalo) : Z := ne_balance (had_left_pt_r h c) (had_tksum_r h) (had_err2_r h).

(** The outputs. *)
Definition ch_kept_r (i : nat) (tk : Tk) : bool :=
  is_mu track mu i || is_ele_r i tk || (t_pt tk <? if t_tight tk then 80 else 40)
  || match had_match_r tk with Some _ => true | None => false end.
(** a track of zero transverse momentum passes through as charged hadron or muon *)
Definition sp_ch_r (i : nat) (tk : Tk) : PFCh :=
  if ch_kept_r i tk
  then mkCh (t_pt tk) (t_eta tk) (t_phi tk)
            (if (0 <? t_pt tk) && is_ele_r i tk then PID_Electron else if is_mu track mu i then PID_Muon else PID_Charged) (t_z0 tk)
  else mkCh 0 0 0 0 0.
Definition sp_pho_r (pup : nat -> Z) (k : nat) (e : EmCalo) : PFNe :=
  ne_obj (pho_pt e (em_tksum_r k)) (e_eta e) (e_phi e) PID_Photon (pup k).
Definition sp_ne_r (pup : nat -> Z) (h : nat) (c : HadCalo) : PFNe :=
  ne_obj (ne_pt_r h c) (h_eta c) (h_phi c) PID_Neutral (pup h).

(** No [int] overflows: four times the squared error of every EM cluster with
    linked tracks, the sum of squared errors of the tracks linked to a hadronic
    cluster, and one and a half times that sum when there are such tracks. *)
Definition ints_fit_r : Prop :=
  (forall k e, nth_error em k = Some e -> em_tksum_r k <> 0 -> 4 * (e_pterr e * e_pterr e) < 2 ^ 31) /\
  (forall h c, nth_error had h = Some c -> had_err2_r h < 2 ^ 31 /\
     (had_tksum_r h <> 0 -> had_err2_r h + had_err2_r h / 2 < 2 ^ 31)).
End Spec.

(** ** Where the two algorithms may differ *)
Section Differ.
Variables (em : list EmCalo) (had : list HadCalo) (track : list Tk) (mu : list Mu).
(** a sum of linked tracks that reads as a negative number in 16 bits *)
Definition NegativeSum : Prop :=
  (exists k e, nth_error em k = Some e /\ em_tksum_w em track mu k < 0) \/
  (exists h c, nth_error had h = Some c /\ had_tksum_w em had track mu h < 0).
(** a hadronic cluster flagged EM-like linked to an EM cluster classified as not electromagnetic *)
Definition KeepConflict_w : Prop :=
  exists h c k e, nth_error had h = Some c /\ h_isem c = true /\ nth_error em k = Some e /\
    is_best (cand_em_had had e) h /\ is_em_w em track mu k e = false.
(** a track of error 1 near a hadronic cluster of which exactly one unit less than
    the track's transverse momentum is left (the bounded and the unbounded scale
    then give different metrics) *)
Definition ErrOneConflict : Prop :=
  exists i tk h c, nth_error track i = Some tk /\ t_pterr tk = 1 /\ nth_error (had_left_w em had track mu) h = Some c /\
    0 < h_pt c /\ h_pt c = t_pt tk - 1 /\ dist2 (t_eta tk) (t_phi tk) (h_eta c) (h_phi c) < 756.
(** an empty track slot with an error, linked to a hadronic cluster (the firmware counts its error) *)
Definition DirtySlot : Prop :=
  exists i tk h, nth_error track i = Some tk /\ t_pt tk = 0 /\ t_pterr tk <> 0 /\ in_had_w em had track mu h i tk = true.
End Differ.
