(** Specification of the particle-flow firmware in 16-bit arithmetic: the rules
    of SpecPF with every transverse momentum sum and difference reduced to
    [pt_t], and the condition under which no [int] overflows.  Where every sum
    fits ([sums_fit] of SpecPF) these are the rules of SpecPF themselves. *)
From Verif Require Import Base Data SpecLink SpecPF.

(** the 16-bit number congruent to [x] modulo 2^16 *)
Definition w16 (x : Z) : Z := wrapS 16 x.

(** as [em_class], [pho_pt] and [ne_balance], with a 16-bit difference *)
Definition em_class_w (e : EmCalo) (S : Z) : bool :=
  let d := w16 (e_pt e - S) in
  let sigma2 := e_pterr e * e_pterr e in
  (S =? 0) || (0 <? d) || ((d <? 0) && (d * d <? 4 * sigma2)).
Definition pho_pt_w (e : EmCalo) (S : Z) : Z :=
  let d := w16 (e_pt e - S) in
  let sigma2 := e_pterr e * e_pterr e in
  if S =? 0 then e_pt e else if (0 <? d) && (sigma2 + sigma2 / 2 <? d * d) then d else 0.
Definition ne_balance_w (P S err2 : Z) : Z :=
  if S =? 0 then P else let d := w16 (P - S) in if (0 <? d) && (err2 + err2 / 2 <? d * d) then d else 0.

Section Spec.
Variables (em : list EmCalo) (had : list HadCalo) (track : list Tk) (mu : list Mu).

Definition em_tksum_w (k : nat) : Z := w16 (em_tksum em track mu k).
Definition is_em_w (k : nat) (e : EmCalo) : bool := em_class_w e (em_tksum_w k).
Definition is_ele_w (i : nat) (tk : Tk) : bool :=
  match em_match em track mu i tk with
  | Some k => match nth_error em k with Some e => is_em_w k e | None => false end
  | None => false
  end.
Definition had_emsum_w (h : nat) : Z :=
  w16 (sum_where (fun k e => is_em_w k e && opt_is (best (cand_em_had had e)) h) e_pt em).
Definition had_left_pt_w (h : nat) (c : HadCalo) : Z :=
  let E := had_emsum_w h in
  if (w16 (h_pt c - E) <=? h_pt c / 16) || (h_isem c && (w16 (h_empt c - E) <=? h_empt c / 8))
  then 0 else w16 (h_pt c - E).
Definition had_left_w : list HadCalo :=
  mapi (fun h c => mkHad (had_left_pt_w h c) (h_eta c) (h_phi c) 0 false) had.
Definition had_match_w (tk : Tk) : option nat := best (cand_tk_had (Some 131071) had_left_w tk).
Definition in_had_w (h i : nat) (tk : Tk) : bool :=
  negb (is_ele_w i tk) && negb (is_mu track mu i) && opt_is (had_match_w tk) h.
Definition had_tksum_w (h : nat) : Z := w16 (sum_where (in_had_w h) t_pt track).
Definition had_err2_w (h : nat) : Z := sum_where (in_had_w h) (fun t => t_pterr t * t_pterr t) track.
Definition ne_pt_w (h : nat) (c : HadCalo) : Z := ne_balance_w (had_left_pt_w h c) (had_tksum_w h) (had_err2_w h).

(** The outputs. *)
Definition ch_kept_w (i : nat) (tk : Tk) : bool :=
  is_mu track mu i || is_ele_w i tk || (t_pt tk <? if t_tight tk then 80 else 40)
  || match had_match_w tk with Some _ => true | None => false end.
Definition sp_ch_w (i : nat) (tk : Tk) : PFCh :=
  if ch_kept_w i tk
  then mkCh (t_pt tk) (t_eta tk) (t_phi tk)
            (if is_ele_w i tk then PID_Electron else if is_mu track mu i then PID_Muon else PID_Charged) (t_z0 tk)
  else mkCh 0 0 0 0 0.
Definition sp_pho_w (pup : nat -> Z) (k : nat) (e : EmCalo) : PFNe :=
  ne_obj (pho_pt_w e (em_tksum_w k)) (e_eta e) (e_phi e) PID_Photon (pup k).
Definition sp_ne_w (pup : nat -> Z) (h : nat) (c : HadCalo) : PFNe :=
  ne_obj (ne_pt_w h c) (h_eta c) (h_phi c) PID_Neutral (pup h).

(** No [int] of the algorithm overflows: four times the squared error of every
    EM cluster with linked tracks, the sum of squared errors of the tracks linked
    to a hadronic cluster, and one and a half times that sum where it is compared. *)
Definition ints_fit : Prop :=
  (forall k e, nth_error em k = Some e -> em_tksum_w k <> 0 -> 4 * (e_pterr e * e_pterr e) < 2 ^ 31) /\
  (forall h c, nth_error had h = Some c -> had_err2_w h < 2 ^ 31 /\
     (had_tksum_w h <> 0 -> 0 < w16 (had_left_pt_w h c - had_tksum_w h) -> had_err2_w h + had_err2_w h / 2 < 2 ^ 31)).
End Spec.
