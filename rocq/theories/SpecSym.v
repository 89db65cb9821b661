(** Symmetries of the particle-flow algorithm: events that differ by a motion of
    the plane and by the order of the objects in their arrays. *)
From Coq Require Import Permutation.
From Verif Require Import Base Data PFHw SpecLink SpecPF SpecPFWrap SpecPFRef.

(** ** Motions *)
Definition motion : Type := Z -> Z -> Z * Z.
(** distances (as the algorithm measures them, in 10-bit differences) are kept *)
Definition isometry (mv : motion) : Prop := forall eta1 phi1 eta2 phi2,
  dist2 (fst (mv eta1 phi1)) (snd (mv eta1 phi1)) (fst (mv eta2 phi2)) (snd (mv eta2 phi2)) = dist2 eta1 phi1 eta2 phi2.
Definition still : motion := fun eta phi => (eta, phi).
(** every coordinate is a 10-bit number: a result outside that range is brought back into it *)
Definition shift (a b : Z) : motion := fun eta phi => (wrapS 10 (eta + a), wrapS 10 (phi + b)).
(** [true]: the coordinate changes its sign *)
Definition mirror (flip_eta flip_phi : bool) : motion := fun eta phi => (wrapS 10 (if flip_eta then - eta else eta), wrapS 10 (if flip_phi then - phi else phi)).
Section motion.
Variable mv : motion.
Definition move_em (e : EmCalo) : EmCalo := mkEm (e_pt e) (e_pterr e) (fst (mv (e_eta e) (e_phi e))) (snd (mv (e_eta e) (e_phi e))).
Definition move_had (h : HadCalo) : HadCalo := mkHad (h_pt h) (fst (mv (h_eta h) (h_phi h))) (snd (mv (h_eta h) (h_phi h))) (h_empt h) (h_isem h).
Definition move_tk (t : Tk) : Tk := mkTk (t_pt t) (t_pterr t) (fst (mv (t_eta t) (t_phi t))) (snd (mv (t_eta t) (t_phi t))) (t_z0 t) (t_tight t).
Definition move_mu (m : Mu) : Mu := mkMu (m_pt m) (m_pterr m) (fst (mv (m_eta m) (m_phi m))) (snd (mv (m_eta m) (m_phi m))).
(** the same candidate, at the moved position unless it is empty *)
Definition ch_moved (a b : PFCh) : Prop := c_pt b = c_pt a /\ c_id b = c_id a /\ c_z0 b = c_z0 a /\ (c_pt a <> 0 -> (c_eta b, c_phi b) = mv (c_eta a) (c_phi a)).
Definition ne_moved (a b : PFNe) : Prop := n_pt b = n_pt a /\ n_id b = n_id a /\ (n_pt a <> 0 -> (n_eta b, n_phi b) = mv (n_eta a) (n_phi a)).
End motion.

(** ** Orders *)
(** slot [j] of [l'] holds [f] of slot [p j] of [l] *)
Definition rearranged {A} (f : A -> A) (p : nat -> nat) (l l' : list A) : Prop :=
  Permutation (map p (seq 0 (length l))) (seq 0 (length l)) /\ length l' = length l /\
  forall j, (j < length l)%nat -> nth_error l' j = option_map f (nth_error l (p j)).
Definition corresponds {A} (R : A -> A -> Prop) (p : nat -> nat) (l l' : list A) : Prop :=
  length l' = length l /\ forall j y, nth_error l' j = Some y -> exists x, nth_error l (p j) = Some x /\ R x y.
Definition in_order (p : nat -> nat) (n : nat) : Prop := forall j, (j < n)%nat -> p j = j.
(** nothing as good as the winner of a choice is placed before it *)
Definition winner_first (p : nat -> nat) (cand : list (option Z)) : Prop :=
  forall j k, (j < k)%nat -> (k < length cand)%nat -> is_best cand (p k) -> nth_error cand (p j) <> nth_error cand (p k).
(** No choice made by the algorithm is decided by an order that has changed.
    [left]: what the hadronic clusters have left when tracks are linked to
    them; [cap]: as in [metric]. *)
Definition choices_kept (pe ph pt : nat -> nat) (em : list EmCalo) (had : list HadCalo) (track : list Tk) (mu : list Mu) (cap : option Z) (left : list HadCalo) : Prop :=
  Forall (fun tk => winner_first pe (cand_tk_em em tk)) track /\ Forall (fun e => winner_first ph (cand_em_had had e)) em /\
  Forall (fun tk => winner_first ph (cand_tk_had cap left tk)) track /\ Forall (fun m => winner_first pt (cand_mu_tk track m)) mu.
(** the same for the choice of the neutral hadrons: [pt] is the pt of the candidate of each cluster *)
Definition neutrals_kept (ph : nat -> nat) (had : list HadCalo) (pt : nat -> HadCalo -> Z) : Prop :=
  in_order ph (length had) \/
  forall h h' c c', nth_error had h = Some c -> nth_error had h' = Some c' -> pt h c = pt h' c' -> pt h c <> 0 -> h_eta c = h_eta c' /\ h_phi c = h_phi c'.

(** Without mention of how the order changes: candidates as good as the best
    one are copies of it (empty slots, say). *)
Definition untied {A} (l : list A) (cand : list (option Z)) : Prop :=
  forall i j, is_best cand i -> nth_error cand j = nth_error cand i -> nth_error l j = nth_error l i.
Definition no_ties (em : list EmCalo) (had : list HadCalo) (track : list Tk) (mu : list Mu) (cap : option Z) (left : list HadCalo) : Prop :=
  Forall (fun tk => untied em (cand_tk_em em tk)) track /\ Forall (fun e => untied had (cand_em_had had e)) em /\
  Forall (fun tk => untied had (cand_tk_had cap left tk)) track /\ Forall (fun m => untied track (cand_mu_tk track m)) mu.
Definition distinct_neutrals (had : list HadCalo) (pt : nat -> HadCalo -> Z) : Prop :=
  forall h h' c c', nth_error had h = Some c -> nth_error had h' = Some c' -> pt h c = pt h' c' -> pt h c <> 0 -> h_eta c = h_eta c' /\ h_phi c = h_phi c'.

(** slot by slot, the outputs are those of the unmoved event, moved *)
Definition moved_out (mv : motion) (out out' : pfout) : Prop :=
  Forall2 (ch_moved mv) (o_ch out) (o_ch out') /\ Forall2 (ne_moved mv) (o_pho out) (o_pho out') /\ Forall2 (ne_moved mv) (o_ne out) (o_ne out') /\ Forall2 (ch_moved mv) (o_mu out) (o_mu out').
(** everything but the puppi weight, which the algorithm leaves as it was *)
Definition no_puppi (n : PFNe) : Z * Z * Z * Z := (n_pt n, n_eta n, n_phi n, n_id n).
