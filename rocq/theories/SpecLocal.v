(** Isolated groups of objects: no object of the group is close enough to an
    object outside it to be linked to it. *)
From Verif Require Import Base Data PFHw SpecLink SpecPF.

(** [small] is what [big] holds in the slots [q 0 < q 1 < ...] *)
Definition picks {A} (q : nat -> nat) (small big : list A) : Prop :=
  (forall i, (i < length small)%nat -> nth_error big (q i) = nth_error small i) /\
  (forall i j, (i < j)%nat -> (j < length small)%nat -> (q i < q j)%nat).
Definition inside (q : nat -> nat) (n j : nat) : Prop := exists i, (i < n)%nat /\ q i = j.
(** an object in a picked slot and one in a slot that is not picked are at a squared distance of at least [d] *)
Definition apart {A B} (d : Z) (eta phi : A -> Z) (eta' phi' : B -> Z) (qa : nat -> nat) (sa ba : list A) (qb : nat -> nat) (sb bb : list B) : Prop :=
  forall i j x y, nth_error ba i = Some x -> nth_error bb j = Some y ->
    (inside qa (length sa) i /\ ~ inside qb (length sb) j) \/ (~ inside qa (length sa) i /\ inside qb (length sb) j) ->
    d <= dist2 (eta x) (phi x) (eta' y) (phi' y).
Record isolated (qe qh qt qm : nat -> nat) (em em' : list EmCalo) (had had' : list HadCalo) (track track' : list Tk) (mu mu' : list Mu) : Prop := {
  iso_em : picks qe em em'; iso_had : picks qh had had'; iso_tk : picks qt track track'; iso_mu : picks qm mu mu';
  iso_tk_em : apart 84 t_eta t_phi e_eta e_phi qt track track' qe em em';
  iso_em_had : apart 525 e_eta e_phi h_eta h_phi qe em em' qh had had';
  iso_tk_had : apart 756 t_eta t_phi h_eta h_phi qt track track' qh had had';
  iso_mu_tk : apart 2101 m_eta m_phi t_eta t_phi qm mu mu' qt track track' }.

(** slot [q i] of [big] holds slot [i] of [small] *)
Definition at_slots {A B} (f : A -> B) (q : nat -> nat) (small big : list A) : Prop :=
  forall i x, nth_error small i = Some x -> exists y, nth_error big (q i) = Some y /\ f y = f x.

(** every object of one event is far from every object of the other *)
Record separated (em1 em2 : list EmCalo) (had1 had2 : list HadCalo) (track1 track2 : list Tk) (mu1 mu2 : list Mu) : Prop := {
  sep_tk_em : forall t e, (In t track1 /\ In e em2) \/ (In t track2 /\ In e em1) -> 84 <= dist2 (t_eta t) (t_phi t) (e_eta e) (e_phi e);
  sep_em_had : forall e h, (In e em1 /\ In h had2) \/ (In e em2 /\ In h had1) -> 525 <= dist2 (e_eta e) (e_phi e) (h_eta h) (h_phi h);
  sep_tk_had : forall t h, (In t track1 /\ In h had2) \/ (In t track2 /\ In h had1) -> 756 <= dist2 (t_eta t) (t_phi t) (h_eta h) (h_phi h);
  sep_mu_tk : forall m t, (In m mu1 /\ In t track2) \/ (In m mu2 /\ In t track1) -> 2101 <= dist2 (m_eta m) (m_phi m) (t_eta t) (t_phi t) }.
