(** Specification of the muons of the chain from the fibres to the candidates (C102). *)
From Verif Require Import Base Data SpecRegion SpecPF SpecChain.

(** candidate [x] of the region in slice [ie] and phi sector [ip] is close to the
    muon [u] of the muon fibre [m]: squared distance below 2101 and transverse
    momenta that differ by less than half of the muon's *)
Definition near_muon (ie ip m : nat) (u : Mu) (x : PFCh) : Prop :=
  dist2 (m_eta u) (muon_local ip m (m_phi u)) (region_eta ie (c_eta x)) (c_phi x) < 2101 /\ Z.abs (c_pt x - m_pt u) < m_pt u / 2.
(** the same for the track [t] of the [j]-th sector of the region *)
Definition track_near_muon (ip j m : nat) (u : Mu) (t : Tk) : Prop :=
  dist2 (m_eta u) (muon_local ip m (m_phi u)) (t_eta t) (t_phi t + 120 * (Z.of_nat j - 1)) < 2101 /\ Z.abs (t_pt t - m_pt u) < m_pt u / 2.
(** muon [u] arrives on the muon fibre [m], in the slice [ie] *)
Definition on_muon_fibre (c : config) (e : event) (ie m : nat) (u : Mu) : Prop :=
  (m < 4)%nat /\ In u (firstn (NMU c) (nth m (ev_mu e) [])) /\ 0 < m_pt u /\ slice_lo ie <= m_eta u <= slice_hi ie.
