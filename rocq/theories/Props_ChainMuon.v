(** C102: the muons of the chain from the fibres to the candidates. *)
From Verif Require Import Base BaseFacts Data PFHw PFRef SpecPF Regionizer SpecRegion RegTest Witness SpecChain SpecChainMuon ChainMuon Props_Chain.

(** Every muon candidate stands for a track and a muon that both arrived on the
    fibres and are close to each other, and the same candidate is in the list of
    charged candidates. *)
Theorem C102_origin : forall c e had em tk mu ie ip mem o x, (NSELCALO c <= NCALO c)%nat -> complete c e -> in_range e ->
  everywhere (fun t => -392 <= t_phi t <= 391) (ev_tk e) -> everywhere (fun u => 0 < m_pt u -> -180 < m_phi u <= 180) (ev_mu e) ->
  had_reference c e had -> other_regions c e em tk mu -> (ie < 3)%nat -> (ip < 6)%nat ->
  let r := (6 * ie + ip)%nat in
  pfalgo3_full mem (NSELCALO c) (nth r em []) (nth r had []) (nth r tk []) (nth r mu []) = Ok o \/
  pfalgo3_full_ref mem (NSELCALO c) (nth r em []) (nth r had []) (nth r tk []) (nth r mu []) = Ok o ->
  In x (o_mu o) -> c_pt x <> 0 ->
  In x (o_ch o) /\ c_id x = PID_Muon /\ from_track e ie ip x /\ exists m u, on_muon_fibre c e ie m u /\ near_muon ie ip m u x.
Proof. exact c102_origin. Qed.
Print Assumptions C102_origin.

(** A muon with a track close to it becomes a muon candidate, with that track or
    one whose transverse momentum is at least as close to the muon's, unless ten
    tracks of the sector and slice, itself included, are at least as hard as the
    track, or the region is full of harder tracks or of harder muons. *)
Theorem C102_kept : forall c e had em tk mu ie ip j f m mem o t u, (NSELCALO c <= NCALO c)%nat -> complete c e -> in_range e ->
  everywhere (fun u => 0 < m_pt u -> -180 < m_phi u <= 180) (ev_mu e) -> had_reference c e had -> other_regions c e em tk mu -> (ie < 3)%nat -> (ip < 6)%nat -> (j < 3)%nat -> (f < 2)%nat ->
  let r := (6 * ie + ip)%nat in let s := region_sector ip j in
  pfalgo3_full mem (NSELCALO c) (nth r em []) (nth r had []) (nth r tk []) (nth r mu []) = Ok o \/
  pfalgo3_full_ref mem (NSELCALO c) (nth r em []) (nth r had []) (nth r tk []) (nth r mu []) = Ok o ->
  on_muon_fibre c e ie m u -> -180 < muon_local ip m (m_phi u) <= 180 ->
  In t (firstn 10 (nth (2 * s + f) (ev_tk e) [])) -> 0 < t_pt t -> slice_lo ie <= t_eta t <= slice_hi ie -> -392 <= t_phi t <= 391 -> track_near_muon ip j m u t ->
  (exists x, In x (o_mu o) /\ In x (o_ch o) /\ c_id x = PID_Muon /\ near_muon ie ip m u x /\ Z.abs (c_pt x - m_pt u) <= Z.abs (t_pt t - m_pt u)) \/
  (9 < length (as_hard e s ie t))%nat \/ (forall u, In u (nth r tk []) -> t_pt t <= t_pt u) \/ (forall v, In v (nth r mu []) -> m_pt u <= m_pt v).
Proof. exact c102_kept. Qed.
Print Assumptions C102_kept.

(** in the event of C98 a muon has a track two units away *)
Lemma mx_found : exists o, pfalgo3_full mem0 10 (nth 6 cx_em []) (nth 6 cx_had []) (nth 6 cx_tk []) (nth 6 cx_mu []) = Ok o /\ map c_pt (o_mu o) = [30; 0] /\ map c_z0 (o_mu o) = [-4; 0].
Proof. eexists. split; [vm_compute; reflexivity|]. split; vm_compute; reflexivity. Qed.
Example C102_hyp : let u := mkMu 32 0 (-20) 52 in let t := mkTk 30 2 (-20) 50 (-4) true in
  everywhere (fun t => -392 <= t_phi t <= 391) (ev_tk cx_event) /\ everywhere (fun u => 0 < m_pt u -> -180 < m_phi u <= 180) (ev_mu cx_event) /\
  on_muon_fibre cfg_TESTMP7 cx_event 1 0 u /\ -180 < muon_local 0 0 (m_phi u) <= 180 /\ In t (firstn 10 (nth (2 * region_sector 0 1 + 0) (ev_tk cx_event) [])) /\
  track_near_muon 0 1 0 u t /\ length (as_hard cx_event (region_sector 0 1) 1 t) = 2%nat /\ In tk0 (nth 6 cx_tk []) /\ In mu0 (nth 6 cx_mu []) /\
  (exists o, pfalgo3_full mem0 10 (nth 6 cx_em []) (nth 6 cx_had []) (nth 6 cx_tk []) (nth 6 cx_mu []) = Ok o /\ map c_pt (o_mu o) = [30; 0] /\ map c_z0 (o_mu o) = [-4; 0]).
Proof.
  cbn zeta. split; [exact (proj1 C98_hyp_origin)|]. split; [apply hot_every; [|repeat apply Forall_cons; [..|apply Forall_nil]]; cbn; lia|].
  split; [split; [lia|]; split; [left; reflexivity|]; cbn; lia|]. split; [vm_compute; split; [reflexivity|discriminate]|]. split; [cbn; tauto|]. split; [split; vm_compute; reflexivity|]. split; [vm_compute; reflexivity|].
  split; [vm_compute; tauto|]. split; [vm_compute; tauto|]. exact mx_found.
Qed.
