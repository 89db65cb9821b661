(** C100: the chain from the fibres to the candidates prefers no half and no
    sector of the detector, and a region sees nothing but its neighbourhood. *)
From Coq Require Import Permutation.
From Verif Require Import Base BaseFacts Data PFHw PFRef SpecPF SpecSym Regionizer SpecRegion RegTest RegTestRun RegTestOk Witness SpecChain SpecChainSym ChainSym ChainProofs ChainNeutral Props_Chain ChainOrder.

(** The event in a mirror at eta = 0 has the mirrored candidates, in the region
    on the other side; both runs are defined or neither is. *)
Theorem C100_mirror : forall c e had em tk mu had' em' tk' mu' ie ip mem mem', (NSELCALO c <= NCALO c)%nat -> complete c e -> in_range e -> in_range (mirror_event e) ->
  had_reference c e had -> other_regions c e em tk mu -> had_reference c (mirror_event e) had' -> other_regions c (mirror_event e) em' tk' mu' -> (ie < 3)%nat -> (ip < 6)%nat ->
  let r := (6 * (2 - ie) + ip)%nat in let r' := (6 * ie + ip)%nat in
  let fw m em had tk mu r := pfalgo3_full m (NSELCALO c) (nth r em []) (nth r had []) (nth r tk []) (nth r mu []) in
  let rf m em had tk mu r := pfalgo3_full_ref m (NSELCALO c) (nth r em []) (nth r had []) (nth r tk []) (nth r mu []) in
  ((exists o o', fw mem em had tk mu r = Ok o /\ fw mem' em' had' tk' mu' r' = Ok o' /\ moved_out (mirror true false) o o') \/
   (fw mem em had tk mu r = UB SignedOverflow /\ fw mem' em' had' tk' mu' r' = UB SignedOverflow)) /\
  ((exists o o', rf mem em had tk mu r = Ok o /\ rf mem' em' had' tk' mu' r' = Ok o' /\ moved_out (mirror true false) o o') \/
   (rf mem em had tk mu r = UB SignedOverflow /\ rf mem' em' had' tk' mu' r' = UB SignedOverflow)).
Proof. exact c100_mirror. Qed.
Print Assumptions C100_mirror.

(** Turning the clusters and tracks by [k] sixths turns the candidates by [k]
    regions, where the muons of the two regions are the same; turning everything
    by half a turn always does. *)
Theorem C100_turn : forall c e e' had em tk mu had' em' tk' mu' k ie ip mem, complete c e -> complete c e' -> turned_by k e e' ->
  had_reference c e had -> other_regions c e em tk mu -> had_reference c e' had' -> other_regions c e' em' tk' mu' -> (ie < 3)%nat -> (ip < 6)%nat ->
  let r := (6 * ie + (ip + k) mod 6)%nat in let r' := (6 * ie + ip)%nat in
  nth r' mu' [] = nth r mu [] \/ (k = 3%nat /\ fibres_turned 2 (ev_mu e) (ev_mu e')) ->
  pfalgo3_full mem (NSELCALO c) (nth r' em' []) (nth r' had' []) (nth r' tk' []) (nth r' mu' []) = pfalgo3_full mem (NSELCALO c) (nth r em []) (nth r had []) (nth r tk []) (nth r mu []) /\
  pfalgo3_full_ref mem (NSELCALO c) (nth r' em' []) (nth r' had' []) (nth r' tk' []) (nth r' mu' []) = pfalgo3_full_ref mem (NSELCALO c) (nth r em []) (nth r had []) (nth r tk []) (nth r mu []).
Proof. exact c100_turn. Qed.
Print Assumptions C100_turn.

(** Clusters and tracks outside the three sectors of a region have no influence
    on its candidates. *)
Theorem C100_local : forall c e e' had em tk mu had' em' tk' mu' ie ip mem, complete c e -> complete c e' -> same_near ip e e' -> ev_mu e = ev_mu e' ->
  had_reference c e had -> other_regions c e em tk mu -> had_reference c e' had' -> other_regions c e' em' tk' mu' -> (ie < 3)%nat -> (ip < 6)%nat ->
  let r := (6 * ie + ip)%nat in
  pfalgo3_full mem (NSELCALO c) (nth r em' []) (nth r had' []) (nth r tk' []) (nth r mu' []) = pfalgo3_full mem (NSELCALO c) (nth r em []) (nth r had []) (nth r tk []) (nth r mu []) /\
  pfalgo3_full_ref mem (NSELCALO c) (nth r em' []) (nth r had' []) (nth r tk' []) (nth r mu' []) = pfalgo3_full_ref mem (NSELCALO c) (nth r em []) (nth r had []) (nth r tk []) (nth r mu []).
Proof. exact c100_local. Qed.
Print Assumptions C100_local.

(** Neither has the order in which the objects of a sector arrive, nor on which
    of its two fibres a track does, if no two of a slice are equally hard. *)
Theorem C100_order : forall c e e' had em tk mu had' em' tk' mu' ie ip mem, complete c e -> complete c e' -> reordered_near ie ip e e' -> ev_mu e = ev_mu e' ->
  had_reference c e had -> other_regions c e em tk mu -> had_reference c e' had' -> other_regions c e' em' tk' mu' -> (ie < 3)%nat -> (ip < 6)%nat ->
  let r := (6 * ie + ip)%nat in
  pfalgo3_full mem (NSELCALO c) (nth r em' []) (nth r had' []) (nth r tk' []) (nth r mu' []) = pfalgo3_full mem (NSELCALO c) (nth r em []) (nth r had []) (nth r tk []) (nth r mu []) /\
  pfalgo3_full_ref mem (NSELCALO c) (nth r em' []) (nth r had' []) (nth r tk' []) (nth r mu' []) = pfalgo3_full_ref mem (NSELCALO c) (nth r em []) (nth r had []) (nth r tk []) (nth r mu []).
Proof. exact c100_order. Qed.
Print Assumptions C100_order.

(** the event of C98 (its regions are in C98_hyp): in the mirror, turned by half
    a turn, and with other objects in the opposite sector *)
Definition tx_event : event := mkEvent
  (hot 12 15 7 had0 [mkHad 200 10 10 50 false; mkHad (-5) 0 0 0 false])
  (hot 12 12 7 em0 [mkEm 60 5 40 8])
  (hot 24 10 14 tk0 [mkTk 100 10 11 9 3 true; mkTk 0 7 10 10 0 false; mkTk 30 2 (-20) 50 (-4) true])
  (hot 4 2 2 mu0 [mkMu 32 0 (-20) 52]).
Definition put {T} (n : nat) (f : list T) (l : list (list T)) : list (list T) := firstn n l ++ [f] ++ skipn (S n) l.
Definition ox_event : event := mkEvent (put 7 (repeat (mkHad 300 0 0 10 false) 15) (ev_had cx_event)) (put 7 (repeat (mkEm 40 1 0 0) 12) (ev_em cx_event)) (put 14 (repeat (mkTk 90 2 0 0 0 true) 10) (ev_tk cx_event)) (ev_mu cx_event).
Lemma turned_dec {T} n k (l l' : list (list T)) : length l = k -> length l' = k -> map (fun i => nth i l' []) (seq 0 k) = map (fun i => nth ((i + n) mod k) l []) (seq 0 k) -> fibres_turned n l l'.
Proof.
  intros L L' H. split; [congruence|]. rewrite L. intros i Hi. assert (E : nth_error (map (fun i => nth i l' []) (seq 0 k)) i = nth_error (map (fun i => nth ((i + n) mod k) l []) (seq 0 k)) i) by (rewrite H; reflexivity).
  rewrite !nth_error_map in E. rewrite (nth_error_nth' _ O) in E by (rewrite seq_length; exact Hi). rewrite seq_nth in E by exact Hi. cbn [option_map plus] in E. injection E as E. exact E.
Qed.
Example C100_hyp : in_range (mirror_event cx_event) /\ complete cfg_TESTMP7 tx_event /\ turned_by 3 cx_event tx_event /\ fibres_turned 2 (ev_mu cx_event) (ev_mu tx_event).
Proof.
  split; [|split; [|split]].
  - assert (G : forall T (f : T -> T) P l, everywhere (fun x => P (f x)) l -> everywhere P (map (map f) l)).
    { intros T f P l H. unfold everywhere in *. rewrite Forall_map. eapply Forall_impl; [|exact H]. intros a Ha. rewrite Forall_map. exact Ha. }
    unfold in_range, mirror_event. cbn [ev_had ev_em ev_tk ev_mu cx_event].
    split; [apply G, hot_every; [|repeat apply Forall_cons; [..|apply Forall_nil]]; unfold had_ok, inS; cbn; lia|].
    split; [apply G, hot_every; [|repeat apply Forall_cons; [..|apply Forall_nil]]; unfold em_ok, inS; cbn; lia|].
    split; [apply G, hot_every; [|repeat apply Forall_cons; [..|apply Forall_nil]]; unfold tk_ok, inS; cbn; lia|].
    apply G, hot_every; [|repeat apply Forall_cons; [..|apply Forall_nil]]; unfold mu_ok, inS; cbn; lia.
  - split; [apply hot_fibres; cbn; lia|]. split; [apply hot_fibres; cbn; lia|]. split; apply hot_fibres; cbn; lia.
  - split; [apply (turned_dec _ 12); vm_compute; reflexivity|]. split; [apply (turned_dec _ 12); vm_compute; reflexivity|apply (turned_dec _ 24); vm_compute; reflexivity].
  - apply (turned_dec _ 4); vm_compute; reflexivity.
Qed.
Example C100_hyp_local : complete cfg_TESTMP7 ox_event /\ same_near 0 cx_event ox_event /\ ev_mu cx_event = ev_mu ox_event /\ nth 7 (ev_had cx_event) [] <> nth 7 (ev_had ox_event) [].
Proof.
  assert (G : forall T n k (l : list (list T)), length l = n -> forallb (fun f => (k <=? length f)%nat) l = true -> fibres n k l).
  { intros T n k l L H. split; [exact L|]. intros f Hf. rewrite forallb_forall in H. apply Nat.leb_le. exact (H f Hf). }
  split; [|split; [|split]].
  - split; [apply G; vm_compute; reflexivity|]. split; [apply G; vm_compute; reflexivity|]. split; apply G; vm_compute; reflexivity.
  - intros j Hj. destruct j as [|[|[|j]]]; [..|lia]; (split; [vm_compute; reflexivity|]); (split; [vm_compute; reflexivity|]); split; vm_compute; reflexivity.
  - reflexivity.
  - vm_compute. discriminate.
Qed.

(** the tracks of that event in another order on the other fibre of their sector *)
Definition ax_event : event := mkEvent (ev_had cx_event) (ev_em cx_event) (hot 24 10 3 tk0 [mkTk 30 2 (-20) 50 (-4) true; mkTk (-7) 0 0 0 0 false; mkTk 100 10 11 9 3 true]) (ev_mu cx_event).
Example C100_hyp_order : complete cfg_TESTMP7 ax_event /\ reordered_near 1 0 cx_event ax_event /\ ev_mu cx_event = ev_mu ax_event /\ nth 2 (ev_tk cx_event) [] <> nth 2 (ev_tk ax_event) [].
Proof.
  destruct C98_hyp as (_ & _ & (C1 & C2 & _ & C4) & _). split; [split; [exact C1|]; split; [exact C2|]; split; [apply hot_fibres; cbn; lia|exact C4]|]. split; [|split; [reflexivity|vm_compute; discriminate]].
  intros j Hj. destruct j as [|[|[|j]]]; [| | |lia]; cbn zeta; unfold reordered; (split; [split; vm_compute; [apply Permutation_refl|repeat constructor; cbn; intuition lia]|]);
    (split; [split; vm_compute; [apply Permutation_refl|repeat constructor; cbn; intuition lia]|]); (split; vm_compute; [apply Permutation_refl || apply perm_swap|repeat constructor; cbn; intuition lia]).
Qed.

(** Among equally hard tracks the order shows. *)
Definition vx_event (l : list Tk) : event := mkEvent (ev_had gx_event) (ev_em gx_event) (hot 24 10 2 tk0 l) (ev_mu gx_event).
Definition vx_tk (l : list Tk) := match regionize_track_ref cfg_TESTMP7 tk_d (cx_work tk_d 12 3 9) (map (map r_of_tk) (ev_tk (vx_event l))) (cx_regs tk_d 15) with Ok (o, _, _) => map (map tk_of_r) o | _ => [] end.
Definition vx1 := mkTk 30 2 (-20) 50 (-4) true.
Definition vx2 := mkTk 30 2 100 50 7 true.
Lemma vx_runs l : l = [vx1; vx2] \/ l = [vx2; vx1] -> complete cfg_TESTMP7 (vx_event l) /\ had_reference cfg_TESTMP7 (vx_event l) gx_had /\ other_regions cfg_TESTMP7 (vx_event l) gx_em (vx_tk l) gx_mu.
Proof.
  destruct gx_runs as ((C1 & C2 & _ & C4) & _ & H & (E & _ & M)). intros Hl. split; [|split; [|split; [|split]]].
  - split; [exact C1|]. split; [exact C2|]. split; [apply hot_fibres; destruct Hl; subst; cbn; lia|exact C4].
  - exact H.
  - exact E.
  - destruct Hl; subst; exists (cx_work tk_d 12 3 9), (cx_regs tk_d 15); eexists _, _, _; (split; [apply dims3_blank|]); (split; [apply dims2_blank|]); (split; [vm_compute; reflexivity|]); vm_compute; reflexivity.
  - exact M.
Qed.
Lemma vx_differ : exists o o', pfalgo3_full mem0 10 (nth 6 gx_em []) (nth 6 gx_had []) (nth 6 (vx_tk [vx1; vx2]) []) (nth 6 gx_mu []) = Ok o /\
  pfalgo3_full mem0 10 (nth 6 gx_em []) (nth 6 gx_had []) (nth 6 (vx_tk [vx2; vx1]) []) (nth 6 gx_mu []) = Ok o' /\ map c_z0 (firstn 2 (o_ch o)) <> map c_z0 (firstn 2 (o_ch o')).
Proof. eexists. eexists. split; [vm_compute; reflexivity|]. split; [vm_compute; reflexivity|]. vm_compute. discriminate. Qed.
Theorem C100_order_of_ties_refuted : exists c e e' had em tk tk' mu mem o o', complete c e /\ complete c e' /\ had_reference c e had /\ other_regions c e em tk mu /\ had_reference c e' had /\ other_regions c e' em tk' mu /\
  (forall s, Permutation (sector_tracks e s) (sector_tracks e' s)) /\ ev_had e = ev_had e' /\ ev_em e = ev_em e' /\ ev_mu e = ev_mu e' /\
  pfalgo3_full mem (NSELCALO c) (nth 6 em []) (nth 6 had []) (nth 6 tk []) (nth 6 mu []) = Ok o /\ pfalgo3_full mem (NSELCALO c) (nth 6 em []) (nth 6 had []) (nth 6 tk' []) (nth 6 mu []) = Ok o' /\ o_ch o <> o_ch o'.
Proof.
  destruct (vx_runs [vx1; vx2] (or_introl eq_refl)) as (C & H & O). destruct (vx_runs [vx2; vx1] (or_intror eq_refl)) as (C' & H' & O'). destruct vx_differ as (o & o' & E & E' & D).
  exists cfg_TESTMP7, (vx_event [vx1; vx2]), (vx_event [vx2; vx1]), gx_had, gx_em, (vx_tk [vx1; vx2]), (vx_tk [vx2; vx1]), gx_mu, mem0, o, o'.
  split; [exact C|]. split; [exact C'|]. split; [exact H|]. split; [exact O|]. split; [exact H'|]. split; [exact O'|]. split; [|split; [reflexivity|split; [reflexivity|split; [reflexivity|split; [exact E|split; [exact E'|]]]]]].
  - intros s. destruct s as [|[|s]]; [apply Permutation_refl|apply perm_swap|]. unfold sector_tracks, vx_event. cbn [ev_tk].
    assert (X : forall l k, (k <> 2)%nat -> (k < 24)%nat -> nth k (hot 24 10 2 tk0 l) [] = repeat tk0 10) by (intros l k K L; do 24 (destruct k as [|k]; [try reflexivity; lia|]); lia).
    destruct (Nat.lt_ge_cases (2 * S (S s) + 1) 24); [rewrite !X by lia; apply Permutation_refl|]. rewrite !nth_overflow by (unfold hot; rewrite map_length, seq_length; lia). apply Permutation_refl.
  - intros Q. apply D. rewrite Q. reflexivity.
Qed.
Print Assumptions C100_order_of_ties_refuted.
