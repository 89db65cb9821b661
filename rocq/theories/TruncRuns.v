(** Whole runs over dumps that are cut short. *)
From Verif Require Import Base BaseFacts Data Discrete Convert ConvertFacts DiscreteIO SpecIO IOFacts IOProofs RegionLoop EventLoop EventLoopFacts Bhv BhvTest RegTest PFTest SpecTrunc TruncFacts TruncProofs.

(** ** A cut inside the run number *)
(** the file has ended, or less than a run number is left *)
Definition ends (f : file) : Prop := f_eof f = true \/ (length (f_rest f) < 4)%nat.
(** events that differ at most in the run number *)
Definition alike (a b : event) : Prop :=
  ev_lumi a = ev_lumi b /\ ev_event a = ev_event b /\ ev_z0 a = ev_z0 b /\ ev_genz0 a = ev_genz0 b /\ ev_acm a = ev_acm b /\ ev_acr a = ev_acr b /\ ev_afm a = ev_afm b /\ ev_afr a = ev_afr b /\ ev_regions a = ev_regions b.
Lemma alike_refl a : alike a a. Proof. repeat split. Qed.
Lemma alike_sym a b : alike a b -> alike b a. Proof. unfold alike. intuition congruence. Qed.
Lemma alike_trans a b c : alike a b -> alike b c -> alike a c. Proof. unfold alike. intuition congruence. Qed.
Lemma ends_read tail o p : (length p < 4)%nat -> exists o', event_read tail o (mkFile p false) = Ok ((false, o'), mkFile [] true) /\ alike o o'.
Proof.
  intros L. unfold event_read. rewrite fread_short by exact L. cbn [bind negb]. unfold ret. eexists. split; [reflexivity|]. repeat split.
Qed.

(** ** Two files that are the same up to what the last read makes of them *)
Section Sim.
  Context (p1 p2 : list Z) (last_ev : event) (b : bool) (e1 e2 : event) (f1 f2 : file).
  Context (R1 : event_read (Ok true) last_ev (mkFile p1 false) = Ok ((b, e1), f1)) (R2 : event_read (Ok true) last_ev (mkFile p2 false) = Ok ((b, e2), f2)).
  Context (A12 : alike e1 e2) (E12 : b = true -> e1 = e2) (N1 : ends f1) (N2 : ends f2).
  Definition Sim (s1 s2 : inputs) : Prop := in_region s1 = in_region s2 /\
    ((alike (in_event s1) (in_event s2) /\ ends (in_file s1) /\ ends (in_file s2)) \/
     (in_event s1 = in_event s2 /\ exists es, in_file s1 = mkFile (dump es ++ p1) false /\ in_file s2 = mkFile (dump es ++ p2) false /\ Forall event_wf es /\ last (map event_kept es) (in_event s1) = last_ev)).
  (** the read that next_event and next_region make *)
  Definition fetch (s : inputs) : res (bool * event * file) := if f_eof (in_file s) then Ok (false, in_event s, in_file s) else event_read (Ok true) (in_event s) (in_file s).
  Lemma fetch_end s : ends (in_file s) -> exists o' f', fetch s = Ok (false, o', f') /\ alike (in_event s) o' /\ ends f'.
  Proof.
    intros H. unfold fetch. destruct (in_file s) as [rest eof] eqn:EF. cbn [f_eof]. destruct eof; [eexists _, _; split; [reflexivity|]; split; [apply alike_refl|left; reflexivity]|].
    destruct H as [H|H]; [discriminate H|]. destruct (ends_read (Ok true) (in_event s) rest H) as (o' & -> & A). eexists _, _. split; [reflexivity|]. split; [exact A|left; reflexivity].
  Qed.
  Lemma last_dflt {A} (x : A) l d : last (x :: l) d = last l x.
  Proof. revert x. induction l as [|y l IH]; intros x; [reflexivity|]. change (last (x :: y :: l) d) with (last (y :: l) d). change (last (y :: l) x) with (match l with [] => y | _ => last l x end). rewrite IH. destruct l as [|z l]; [reflexivity|]. symmetry. apply last_indep. discriminate. Qed.
  Lemma fetch_sim s1 s2 : Sim s1 s2 -> exists ok a1 a2 g1 g2, fetch s1 = Ok (ok, a1, g1) /\ fetch s2 = Ok (ok, a2, g2) /\ (ok = true -> a1 = a2) /\ alike a1 a2 /\
    forall i, Sim (mkIn g1 a1 i) (mkIn g2 a2 i).
  Proof.
    intros (_ & [(A & X1 & X2)|(EV & es & F1 & F2 & HW & HL)]).
    - destruct (fetch_end s1 X1) as (o1 & g1 & E1 & B1 & Y1). destruct (fetch_end s2 X2) as (o2 & g2 & E2 & B2 & Y2). exists false, o1, o2, g1, g2. split; [exact E1|]. split; [exact E2|]. split; [discriminate|].
      assert (AA : alike o1 o2) by (apply (alike_trans _ (in_event s1)); [apply alike_sym; exact B1|]; apply (alike_trans _ (in_event s2)); assumption). split; [exact AA|]. intros i. split; [reflexivity|]. left. auto.
    - unfold fetch. rewrite F1, F2, <- EV. cbn [f_eof]. destruct es as [|e es].
      + cbn [dump map concat app last] in *. rewrite HL, R1, R2. exists b, e1, e2, f1, f2. split; [reflexivity|]. split; [reflexivity|]. split; [exact E12|]. split; [exact A12|]. intros i. split; [reflexivity|]. left. auto.
      + inversion_clear HW. cbn [dump map concat]. rewrite <- !app_assoc. rewrite !event_codec by assumption. exists true, (event_kept e), (event_kept e). eexists _, _. split; [reflexivity|]. split; [reflexivity|]. split; [reflexivity|]. split; [apply alike_refl|].
        intros i. split; [reflexivity|]. right. split; [reflexivity|]. exists es. split; [reflexivity|]. split; [reflexivity|]. split; [assumption|]. cbn [map] in HL. rewrite last_dflt in HL. exact HL.
  Qed.
  Lemma next_event_fetch s : next_event (Ok true) s = do ((ok, ev), f) <- fetch s; Ok (ok, mkIn f ev (in_region s)).
  Proof. unfold next_event, fetch. destruct (f_eof (in_file s)); [destruct s; reflexivity|reflexivity]. Qed.
  Lemma sim_event_calls n : forall s1 s2, Sim s1 s2 -> event_calls (Ok true) n s1 = event_calls (Ok true) n s2.
  Proof.
    induction n as [|n IH]; intros s1 s2 HS; [reflexivity|]. cbn [event_calls]. rewrite !next_event_fetch. destruct (fetch_sim s1 s2 HS) as (ok & a1 & a2 & g1 & g2 & -> & -> & EA & _ & K). cbn [bind].
    rewrite (proj1 HS). rewrite (IH _ _ (K (in_region s2))). cbn [in_event]. destruct ok; [rewrite EA by reflexivity|]; reflexivity.
  Qed.
  Lemma sim_event_loop {S} (body : nat -> S -> event -> res (S * option Z)) n : forall test st s1 s2, Sim s1 s2 -> event_loop (Ok true) body n test st s1 = event_loop (Ok true) body n test st s2.
  Proof.
    induction n as [|n IH]; intros test st s1 s2 HS; [reflexivity|]. cbn [event_loop]. rewrite !next_event_fetch. destruct (fetch_sim s1 s2 HS) as (ok & a1 & a2 & g1 & g2 & -> & -> & EA & _ & K). cbn [bind].
    destruct ok; [|reflexivity]. cbn [in_event]. specialize (EA eq_refl). subst a1. destruct (body test st a2) as [[st1 [x|]]|]; cbn [bind]; [reflexivity| |reflexivity]. apply IH. rewrite (proj1 HS). apply K.
  Qed.
  (** regions *)
  Lemma sim_region_alike s1 s2 : Sim s1 s2 -> alike (in_event s1) (in_event s2).
  Proof. intros (_ & [(A & _)|(-> & _)]); [exact A|apply alike_refl]. Qed.
  Lemma sim_move s1 s2 i : Sim s1 s2 -> Sim (mkIn (in_file s1) (in_event s1) i) (mkIn (in_file s2) (in_event s2) i).
  Proof. intros (_ & H). split; [reflexivity|]. exact H. Qed.
  Definition relates (x y : option (res (bool * inputs))) : Prop :=
    match x, y with None, None => True | Some (UB k), Some (UB k') => k = k' | Some (Ok (c, t1)), Some (Ok (c', t2)) => c = c' /\ Sim t1 t2 | _, _ => False end.
  Definition step1 (s : inputs) : res (bool * inputs) :=
    if (ev_event (in_event s) =? 0) || (Z.of_nat (in_region s) =? Z.of_nat (length (ev_regions (in_event s)))) then
      do ((ok, ev), f) <- fetch s; if ok : bool then Ok (true, mkIn f ev 0) else Ok (false, mkIn f ev (in_region s))
    else Ok (true, s).
  Lemma next_step1 fuel s : next_region (Ok true) (Datatypes.S fuel) s =
    match step1 s with
    | UB k => Some (UB k)
    | Ok (false, s1) => Some (Ok (false, s1))
    | Ok (true, s1) =>
      match rd (ev_regions (in_event s1)) (in_region s1) with
      | UB k => Some (UB k)
      | Ok r => if abs_gt_1p5 (rg_etac r) then next_region (Ok true) fuel (mkIn (in_file s1) (in_event s1) (Z.to_nat (wrapU 32 (Z.of_nat (in_region s1) + 1)))) else Some (Ok (true, s1))
      end
    end.
  Proof. cbn [next_region]. unfold step1, fetch. destruct (_ || _); [|reflexivity]. destruct (f_eof (in_file s)); [destruct s; reflexivity|reflexivity]. Qed.
  Lemma sim_next fuel : forall s1 s2, Sim s1 s2 -> relates (next_region (Ok true) fuel s1) (next_region (Ok true) fuel s2).
  Proof.
    induction fuel as [|fuel IH]; intros s1 s2 HS; [exact I|]. rewrite !next_step1.
    assert (H1 : exists ok t1 t2, step1 s1 = Ok (ok, t1) /\ step1 s2 = Ok (ok, t2) /\ Sim t1 t2).
    { unfold step1. pose proof (sim_region_alike _ _ HS) as AL. pose proof AL as (_ & -> & _ & _ & _ & _ & _ & _ & ->). rewrite (proj1 HS). destruct (_ || _); [|exists true, s1, s2; auto].
      destruct (fetch_sim s1 s2 HS) as (ok & a1 & a2 & g1 & g2 & -> & -> & EA & _ & K). cbn [bind]. destruct ok; eexists _, _, _; (split; [reflexivity|]; split; [reflexivity|]; apply K). }
    destruct H1 as (ok & t1 & t2 & -> & -> & HT). destruct ok; [|split; [reflexivity|exact HT]]. pose proof (sim_region_alike _ _ HT) as (_ & _ & _ & _ & _ & _ & _ & _ & ->). rewrite (proj1 HT).
    destruct (rd _ _) as [r|k]; [|reflexivity]. destruct (abs_gt_1p5 (rg_etac r)); [|split; [reflexivity|exact HT]]. apply IH. apply sim_move. exact HT.
  Qed.
  Lemma sim_fw c special fuel out s1 s2 : Sim s1 s2 ->
    match next_region_fw c special (Ok true) fuel out s1, next_region_fw c special (Ok true) fuel out s2 with
    | None, None => True | Some (UB k), Some (UB k') => k = k'
    | Some (Ok (d, o1, t1)), Some (Ok (d', o2, t2)) => d = d' /\ o1 = o2 /\ Sim t1 t2 | _, _ => False end.
  Proof.
    intros HS. unfold next_region_fw. pose proof (sim_next fuel s1 s2 HS) as HN. unfold relates in HN.
    destruct (next_region (Ok true) fuel s1) as [[[d t1]|k]|], (next_region (Ok true) fuel s2) as [[[d' t2]|k']|]; try contradiction; try exact I; try (destruct d; contradiction); try (destruct d'; contradiction); try exact HN.
    destruct HN as (<- & HT). destruct d; [|auto]. pose proof (sim_region_alike _ _ HT) as (_ & _ & -> & _ & _ & _ & _ & _ & ->). rewrite (proj1 HT).
    destruct (rd _ _) as [r|k]; cbn [bind]; [|reflexivity]. repeat match goal with |- context [convert_in ?a ?b' ?c' ?d ?e] => destruct (convert_in a b' c' d e); cbn [bind]; [|reflexivity] end.
    split; [reflexivity|]. split; [reflexivity|]. apply sim_move. exact HT.
  Qed.
  Lemma sim_region_calls c special fuel n : forall out s1 s2, Sim s1 s2 -> region_calls c special (Ok true) fuel n out s1 = region_calls c special (Ok true) fuel n out s2.
  Proof.
    induction n as [|n IH]; intros out s1 s2 HS; [reflexivity|]. cbn [region_calls]. pose proof (sim_fw c special fuel out s1 s2 HS) as HF.
    destruct (next_region_fw c special (Ok true) fuel out s1) as [[[[d o1] t1]|k]|], (next_region_fw c special (Ok true) fuel out s2) as [[[[d' o2] t2]|k']|]; try contradiction; [|rewrite HF; reflexivity|reflexivity].
    destruct HF as (-> & -> & HT). rewrite (IH o2 t1 t2 HT). reflexivity.
  Qed.
  Lemma sim_region_loop {S} c special fuel clear (body : nat -> S -> fwregion -> res (S * option Z)) n : forall test st arr s1 s2, Sim s1 s2 ->
    region_loop c special (Ok true) fuel clear body n test st arr s1 = region_loop c special (Ok true) fuel clear body n test st arr s2.
  Proof.
    induction n as [|n IH]; intros test st arr s1 s2 HS; [reflexivity|]. cbn [region_loop]. pose proof (sim_fw c special fuel (clear arr) s1 s2 HS) as HF.
    destruct (next_region_fw c special (Ok true) fuel (clear arr) s1) as [[[[d o1] t1]|k]|], (next_region_fw c special (Ok true) fuel (clear arr) s2) as [[[[d' o2] t2]|k']|]; try contradiction; [|rewrite HF; reflexivity|reflexivity].
    destruct HF as (-> & -> & HT). destruct d'; [|reflexivity]. destruct (body test st o2) as [[st1 [x|]]|]; [reflexivity| |reflexivity]. apply IH. exact HT.
  Qed.
End Sim.

(** ** The programs *)
Lemma sim_start g p1 p2 b e1 e2 f1 f2 evs : Forall event_wf evs ->
  event_read (Ok true) (before g evs) (mkFile p1 false) = Ok ((b, e1), f1) -> event_read (Ok true) (before g evs) (mkFile p2 false) = Ok ((b, e2), f2) ->
  alike e1 e2 -> (b = true -> e1 = e2) -> ends f1 -> ends f2 -> same_reading g (dump evs ++ p1) (dump evs ++ p2) /\ same_programs g (dump evs ++ p1) (dump evs ++ p2).
Proof.
  intros HW R1 R2 A E N1 N2. assert (HS : Sim p1 p2 (before g evs) (mkIn (mkFile (dump evs ++ p1) false) (event0 g) 0) (mkIn (mkFile (dump evs ++ p2) false) (event0 g) 0)).
  { split; [reflexivity|]. right. split; [reflexivity|]. exists evs. split; [reflexivity|]. split; [reflexivity|]. split; [exact HW|reflexivity]. }
  split.
  - intros s s' O1 O2. injection O1 as <-. injection O2 as <-. split; intros.
    + apply (sim_event_calls p1 p2 (before g evs) b e1 e2 f1 f2 R1 R2 A E N1 N2). exact HS.
    + apply (sim_region_calls p1 p2 (before g evs) b e1 e2 f1 f2 R1 R2 A E N1 N2). exact HS.
  - split; [|split]; intros.
    + unfold bhv_main. rewrite !open_file. cbn [bind]. rewrite (sim_event_loop p1 p2 (before g evs) b e1 e2 f1 f2 R1 R2 A E N1 N2 _ _ _ _ _ _ HS). reflexivity.
    + unfold reg_main. rewrite !open_file. cbn [bind]. rewrite (sim_event_loop p1 p2 (before g evs) b e1 e2 f1 f2 R1 R2 A E N1 N2 _ _ _ _ _ _ HS). reflexivity.
    + unfold pf_main. rewrite !open_file. rewrite (sim_region_loop p1 p2 (before g evs) b e1 e2 f1 f2 R1 R2 A E N1 N2 _ _ _ _ _ _ _ _ _ _ _ HS). reflexivity.
Qed.
Lemma c63_few g evs p : Forall event_wf evs -> (length p < 4)%nat -> same_reading g (dump evs ++ p) (dump evs) /\ same_programs g (dump evs ++ p) (dump evs).
Proof.
  intros HW HL. destruct (ends_read (Ok true) (before g evs) p HL) as (o1 & R1 & A1). destruct (ends_read (Ok true) (before g evs) [] ltac:(cbn; lia)) as (o2 & R2 & A2).
  pose proof (sim_start g p [] false o1 o2 _ _ evs HW R1 R2) as H. rewrite app_nil_r in H. apply H; [|discriminate|left; reflexivity|left; reflexivity]. apply (alike_trans _ (before g evs)); [apply alike_sym|]; assumption.
Qed.
Lemma before_wf g evs : Forall event_wf evs -> inU 32 g -> mem_wf (before g evs).
Proof.
  intros HW Hg. unfold before. change (no_event g) with (event0 g). assert (HK : evs = [] \/ exists e, In e evs /\ last (map event_kept evs) (event0 g) = event_kept e).
  { destruct evs as [|e0 evs]; [left; reflexivity|right]. assert (HI : In (last (map event_kept (e0 :: evs)) (event0 g)) (map event_kept (e0 :: evs))) by (apply last_in; discriminate). apply in_map_iff in HI as (e & E & I). exists e. auto. }
  destruct HK as [->|(e & HI & ->)].
  - split; [|constructor]. cbn. repeat (apply Forall_cons; [first [exact Hg|unfold inU; cbn; lia]|]). apply Forall_nil.
  - destruct (proj1 (Forall_forall _ _) HW e HI) as (_ & _ & _ & W4 & W5 & _). split; [exact W4|]. cbn [event_kept ev_regions]. apply Forall_map. revert W5. apply Forall_impl. intros r (_ & _ & _ & _ & (W & _)). exact W.
Qed.
Lemma c63_tail g evs e p : Forall event_wf evs -> event_wf e -> inU 32 g -> cut_from e p -> (muons_at e <= length p)%nat ->
  exists e', patched (before g evs) e (length p) e' /\ event_wf e' /\ event_kept e' = e' /\ same_reading g (dump evs ++ p) (dump (evs ++ [e'])) /\ same_programs g (dump evs ++ p) (dump (evs ++ [e'])).
Proof.
  intros HW HE Hg HC HL. destruct (cut_tail (before g evs) e p false HE (before_wf g evs HW Hg) HC HL) as (e' & R1 & P & W & K). exists e'. split; [exact P|]. split; [exact W|]. split; [exact K|].
  assert (R2 : event_read (Ok true) (before g evs) (mkFile (event_dump e') false) = Ok ((true, e'), mkFile [] false)) by (rewrite <- (app_nil_r (event_dump e')), event_codec by exact W; rewrite K; reflexivity).
  assert (ED : dump (evs ++ [e']) = dump evs ++ event_dump e') by (unfold dump; rewrite map_app, concat_app; cbn [map concat]; rewrite app_nil_r; reflexivity). rewrite ED.
  apply (sim_start g p (event_dump e') true e' e' _ _ evs HW R1 R2); [apply alike_refl|reflexivity|left; reflexivity|right; cbn; lia].
Qed.

(** ** Before the cut is reached *)
Lemma event_calls_before evs p : forall n s, Forall event_wf evs -> in_file s = mkFile (dump evs ++ p) false -> (n <= length evs)%nat -> event_calls (Ok true) n s = Ok (map Some (firstn n (map event_kept evs))).
Proof.
  induction evs as [|e evs IH]; intros [|n] s HW HF HL; try reflexivity; [cbn in HL; lia|]. inversion_clear HW. cbn [event_calls]. unfold next_event. rewrite HF. cbn [f_eof dump map concat]. rewrite <- app_assoc, event_codec by assumption. cbn [bind].
  rewrite (IH n) by (assumption || reflexivity || (cbn in HL; lia)). reflexivity.
Qed.
Lemma c63_intact g evs p n s : Forall event_wf evs -> inputs_open g (Some (dump evs ++ p)) = Ok s -> (n <= length evs)%nat -> event_calls (Ok true) n s = Ok (map Some (firstn n (map event_kept evs))).
Proof. intros HW HO. injection HO as <-. intros HL. apply (event_calls_before evs p); [exact HW|reflexivity|exact HL]. Qed.
(** ** A cut in between *)
Lemma body_read o e p : event_wf e -> cut_from e p -> (4 <= length p < muons_at e)%nat -> event_read (Ok true) o (mkFile p false) = UB Uninit.
Proof.
  intros HW (q & E & N) L. rewrite muons_at_head in L by exact HW. rewrite event_split in E by exact HW. destruct (cut_app _ _ _ _ E N) as [(t' & E' & N')|(s' & -> & E')]; [apply (cut_head _ o e p t'); tauto|rewrite app_length in L; lia].
Qed.
Lemma event_calls_ub evs p : (forall o, event_read (Ok true) o (mkFile p false) = UB Uninit) -> forall n s, Forall event_wf evs -> in_file s = mkFile (dump evs ++ p) false -> (length evs < n)%nat -> event_calls (Ok true) n s = UB Uninit.
Proof.
  intros HP. induction evs as [|e evs IH]; intros [|n] s HW HF HL; try (cbn in HL; lia); cbn [event_calls]; unfold next_event; rewrite HF; cbn [f_eof dump map concat app].
  - rewrite HP. reflexivity.
  - inversion_clear HW. rewrite <- app_assoc, event_codec by assumption. cbn [bind]. rewrite (IH n) by (assumption || reflexivity || (cbn in HL; lia)). reflexivity.
Qed.
Lemma c63_body g evs e p n s : Forall event_wf evs -> event_wf e -> cut_from e p -> (4 <= length p < muons_at e)%nat -> inputs_open g (Some (dump evs ++ p)) = Ok s -> (length evs < n)%nat -> event_calls (Ok true) n s = UB Uninit.
Proof. intros HW HE HC HL HO. injection HO as <-. apply (event_calls_ub evs p); [intros o; apply (body_read o e); assumption|exact HW|reflexivity]. Qed.
Lemma c63_body_regions c special g evs e p n s : Forall good_event evs -> event_wf e -> cut_from e p -> (4 <= length p < muons_at e)%nat -> inputs_open g (Some (dump evs ++ p)) = Ok s ->
  (length (all_regions event_regions evs) < n)%nat -> exists N, forall fuel out, (N <= fuel)%nat -> arrays_ok c out -> region_calls c special (Ok true) fuel n out s = Some (UB Uninit).
Proof.
  intros HG HE HC HL HO HN. injection HO as <-. apply (calls_ub c special p Uninit) with (evs := evs).
  - intros s HF HR. exists 1%nat, (UB Uninit). split; [|reflexivity]. intros [|fuel] Hf; [lia|]. rewrite next_unfold, HR, HF. cbn [f_eof]. rewrite (body_read _ e) by assumption. reflexivity.
  - split; [reflexivity|]. split; [exact HG|]. split; [cbn; lia|]. split; [cbn; unfold fits; cbn; lia|constructor].
  - unfold cur. cbn [in_event event0 ev_event Z.eqb app]. pose proof (f_equal (@length _) (shown_outk c special evs)) as E. rewrite !map_length in E. rewrite E. exact HN.
Qed.
Lemma event_loop_ub {S} (body : nat -> S -> event -> res (S * option Z)) evs p : (forall o, event_read (Ok true) o (mkFile p false) = UB Uninit) ->
  forall n test st st1 s, Forall event_wf evs -> in_file s = mkFile (dump evs ++ p) false -> (length evs < n)%nat -> event_walk body test st (map event_kept evs) = Ok (st1, None) -> event_loop (Ok true) body n test st s = UB Uninit.
Proof.
  intros HP. induction evs as [|e evs IH]; intros [|n] test st st1 s HW HF HL HE; try (cbn in HL; lia); cbn [event_loop]; unfold next_event; rewrite HF; cbn [f_eof dump map concat app].
  - rewrite HP. reflexivity.
  - inversion_clear HW. rewrite <- app_assoc, event_codec by assumption. cbn [bind in_event]. cbn [map event_walk] in HE. destruct (body test st (event_kept e)) as [[st2 [x|]]|]; cbn [bind] in *; try discriminate HE.
    apply (IH n _ st2 st1); [assumption|reflexivity|cbn in HL; lia|exact HE].
Qed.
Lemma walk_code {S} (body : nat -> S -> event -> res (S * option Z)) : (forall test st e st1, body test st e <> Ok (st1, Some 0)) -> forall evs test st st1 code,
  event_walk body test st evs = Ok (st1, code) -> match code with Some x => x | None => 0 end = 0 -> code = None.
Proof.
  intros HB. induction evs as [|e evs IH]; intros test st st1 code; cbn [event_walk]; [intros E; injection E as <- <-; reflexivity|]. pose proof (HB test st e) as HB'. destruct (body test st e) as [[st2 [x|]]|]; cbn [bind]; intros E Z; [|exact (IH _ _ _ _ E Z)|discriminate E].
  injection E as <- <-. exfalso. apply (HB' st2). rewrite Z. reflexivity.
Qed.
Lemma bhv_body_code test st e st1 : bhv_body test st e <> Ok (st1, Some 0).
Proof.
  unfold bhv_body. destruct (negb _); [discriminate|]. repeat match goal with |- bind ?x _ <> _ => destruct x as [?|]; cbn [bind]; [|discriminate] | |- context [let '(_, _) := ?p in _] => destruct p end. discriminate.
Qed.
Lemma reg_body_code c junk work test st e st1 : reg_body c junk work test st e <> Ok (st1, Some 0).
Proof.
  unfold reg_body. destruct (negb _); [discriminate|]. destruct (foldM _ _ _) as [[?|]|]; cbn [bind]; try discriminate. destruct (reg_muons _ _) as [[?|]|]; cbn [bind]; try discriminate.
  destruct (reg_run _ _ _ _) as [?|]; cbn [bind]; [|discriminate]. destruct (reg_compare _ _) as [n|]; cbn [bind]; [|discriminate]. destruct (n =? 0); discriminate.
Qed.
Lemma c63_body_bhv g arr tmp evs e p nerr tests : Forall event_wf evs -> event_wf e -> cut_from e p -> (4 <= length p < muons_at e)%nat -> (length evs < 250)%nat ->
  bhv_main (Ok true) g arr tmp (Some (dump evs)) = Ok (0, nerr, tests) -> bhv_main (Ok true) g arr tmp (Some (dump evs ++ p)) = UB Uninit.
Proof.
  intros HW HE HC HL HN. unfold bhv_main. rewrite !open_file. cbn [bind]. change BHV_NTEST with 250%nat. rewrite (event_loop_walk _ evs) by (assumption || reflexivity). rewrite firstn_all2 by lia. intros H.
  destruct (event_walk _ _ _ _) as [[st code]|] eqn:E; [|discriminate H]. cbn [bind] in H. injection H as H _ _. rewrite (walk_code _ bhv_body_code _ _ _ _ _ E H) in E.
  rewrite (event_loop_ub _ evs p (fun o => body_read o e p HE HC HL) _ _ _ st) by (assumption || reflexivity). reflexivity.
Qed.
Lemma c63_body_reg c junk work g st0 evs e p tests : Forall event_wf evs -> event_wf e -> cut_from e p -> (4 <= length p < muons_at e)%nat -> (length evs < 50)%nat ->
  reg_main c (Ok true) junk work g st0 (Some (dump evs)) = Ok (0, tests) -> reg_main c (Ok true) junk work g st0 (Some (dump evs ++ p)) = UB Uninit.
Proof.
  intros HW HE HC HL HN. unfold reg_main. rewrite !open_file. cbn [bind]. change REG_NTEST with 50%nat. rewrite (event_loop_walk _ evs) by (assumption || reflexivity). rewrite firstn_all2 by lia. intros H.
  destruct (event_walk _ _ _ _) as [[st code]|] eqn:E; [|discriminate H]. cbn [bind] in H. injection H as H _. rewrite (walk_code _ (reg_body_code c junk work) _ _ _ _ _ E H) in E.
  rewrite (event_loop_ub _ evs p (fun o => body_read o e p HE HC HL) _ _ _ st) by (assumption || reflexivity). reflexivity.
Qed.
