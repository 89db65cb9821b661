(** Proofs about mixed nextRegion and nextEvent calls. *)
From Coq Require Import Sorting.Sorted.
From Verif Require Import Base BaseFacts Data Discrete Convert DiscreteIO SpecIO SortFacts ConvertFacts IOFacts IOProofs MixedIO SpecMixed.
Open Scope Z_scope.

Section dump.
Variable evs : list event.
Hypothesis HG : Forall good_event evs.
Hypothesis HZ : Forall (fun e => ev_event e <> 0) evs.

(** J events read, region P of the last one next *)
Definition file_at (J : nat) (f : file) : Prop := f = mkFile (dump (skipn J evs)) false \/ (J = length evs /\ f = mkFile [] true).
Definition holds (j : nat) (s : inputs) : Prop := exists e, nth_error evs j = Some e /\ ev_event (in_event s) = ev_event e /\ ev_z0 (in_event s) = ev_z0 e /\
  ev_regions (in_event s) = map region_kept (ev_regions e).
Definition Rel (s : inputs) (J P : nat) : Prop := (J <= length evs)%nat /\ in_region s = P /\ file_at J (in_file s) /\
  match J with O => ev_event (in_event s) = 0 | S j => holds j s end.
(** what the next nextRegion does *)
Definition found (s : inputs) (J P : nat) : Prop := exists N,
  (exists j k s', first_ahead evs J P j k /\ Rel s' (S j) k /\ forall fuel, (N <= fuel)%nat -> next_region (Ok true) fuel s = Some (Ok (true, s'))) \/
  (none_ahead evs J P /\ exists s', done s' /\ forall fuel, (N <= fuel)%nat -> next_region (Ok true) fuel s = Some (Ok (false, s'))).

Lemma good j e : nth_error evs j = Some e -> good_event e /\ ev_event e <> 0.
Proof. intros H. apply nth_error_In in H. rewrite Forall_forall in HG, HZ. auto. Qed.
Lemma skipn_at j e : nth_error evs j = Some e -> dump (skipn j evs) = event_dump e ++ dump (skipn (S j) evs).
Proof. intros H. rewrite (skipn_cons _ _ _ H). reflexivity. Qed.

(** the same regions ahead: the same result *)
Lemma found_same s s' J P J' P' : (forall j k, barrel_at evs j k -> (ahead J P j k <-> ahead J' P' j k)) ->
  (forall fuel, exists fuel', (fuel <= S fuel')%nat /\ next_region (Ok true) (S fuel) s = next_region (Ok true) fuel' s') -> found s' J' P' -> found s J P.
Proof.
  intros HA HS (N & [(j & k & s2 & (B & A & M) & R & H)|(NA & s2 & D & H)]); exists (S (S N)).
  - left. exists j, k, s2. split; [|split; [exact R|]].
    + split; [exact B|]. split; [apply HA; assumption|]. intros j' k' B' A'. apply M; [exact B'|apply HA; assumption].
    + intros [|fuel] Hf; [lia|]. destruct (HS fuel) as (fuel' & F & ->). apply H. lia.
  - right. split; [intros j k B A; apply (NA j k B), HA; assumption|]. exists s2. split; [exact D|].
    intros [|fuel] Hf; [lia|]. destruct (HS fuel) as (fuel' & F & ->). apply H. lia.
Qed.

(** the event in memory is used up *)
Lemma load_found s J P : Rel s J P -> reload s = true -> (forall j k, barrel_at evs j k -> ahead J P j k -> (J <= j)%nat) ->
  ((J < length evs)%nat -> forall s1, Rel s1 (S J) 0 -> found s1 (S J) 0) -> found s J P.
Proof.
  intros (L & RP & F & HC) HR HA IH. destruct (Nat.eq_dec J (length evs)) as [E|E].
  - assert (NA : none_ahead evs J P). { intros j k B A. pose proof (HA j k B A). destruct B as (e & r & B & _). assert (j < length evs)%nat by (apply nth_error_Some; congruence). lia. }
    exists 1%nat. right. split; [exact NA|]. destruct F as [F|(_ & F)].
    + rewrite skipn_all2 in F by lia. destruct (end_eof s F HR) as (N & X & HX & s2 & -> & D). exists s2. split; [exact D|]. intros [|fuel] Hf; [lia|].
      pose proof (HX (S (Nat.max fuel N)) ltac:(lia)) as X1. rewrite next_unfold, HR, F in X1 |- *. cbn [f_eof] in *. unfold event_read, fread in *.
      cbn [f_rest length dump map concat Nat.min firstn skipn bind negb Nat.eqb Nat.ltb Nat.leb f_eof orb] in *. unfold ret in *. cbn [bind] in *. exact X1.
    + exists s. assert (D : done s) by (split; [rewrite F; reflexivity|exact HR]). split; [exact D|]. intros [|fuel] Hf; [lia|]. apply done_next. exact D.
  - destruct F as [F|(F & _)]; [|contradiction]. destruct (nth_error_lt evs J) as (e & He); [lia|]. destruct (good _ _ He) as (G & Z). destruct (kept_etas e G) as (E1 & E2 & E3). pose proof G as (HW & _).
    set (s1 := mkIn (mkFile (dump (skipn (S J) evs)) false) (event_kept e) 0).
    assert (R1 : Rel s1 (S J) 0). { split; [lia|]. split; [reflexivity|]. split; [left; reflexivity|]. exists e. auto. }
    assert (RL : reload s1 = false). { unfold reload, s1. cbn [in_event in_region event_kept ev_event]. destruct (Z.eqb_spec (ev_event e) 0); [contradiction|]. cbn [orb]. cbn [event_kept ev_regions] in *. lia. }
    apply (found_same s s1 J P (S J) 0).
    + intros j k B. split; intros A; [pose proof (HA j k B A)|]; unfold ahead in *; lia.
    + intros fuel. exists (S fuel). split; [lia|]. rewrite !next_unfold, HR, RL, F. cbn [f_eof]. rewrite (skipn_at _ _ He), event_codec by exact HW. cbn [bind]. reflexivity.
    + apply IH; [lia|exact R1].
Qed.

Lemma find_region : forall d J, (length evs - J = d)%nat -> forall P s, Rel s J P -> within evs J P -> found s J P.
Proof.
  induction d as [|d IHd]; intros J HJ.
  all: assert (LD : forall s P, Rel s J P -> reload s = true -> (forall j k, barrel_at evs j k -> ahead J P j k -> (J <= j)%nat) -> found s J P)
    by (intros s P R RL HA; apply load_found; auto; intros L s1 R1; try lia; try (apply IHd; [lia|exact R1|]; intros j e _ _; lia)).
  all: destruct J as [|j]; intros P s HR HW; [apply LD; [exact HR| |intros; lia]; destruct HR as (_ & _ & _ & H); unfold reload; rewrite H; reflexivity|].
  all: pose proof HR as (L & RP & F & (e & He & H1 & H2 & H3)); destruct (good _ _ He) as (G & Z); destruct (kept_etas e G) as (E1 & E2 & E3); specialize (HW j e eq_refl He).
  all: cbn [event_kept ev_regions] in E1, E2; remember (length (ev_regions e) - P)%nat as n eqn:En.
  all: clear H1 H2 H3; clear F L RP; revert P s HR HW En; induction n as [|n IHn]; intros P s HR HW En.
  all: pose proof HR as (L & RP & F & (e' & He' & H1 & H2 & H3)); assert (e' = e) by congruence; subst e'.
  all: try (apply LD; [exact HR| |]; [unfold reload; rewrite H3, map_length, RP; replace P with (length (ev_regions e)) by lia; rewrite Z.eqb_refl; apply orb_true_r|];
    intros j' k' (e' & r' & B1 & B2 & _) [A|(A & A2)]; [exact A|]; injection A as <-; assert (e' = e) by congruence; subst e'; assert (k' < length (ev_regions e))%nat by (apply nth_error_Some; congruence); lia).
  all: destruct (nth_error_lt (ev_regions e) P) as (r & Hr); [lia|]; rewrite <- H3 in E1, E2.
  all: assert (Hr' : nth_error (ev_regions (in_event s)) (in_region s) = Some (region_kept r)) by (rewrite H3, RP, nth_error_map, Hr; reflexivity).
  all: destruct (look [] _ end_eof s _ E2 E1 Hr') as (R1 & R2 & R3 & R4); rewrite barrel_kept in R2.
  all: assert (RL : reload s = false) by (unfold reload; rewrite H1; destruct (Z.eqb_spec (ev_event e) 0); [contradiction|]; cbn [orb]; lia).
  all: assert (U : forall fuel, next_region (Ok true) (S fuel) s = if negb (barrel r) then next_region (Ok true) fuel (bump s) else Some (Ok (true, s)))
    by (intros fuel; rewrite next_unfold, RL, R1, R2; reflexivity).
  all: destruct (barrel r) eqn:B; cbn [negb] in U.
  all: try (exists 1%nat; left; exists j, P, s; split; [split; [exists e, r; auto|split; [right; lia|]]; intros j' k' _ [A|(A & A2)] [C|(C & C2)]; lia|split; [exact HR|]];
    intros [|fuel] Hf; [lia|]; apply U).
  all: apply (found_same s (bump s) (S j) P (S j) (S P)); [|intros fuel; exists fuel; split; [lia|apply U]|].
  all: try (intros j' k' (e' & r' & B1 & B2 & B3); unfold ahead; split; [intros [A|(A & A2)]; [left; exact A|]|lia]; right; split; [exact A|]; destruct (Nat.eq_dec k' P) as [->|]; [|lia]; injection A as <-; congruence).
  all: apply IHn; [|lia|lia]; split; [exact L|]; split; [rewrite R3, RP; reflexivity|]; split; [exact F|exists e; auto].
Qed.

(** ** The calls *)
Lemma done_mixed c special fuel : forall h out s, done s -> mixed_calls c special (Ok true) (S fuel) h out s = Some (Ok (repeat SawNothing (length h))).
Proof.
  induction h as [|[] h IH]; intros out s D; [reflexivity| |]; cbn [mixed_calls length repeat].
  - unfold next_region_fw. rewrite done_next by exact D. rewrite IH by exact D. reflexivity.
  - unfold next_event. pose proof D as (E & _). rewrite E. rewrite IH by exact D. reflexivity.
Qed.
Lemma past_end s J P : Rel s J P -> ~ within evs J P -> forall fuel, next_region (Ok true) (S fuel) s = Some (UB OutOfBounds).
Proof.
  intros (L & RP & F & HC) HW fuel. destruct J as [|j]; [exfalso; apply HW; intros j e E; discriminate|].
  destruct HC as (e & He & H1 & _ & H3). destruct (good _ _ He) as (_ & Z).
  assert (HL : (length (ev_regions e) < P)%nat). { destruct (Nat.le_gt_cases P (length (ev_regions e))) as [C|C]; [|exact C]. exfalso. apply HW. intros j' e' E E'. injection E as <-. congruence. }
  assert (RL : reload s = false). { unfold reload. rewrite H1, H3, map_length, RP. destruct (Z.eqb_spec (ev_event e) 0); [contradiction|]. cbn [orb]. lia. }
  rewrite next_unfold, RL. unfold rd. replace (nth_error (ev_regions (in_event s)) (in_region s)) with (@None Region); [reflexivity|].
  symmetry. apply nth_error_None. rewrite H3, map_length. lia.
Qed.
Lemma within_dec J P : within evs J P \/ ~ within evs J P.
Proof.
  destruct J as [|j]; [left; intros j e E; discriminate|]. destruct (nth_error evs j) as [e|] eqn:E; [|left; intros j' e' E' H; injection E' as <-; congruence].
  destruct (Nat.le_gt_cases P (length (ev_regions e))) as [L|L]; [left|right].
  - intros j' e' E' H. injection E' as <-. assert (e' = e) by congruence. subst. exact L.
  - intros W. specialize (W j e eq_refl E). lia.
Qed.
(** filling the arrays *)
Lemma fw_at c special s s' fuel out j k : Rel s' (S j) k -> barrel_at evs j k -> next_region (Ok true) fuel s = Some (Ok (true, s')) -> arrays_ok c out -> exists e r,
  nth_error evs j = Some e /\ nth_error (ev_regions e) k = Some r /\ barrel r = true /\ Rel (bump s') (S j) (S k) /\
  next_region_fw c special (Ok true) fuel out s = Some (Ok (true, fw_arrays c special e r, bump s')).
Proof.
  intros (L & RP & F & (e & He & H1 & H2 & H3)) (e' & r & B1 & B2 & B3) HN HA. assert (e' = e) by congruence. subst e'. destruct (good _ _ He) as (G & Z). destruct (kept_etas e G) as (E1 & E2 & E3).
  cbn [event_kept ev_regions] in E1, E2. rewrite <- H3 in E1, E2.
  assert (Hr' : nth_error (ev_regions (in_event s')) (in_region s') = Some (region_kept r)) by (rewrite H3, RP, nth_error_map, B2; reflexivity).
  destruct (look [] _ end_eof s' _ E2 E1 Hr') as (R1 & R2 & R3 & R4). exists e, r. split; [exact He|]. split; [exact B2|]. split; [exact B3|]. split.
  - split; [exact L|]. split; [rewrite R3, RP; reflexivity|]. split; [exact F|exists e; auto].
  - rewrite (fw_ok c special out s s' fuel (Ok true) (in_event s', region_kept r)); [|exact HN|reflexivity|exact R1|exact E1|exact HA].
    f_equal. f_equal. f_equal. f_equal. unfold show. cbn [fst snd]. rewrite <- (fw_arrays_kept c special e r). unfold fw_arrays. rewrite H2. reflexivity.
Qed.
Lemma event_at s J P : Rel s J P -> (J < length evs)%nat -> exists e s', nth_error evs J = Some e /\ next_event (Ok true) s = Ok (true, s') /\ in_event s' = event_kept e /\ Rel s' (S J) P.
Proof.
  intros (L & RP & F & HC) HJ. destruct (nth_error_lt evs J HJ) as (e & He). destruct (good _ _ He) as ((HW & _) & _). destruct F as [F|(F & _)]; [|lia].
  exists e. eexists. split; [exact He|]. unfold next_event. rewrite F. cbn [f_eof]. rewrite (skipn_at _ _ He), event_codec by exact HW. cbn [bind]. split; [reflexivity|]. split; [reflexivity|].
  split; [lia|]. split; [exact RP|]. split; [left; reflexivity|]. exists e. auto.
Qed.
Lemma no_event_at s J P : Rel s J P -> (length evs <= J)%nat -> exists s', next_event (Ok true) s = Ok (false, s') /\ Rel s' J P.
Proof.
  intros (L & RP & F & HC) HJ. unfold next_event. destruct F as [F|(E & F)]; rewrite F; cbn [f_eof].
  - rewrite skipn_all2 by lia. unfold event_read, fread. cbn [f_rest length dump map concat Nat.min firstn skipn bind negb Nat.eqb Nat.ltb Nat.leb f_eof orb]. unfold ret. cbn [bind].
    eexists. split; [reflexivity|]. split; [exact L|]. split; [exact RP|]. split; [right; split; [lia|reflexivity]|]. destruct J; exact HC.
  - exists s. split; [reflexivity|]. split; [exact L|]. split; [exact RP|]. split; [right; auto|exact HC].
Qed.

Lemma mixed_at c special : forall h s J P, Rel s J P -> exists N o, follows evs J P h o /\ match o with
  | None => forall fuel out, (N <= fuel)%nat -> arrays_ok c out -> mixed_calls c special (Ok true) fuel h out s = Some (UB OutOfBounds)
  | Some marks => exists ls, Forall2 (describes c special evs) marks ls /\
      forall fuel out, (N <= fuel)%nat -> arrays_ok c out -> mixed_calls c special (Ok true) fuel h out s = Some (Ok ls)
  end.
Proof.
  induction h as [|[] h IH]; intros s J P HR.
  - exists 0%nat, (Some []). split; [constructor|]. exists []. split; [constructor|reflexivity].
  - destruct (within_dec J P) as [W|W].
    + destruct (find_region _ J eq_refl P s HR W) as (N & [(j & k & s' & FA & R' & H)|(NA & s' & D & H)]).
      * pose proof FA as (B & _). assert (R2 : exists e r, nth_error evs j = Some e /\ nth_error (ev_regions e) k = Some r /\ barrel r = true /\ Rel (bump s') (S j) (S k) /\
          forall fuel out, (N <= fuel)%nat -> arrays_ok c out -> next_region_fw c special (Ok true) fuel out s = Some (Ok (true, fw_arrays c special e r, bump s'))).
        { pose proof B as (e & r & B1 & B2 & B3). exists e, r. split; [exact B1|]. split; [exact B2|]. split; [exact B3|].
          assert (A0 : arrays_ok c (show c special (e, r))) by apply show_arrays. destruct (fw_at c special s s' N _ j k R' B (H N ltac:(lia)) A0) as (e1 & r1 & _ & _ & _ & R1 & _). split; [exact R1|].
          intros fuel out Hf HA. destruct (fw_at c special s s' fuel out j k R' B (H fuel Hf) HA) as (e2 & r2 & C1 & C2 & _ & _ & C3). assert (e2 = e) by congruence. subst e2. assert (r2 = r) by congruence. subst r2. exact C3. }
        destruct R2 as (e & r & B1 & B2 & B3 & R2 & HF). destruct (IH (bump s') (S j) (S k) R2) as (N2 & o & HO & HM). exists (Nat.max N N2), (option_map (cons (AtRegion j k)) o). split; [apply follows_region; assumption|].
        assert (A2 : arrays_ok c (fw_arrays c special e r)) by apply (show_arrays c special (e, r)).
        destruct o as [marks|]; cbn [option_map].
        -- destruct HM as (ls & HD & HM). exists (SawRegion (fw_arrays c special e r) :: ls). split; [constructor; [econstructor; eassumption|exact HD]|].
           intros fuel out Hf HA. cbn [mixed_calls]. rewrite HF by (try exact HA; lia). rewrite HM by (try exact A2; lia). reflexivity.
        -- intros fuel out Hf HA. cbn [mixed_calls]. rewrite HF by (try exact HA; lia). rewrite HM by (try exact A2; lia). reflexivity.
      * exists (S N), (Some (repeat AtNothing (S (length h)))). split; [apply follows_no_region; assumption|]. exists (repeat SawNothing (S (length h))). split.
        -- generalize (S (length h)). intros n. induction n; constructor; [constructor|assumption].
        -- intros [|fuel] out Hf HA; [lia|]. cbn [mixed_calls]. unfold next_region_fw. rewrite H by lia. rewrite done_mixed by exact D. reflexivity.
    + exists 1%nat, None. split; [apply follows_past_end; exact W|]. intros [|fuel] out Hf HA; [lia|]. cbn [mixed_calls]. unfold next_region_fw. rewrite (past_end s J P HR W). reflexivity.
  - destruct (Nat.lt_ge_cases J (length evs)) as [LJ|LJ].
    + destruct (event_at s J P HR LJ) as (e & s' & He & HE & HK & R'). destruct (IH s' (S J) P R') as (N & o & HO & HM). exists N, (option_map (cons (AtEvent J)) o). split; [apply follows_event; assumption|].
      destruct o as [marks|]; cbn [option_map].
      * destruct HM as (ls & HD & HM). exists (SawEvent (event_kept e) :: ls). split; [constructor; [constructor; exact He|exact HD]|].
        intros fuel out Hf HA. cbn [mixed_calls]. rewrite HE, HM by assumption. rewrite HK. reflexivity.
      * intros fuel out Hf HA. cbn [mixed_calls]. rewrite HE, HM by assumption. reflexivity.
    + destruct (no_event_at s J P HR LJ) as (s' & HE & R'). destruct (IH s' J P R') as (N & o & HO & HM). exists N, (option_map (cons AtNothing) o). split; [apply follows_no_event; assumption|].
      destruct o as [marks|]; cbn [option_map].
      * destruct HM as (ls & HD & HM). exists (SawNothing :: ls). split; [constructor; [constructor|exact HD]|]. intros fuel out Hf HA. cbn [mixed_calls]. rewrite HE, HM by assumption. reflexivity.
      * intros fuel out Hf HA. cbn [mixed_calls]. rewrite HE, HM by assumption. reflexivity.
Qed.
Lemma open_rel g s : inputs_open g (Some (dump evs)) = Ok s -> Rel s 0 0.
Proof. intros E. injection E as <-. split; [lia|]. split; [reflexivity|]. split; [left; reflexivity|reflexivity]. Qed.

(** ** Consequences of the specification *)
Definition mark_ahead (J P : nat) (a : mark) : Prop := match a with AtRegion j k => ahead J P j k | AtEvent j => (J <= j)%nat | AtNothing => True end.
Lemma nothings J P n : Forall (mark_ahead J P) (repeat AtNothing n) /\ StronglySorted forward (repeat AtNothing n).
Proof. split; [induction n; constructor; cbn; auto|]. induction n; constructor; [assumption|]. clear. induction n; constructor; cbn; auto. Qed.
Lemma follows_forward J P h o : follows evs J P h o -> forall marks, o = Some marks -> Forall2 answers h marks /\ Forall (mark_ahead J P) marks /\ StronglySorted forward marks.
Proof.
  induction 1 as [J P|J P h o L H IH|J P h o L H IH|J P h o j k W FA H IH|J P h W NA|J P h W]; intros marks E; try discriminate.
  - injection E as <-. repeat constructor.
  - destruct o as [l|]; [|discriminate]. injection E as <-. destruct (IH l eq_refl) as (I1 & I2 & I3). split; [constructor; [exact I|exact I1]|]. rewrite Forall_forall in I2. split.
    + constructor; [cbn; lia|]. rewrite Forall_forall. intros a Ha. specialize (I2 a Ha). destruct a; cbn in *; unfold ahead in *; lia.
    + constructor; [exact I3|]. rewrite Forall_forall. intros a Ha. specialize (I2 a Ha). destruct a; cbn in *; unfold ahead in *; lia.
  - destruct o as [l|]; [|discriminate]. injection E as <-. destruct (IH l eq_refl) as (I1 & I2 & I3). split; [constructor; [exact I|exact I1]|]. split; constructor; try exact I; try assumption.
    rewrite Forall_forall. intros a _. destruct a; exact I.
  - destruct o as [l|]; [|discriminate]. injection E as <-. destruct (IH l eq_refl) as (I1 & I2 & I3). split; [constructor; [exact I|exact I1]|]. rewrite Forall_forall in I2. destruct FA as (_ & A & _). split.
    + constructor; [exact A|]. rewrite Forall_forall. intros a Ha. specialize (I2 a Ha). destruct a; cbn in *; unfold ahead in *; lia.
    + constructor; [exact I3|]. rewrite Forall_forall. intros a Ha. specialize (I2 a Ha). destruct a; cbn in *; unfold ahead, before in *; lia.
  - injection E as <-. split; [|apply (nothings J P (S (length h)))]. cbn [repeat]. constructor; [exact I|]. clear. induction h as [|x h IH]; constructor; [destruct x; exact I|exact IH].
Qed.
Lemma follows_within m J P h o : Forall (fun e => length (ev_regions e) = m) evs -> (P <= m)%nat -> follows evs J P h o -> o <> None.
Proof.
  intros HM HP H. revert HP. induction H as [J P|J P h o L H IH|J P h o L H IH|J P h o j k W FA H IH|J P h W NA|J P h W]; intros HP; try discriminate.
  1-3: assert (o <> None) by (apply IH; try exact HP; destruct FA as ((e & r & B1 & B2 & _) & _); apply nth_error_In in B1; rewrite Forall_forall in HM; rewrite <- (HM e B1); apply nth_error_Some; congruence); destruct o; [discriminate|congruence].
  exfalso. apply W. intros j e -> E. apply nth_error_In in E. rewrite Forall_forall in HM. rewrite (HM e E). exact HP.
Qed.
End dump.

(** the specification determines the result *)
Lemma first_ahead_unique evs J P j k j' k' : first_ahead evs J P j k -> first_ahead evs J P j' k' -> j = j' /\ k = k'.
Proof. intros (B & A & M) (B' & A' & M'). specialize (M j' k' B' A'). specialize (M' j k B A). unfold before in *. lia. Qed.
Lemma follows_unique evs J P h o1 : follows evs J P h o1 -> forall o2, follows evs J P h o2 -> o1 = o2.
Proof.
  induction 1 as [J P|J P h o L H IH|J P h o L H IH|J P h o j k W FA H IH|J P h W NA|J P h W]; intros o2 H2; inversion H2; subst; try reflexivity; try lia; try contradiction;
    try (f_equal; apply IH; assumption).
  - match goal with H' : first_ahead evs J P ?a ?b |- _ => destruct (first_ahead_unique _ _ _ _ _ _ _ FA H') as (<- & <-) end. f_equal. apply IH. assumption.
  - destruct FA as (B & A & _). match goal with H' : none_ahead _ _ _ |- _ => destruct (H' j k B A) end.
  - match goal with H' : first_ahead _ _ _ ?a ?b |- _ => destruct H' as (B & A & _); destruct (NA a b B A) end.
Qed.

Lemma c70_exact c special g evs h s : Forall good_event evs -> Forall (fun e => ev_event e <> 0) evs -> inputs_open g (Some (dump evs)) = Ok s ->
  exists N o, follows evs 0 0 h o /\ match o with
  | None => forall fuel out, (N <= fuel)%nat -> arrays_ok c out -> mixed_calls c special (Ok true) fuel h out s = Some (UB OutOfBounds)
  | Some marks => exists ls, Forall2 (describes c special evs) marks ls /\
      forall fuel out, (N <= fuel)%nat -> arrays_ok c out -> mixed_calls c special (Ok true) fuel h out s = Some (Ok ls)
  end.
Proof. intros HG HZ HO. apply mixed_at; [exact HG|exact HZ|]. exact (open_rel evs g s HO). Qed.

Lemma c70_same_size c special g evs m h s : Forall good_event evs -> Forall (fun e => ev_event e <> 0) evs -> Forall (fun e => length (ev_regions e) = m) evs ->
  inputs_open g (Some (dump evs)) = Ok s ->
  exists N ls marks, Forall2 answers h marks /\ Forall2 (describes c special evs) marks ls /\ StronglySorted forward marks /\
  forall fuel out, (N <= fuel)%nat -> arrays_ok c out -> mixed_calls c special (Ok true) fuel h out s = Some (Ok ls).
Proof.
  intros HG HZ HM HO. destruct (c70_exact c special g evs h s HG HZ HO) as (N & [marks|] & HF & HX).
  - destruct HX as (ls & HD & HX). destruct (follows_forward evs 0 0 h _ HF marks eq_refl) as (A & _ & S). exists N, ls, marks. auto.
  - exfalso. apply (follows_within evs m 0 0 h None HM ltac:(lia) HF). reflexivity.
Qed.

(** ** Events first, then regions *)
Definition region_seen (o : option fwregion) : seen := match o with Some a => SawRegion a | None => SawNothing end.
Lemma mixed_regions c special fuel n : forall out s l, region_calls c special (Ok true) fuel n out s = Some (Ok l) ->
  mixed_calls c special (Ok true) fuel (repeat CallRegion n) out s = Some (Ok (map region_seen l)).
Proof.
  induction n as [|n IH]; intros out s l H; cbn [region_calls repeat mixed_calls] in *; [injection H as <-; reflexivity|].
  destruct (next_region_fw c special (Ok true) fuel out s) as [[((b, out1), s1)|k]|]; try discriminate.
  destruct (region_calls c special (Ok true) fuel n out1 s1) as [[l1|k]|] eqn:E; try discriminate. injection H as <-. rewrite (IH _ _ _ E). cbn [map]. destruct b; reflexivity.
Qed.
Lemma mixed_events c special fuel h out : forall pre tl s, Forall event_wf pre -> in_file s = mkFile (dump (pre ++ tl)) false ->
  mixed_calls c special (Ok true) fuel (repeat CallEvent (length pre) ++ h) out s =
  match mixed_calls c special (Ok true) fuel h out (mkIn (mkFile (dump tl) false) (last (map event_kept pre) (in_event s)) (in_region s)) with
  | Some (Ok l) => Some (Ok (map (fun e => SawEvent (event_kept e)) pre ++ l)) | o => o end.
Proof.
  induction pre as [|e pre IH]; intros tl s HW HF.
  - cbn [length repeat app map last]. destruct s as [f ev i]. cbn [in_file in_event in_region] in *. subst f. destruct (mixed_calls _ _ _ _ _ _ _) as [[|]|]; reflexivity.
  - inversion HW as [|? ? HE HW']; subst. cbn [length repeat app mixed_calls]. unfold next_event at 1. rewrite HF. cbn [f_eof app]. unfold dump at 1. cbn [map concat]. fold (dump (pre ++ tl)).
    rewrite event_codec by exact HE. cbn [bind in_event]. rewrite (IH tl) by (try assumption; reflexivity). cbn [in_event in_region].
    replace (last (event_kept e :: map event_kept pre) (in_event s)) with (last (map event_kept pre) (event_kept e)).
    + destruct (mixed_calls _ _ _ _ _ _ _) as [[|]|]; reflexivity.
    + destruct (map event_kept pre) as [|y l] eqn:E; [reflexivity|]. cbn [last]. clear. revert y. induction l as [|z l IH]; intros y; [reflexivity|]. cbn [last] in *. destruct l; [reflexivity|apply (IH y)].
Qed.
Lemma c70_events_first c special g pre e post n s : Forall good_event (pre ++ e :: post) -> Forall (fun e => ev_event e <> 0) (e :: post) ->
  inputs_open g (Some (dump (pre ++ e :: post))) = Ok s ->
  exists N, forall fuel out, (N <= fuel)%nat -> arrays_ok c out ->
  mixed_calls c special (Ok true) fuel (repeat CallEvent (S (length pre)) ++ repeat CallRegion n) out s =
  Some (Ok (map (fun e => SawEvent (event_kept e)) (pre ++ [e]) ++
            map region_seen (shown (map (fun p => fw_arrays c special (fst p) (snd p)) (all_regions barrel_regions (e :: post))) n))).
Proof.
  intros HG HZ HO. injection HO as <-. assert (HW : Forall event_wf (pre ++ [e])).
  { apply Forall_app in HG as (G1 & G2). inversion G2; subst. apply Forall_app. split; [|constructor; [|constructor]]. - eapply Forall_impl; [|exact G1]. intros x (W & _). exact W. - match goal with H : good_event e |- _ => exact (proj1 H) end. }
  assert (GP : good_event e /\ Forall good_event post) by (apply Forall_app in HG as (_ & G2); inversion G2; auto). destruct GP as (GE & GP).
  set (s1 := mkIn (mkFile (dump post) false) (event_kept e) 0). destruct (kept_etas e GE) as (E1 & E2 & E3).
  assert (I : Inv [] s1 post). { split; [cbn [s1 in_file]; rewrite app_nil_r; reflexivity|]. split; [exact GP|]. split; [cbn; lia|]. split; assumption. }
  destruct (calls_ok c special n post s1 I) as (N & HN). exists N. intros fuel out Hf HA.
  replace (S (length pre)) with (length (pre ++ [e])) by (rewrite app_length; cbn; lia).
  rewrite (mixed_events c special fuel (repeat CallRegion n) out (pre ++ [e]) post) by (try exact HW; cbn [in_file]; rewrite <- app_assoc; reflexivity).
  cbn [in_region]. rewrite map_app. cbn [map]. rewrite last_last. fold s1. rewrite (mixed_regions c special fuel n out s1 _ (HN fuel out Hf HA)).
  f_equal. f_equal. rewrite map_app. f_equal. f_equal. f_equal. rewrite map_app, shown_outk.
  inversion HZ as [|? ? Z0 Z1]; subst. unfold all_regions. cbn [flat_map]. rewrite map_app. f_equal.
  - unfold cur, s1, barrel_regions. cbn [in_event in_region skipn event_kept ev_event ev_regions]. destruct (Z.eqb_spec (ev_event e) 0); [contradiction|].
    rewrite filter_map_kept, !map_map. apply map_ext. intros r. unfold show. cbn [fst snd]. apply fw_arrays_kept.
  - f_equal. clear - Z1. induction Z1 as [|x l Hx HL IH]; [reflexivity|]. cbn [flat_map]. rewrite IH. unfold event_regions, barrel_regions. destruct (Z.eqb_spec (ev_event x) 0); [contradiction|reflexivity].
Qed.

(** ** nextEvent after nextRegion *)
Lemma c70_skips c special g evs e0 e1 r0 r1 s : Forall good_event evs -> Forall (fun e => ev_event e <> 0) evs -> inputs_open g (Some (dump evs)) = Ok s ->
  nth_error evs 0 = Some e0 -> nth_error evs 1 = Some e1 -> nth_error (ev_regions e0) 0 = Some r0 -> nth_error (ev_regions e1) 1 = Some r1 -> barrel r0 = true -> barrel r1 = true ->
  exists N, forall fuel out, (N <= fuel)%nat -> arrays_ok c out ->
  mixed_calls c special (Ok true) fuel [CallRegion; CallEvent; CallRegion] out s =
  Some (Ok [SawRegion (fw_arrays c special e0 r0); SawEvent (event_kept e1); SawRegion (fw_arrays c special e1 r1)]).
Proof.
  intros HG HZ HO H0 H1 R0 R1 B0 B1. destruct (c70_exact c special g evs [CallRegion; CallEvent; CallRegion] s HG HZ HO) as (N & o & HF & HX).
  assert (L : (1 < length evs)%nat) by (apply nth_error_Some; congruence).
  assert (F : follows evs 0 0 [CallRegion; CallEvent; CallRegion] (Some [AtRegion 0 0; AtEvent 1; AtRegion 1 1])).
  { apply (follows_region evs 0 0 _ (Some [AtEvent 1; AtRegion 1 1]) 0 0).
    - intros j e E; discriminate.
    - split; [exists e0, r0; auto|]. split; [left; lia|]. unfold before. intros. lia.
    - apply (follows_event evs 1 1 _ (Some [AtRegion 1 1])); [exact L|]. apply (follows_region evs 2 1 _ (Some []) 1 1); [| |constructor].
      + intros j e E HE. injection E as <-. assert (e = e1) by congruence. subst e. apply Nat.lt_le_incl, nth_error_Some. congruence.
      + split; [exists e1, r1; auto|]. split; [right; lia|]. unfold before, ahead. intros. lia. }
  rewrite <- (follows_unique _ _ _ _ _ F _ HF) in HX. destruct HX as (ls & HD & HX). exists N. intros fuel out Hf HA. rewrite (HX fuel out Hf HA). f_equal. f_equal.
  repeat match goal with H : Forall2 _ _ _ |- _ => inversion H; subst; clear H end.
  repeat match goal with H : describes _ _ _ _ _ |- _ => inversion H; subst; clear H end. repeat f_equal; congruence.
Qed.
Lemma c70_past_end c special g evs e0 e1 n s : Forall good_event evs -> Forall (fun e => ev_event e <> 0) evs -> inputs_open g (Some (dump evs)) = Ok s ->
  nth_error evs 0 = Some e0 -> nth_error evs 1 = Some e1 -> Forall (fun r => barrel r = true) (firstn n (ev_regions e0)) -> (length (ev_regions e1) < n <= length (ev_regions e0))%nat ->
  exists N, forall fuel out, (N <= fuel)%nat -> arrays_ok c out ->
  mixed_calls c special (Ok true) fuel (repeat CallRegion n ++ [CallEvent; CallRegion]) out s = Some (UB OutOfBounds).
Proof.
  intros HG HZ HO H0 H1 HB HN. destruct (c70_exact c special g evs (repeat CallRegion n ++ [CallEvent; CallRegion]) s HG HZ HO) as (N & o & HF & HX).
  assert (L : (1 < length evs)%nat) by (apply nth_error_Some; congruence).
  assert (E : follows evs 1 n [CallEvent; CallRegion] None).
  { apply (follows_event evs 1 n _ None); [exact L|]. apply follows_past_end. intros W. specialize (W 1%nat e1 eq_refl H1). lia. }
  assert (G : forall k J P, (k <= n)%nat -> (J = 0 /\ P = 0 \/ J = 1)%nat -> P = (n - k)%nat -> (J = 0 -> 0 < k)%nat -> follows evs J P (repeat CallRegion k ++ [CallEvent; CallRegion]) None).
  { induction k as [|k IH]; intros J P LK HJ HP HK.
    - destruct HJ as [(HJ & _)|HJ]; [specialize (HK HJ); lia|]. subst J. rewrite Nat.sub_0_r in HP. subst P. exact E.
    - cbn [repeat app]. destruct (nth_error_lt (ev_regions e0) P) as (r & Hr); [lia|].
      assert (Br : barrel r = true). { rewrite Forall_forall in HB. apply HB. apply (nth_error_In _ P). rewrite SortFacts.nth_error_firstn. destruct (Nat.ltb_spec P n); [exact Hr|lia]. }
      apply (follows_region evs J P _ None 0 P).
      + intros j e -> HE. destruct HJ as [(HJ & _)|HJ]; [discriminate|]. injection HJ as ->. assert (e = e0) by congruence. subst e. lia.
      + split; [exists e0, r; auto|]. split; [unfold ahead; lia|]. unfold before, ahead. intros. lia.
      + apply IH; [lia|auto|lia|lia]. }
  assert (F : follows evs 0 0 (repeat CallRegion n ++ [CallEvent; CallRegion]) None) by (apply G; lia).
  rewrite <- (follows_unique _ _ _ _ _ F _ HF) in HX. exists N. exact HX.
Qed.
