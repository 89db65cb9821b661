(** The region iteration with its messages. *)
From Coq Require Import Ascii String.
From Verif Require Import Base BaseFacts Data PFHw SerText Printf HumanRead SpecHR Discrete Convert DiscreteIO SpecIO IOFacts ConvertFacts IOProofs MapiFacts RegionLoop PFTest SpecTest PFTestProofs Console SpecConsole.
Local Open Scope list_scope.
Local Open Scope Z_scope.

(** the used regions of [l], the first of which is number [k] *)
Fixpoint found (e : event) (k : nat) (l : list Region) : list news :=
  match l with [] => [] | r :: l => (if barrel r then [Found e k r] else []) ++ found e (S k) l end.
Lemma indexed_cons {A} (l : list A) : forall n, combine (seq (S n) (length l)) l = map (fun p => (S (fst p), snd p)) (combine (seq n (length l)) l).
Proof. induction l as [|x l IH]; intros n; [reflexivity|]. cbn [length seq combine map fst snd]. rewrite IH. reflexivity. Qed.
Lemma found_mapi e l : forall k, List.concat (mapi (fun i r => if barrel r then [Found e (k + i) r] else []) l) = found e k l.
Proof.
  induction l as [|r l IH]; intros k; [reflexivity|]. cbn [found]. rewrite <- (IH (S k)). unfold mapi, indexed. cbn [length seq combine map List.concat fst snd].
  rewrite Nat.add_0_r. f_equal. rewrite indexed_cons, map_map. f_equal. apply map_ext. intros [i x]. cbn [fst snd]. rewrite Nat.add_succ_r. reflexivity.
Qed.
Lemma event_news_found e : event_news e = Begin e :: found e 0 (if ev_event e =? 0 then firstn 1 (ev_regions e) else ev_regions e).
Proof. unfold event_news. f_equal. rewrite <- found_mapi. reflexivity. Qed.
(** the regions found *)
Fixpoint founds (l : list news) : list (event * Region) := match l with [] => [] | Begin _ :: l => founds l | Found e _ r :: l => (e, r) :: founds l end.
Lemma founds_app l l' : founds (l ++ l') = founds l ++ founds l'.
Proof. induction l as [|[e|e i r] l IH]; cbn; [reflexivity|exact IH|rewrite IH; reflexivity]. Qed.
Lemma founds_found e l : forall k, founds (found e k l) = map (pair e) (filter barrel l).
Proof. induction l as [|r l IH]; intros k; [reflexivity|]. cbn [found filter]. rewrite founds_app, IH. destruct (barrel r); reflexivity. Qed.
Lemma founds_event e : founds (event_news e) = map (pair e) (event_regions e).
Proof. rewrite event_news_found. cbn [founds]. apply founds_found. Qed.

(** the events announced before the next region *)
Fixpoint lead (l : list news) : list event * list news :=
  match l with Begin e :: l => let (b, r) := lead l in (e :: b, r) | _ => ([], l) end.
Definition announce (l : list event) : list ascii := List.concat (map beginning l).

Definition curn (s : inputs) : list news := if ev_event (in_event s) =? 0 then [] else found (in_event s) (in_region s) (skipn (in_region s) (ev_regions (in_event s))).
Definition stream (s : inputs) (evs : list event) : list news := curn s ++ flat_map event_news (map event_kept evs).
Definition next_is (X : bool * inputs) (l : list news) : Prop :=
  match l with
  | [] => fst X = false
  | Begin _ :: _ => False
  | Found e i r :: rest => fst X = true /\ in_event (snd X) = e /\ in_region (snd X) = i /\ rd (ev_regions e) i = Ok r /\ exists evs', Inv [] (bump (snd X)) evs' /\ stream (bump (snd X)) evs' = rest
  end.
Definition result_say (s : inputs) (evs : list event) : Prop :=
  exists N b s', (forall fuel say, (N <= fuel)%nat -> next_region_say (Ok true) fuel say s = Some (Ok (b, s', say ++ announce (fst (lead (stream s evs)))))) /\ next_is (b, s') (snd (lead (stream s evs))).

Lemma say_unfold tail fuel say s : next_region_say tail (S fuel) say s =
  match (if reload s then if f_eof (in_file s) then Ok (false, s, say) else
         do ((ok, ev), f) <- event_read tail (in_event s) (in_file s); if ok : bool then Ok (true, mkIn f ev 0, say ++ beginning ev) else Ok (false, mkIn f ev (in_region s), say) else Ok (true, s, say)) with
  | UB k => Some (UB k)
  | Ok (false, s1, say1) => Some (Ok (false, s1, say1))
  | Ok (true, s1, say1) => match rd (ev_regions (in_event s1)) (in_region s1) with
      | UB k => Some (UB k)
      | Ok r => if abs_gt_1p5 (rg_etac r) then next_region_say tail fuel say1 (bump s1) else Some (Ok (true, s1, say1))
      end
  end.
Proof. reflexivity. Qed.

Lemma scan_say evs : forall k s, Inv [] s evs -> (length (ev_regions (in_event s)) - in_region s = k)%nat -> ev_event (in_event s) <> 0 ->
  (forall s, Inv [] s evs -> in_region s = length (ev_regions (in_event s)) -> ev_event (in_event s) <> 0 -> result_say s evs) -> result_say s evs.
Proof.
  induction k as [|k IH]; intros s HI HK HN HEnd.
  - apply HEnd; auto. destruct HI as (_ & _ & L & _). lia.
  - destruct (nth_error_lt (ev_regions (in_event s)) (in_region s)) as (r & Hr); [lia|].
    pose proof HI as (I1 & I2 & I3 & I4 & I5). destruct (look [] _ end_eof s r I4 I5 Hr) as (R1 & R2 & R3 & R4).
    assert (RL : reload s = false). { unfold reload. destruct (Z.eqb_spec (ev_event (in_event s)) 0); [lia|]. cbn [orb]. lia. }
    assert (C : stream s evs = (if barrel r then [Found (in_event s) (in_region s) r] else []) ++ stream (bump s) evs).
    { unfold stream, curn. rewrite R3. cbn [bump in_event]. destruct (Z.eqb_spec (ev_event (in_event s)) 0); [lia|]. rewrite (skipn_cons _ _ _ Hr). cbn [found]. rewrite <- app_assoc. reflexivity. }
    unfold result_say. rewrite C. destruct (barrel r) eqn:B.
    + exists 1%nat, true, s. cbn [app lead fst snd announce map List.concat]. split.
      * intros [|fuel] say Hf; [lia|]. rewrite say_unfold, RL, R1, R2, app_nil_r. reflexivity.
      * cbn [next_is fst snd]. repeat split; [exact R1|]. exists evs. split; [apply (inv_bump [] _ end_eof); assumption|reflexivity].
    + assert (HB : result_say (bump s) evs). { apply IH; [apply (inv_bump [] _ end_eof); assumption|rewrite R3; cbn [bump in_event]; lia|exact HN|exact HEnd]. }
      destruct HB as (N & b & s' & HB & HD). exists (S N), b, s'. cbn [app]. split; [|exact HD].
      intros [|fuel] say Hf; [lia|]. rewrite say_unfold, RL, R1, R2. apply HB. lia.
Qed.
Lemma load_say evs : Forall good_event evs -> (forall e evs', evs = e :: evs' -> forall s, Inv [] s evs' -> result_say s evs') ->
  forall s, in_file s = mkFile (dump evs ++ []) false -> reload s = true -> curn s = [] -> result_say s evs.
Proof.
  intros HG IH s HF HR HC. unfold result_say, stream. rewrite HC. cbn [app]. destruct evs as [|e evs].
  - destruct (end_eof s) as (N & X & HX & s' & -> & _); [rewrite HF; reflexivity|exact HR|]. exists 1%nat. cbn [map flat_map lead fst snd announce List.concat next_is].
    eexists _, _. split.
    + intros [|fuel] say Hf; [lia|]. rewrite say_unfold, HR, HF. cbn [f_eof dump concat map app]. unfold event_read, fread. cbn [f_rest length Nat.min firstn skipn bind negb Nat.eqb Nat.ltb Nat.leb f_eof orb]. unfold ret. cbn [bind]. rewrite app_nil_r. reflexivity.
    + reflexivity.
  - inversion HG as [|? ? HE HG']; subst. destruct (kept_etas e HE) as (E1 & E2 & E3). pose proof HE as (HW & _).
    set (s1 := mkIn (mkFile (dump evs ++ []) false) (event_kept e) 0).
    assert (LD : forall fuel say, next_region_say (Ok true) (S fuel) say s = match rd (ev_regions (in_event s1)) (in_region s1) with
      | UB k => Some (UB k) | Ok r => if abs_gt_1p5 (rg_etac r) then next_region_say (Ok true) fuel (say ++ beginning (event_kept e)) (bump s1) else Some (Ok (true, s1, say ++ beginning (event_kept e))) end).
    { intros fuel say. rewrite say_unfold, HR, HF. cbn [f_eof dump concat map]. fold (dump evs). rewrite <- app_assoc, event_codec by exact HW. cbn [bind]. reflexivity. }
    assert (I1 : Inv [] s1 evs). { split; [reflexivity|]. split; [exact HG'|]. split; [cbn; lia|]. split; assumption. }
    destruct (nth_error_lt (ev_regions (event_kept e)) 0 E3) as (r & Hr).
    destruct (look [] _ end_eof s1 r E2 E1 Hr) as (R1 & R2 & R3 & R4).
    assert (C : flat_map event_news (map event_kept (e :: evs)) = Begin (event_kept e) :: (if barrel r then [Found (event_kept e) 0 r] else []) ++ stream (bump s1) evs).
    { cbn [map flat_map]. rewrite event_news_found. cbn [app]. f_equal. unfold stream. rewrite app_assoc. f_equal. unfold curn. rewrite R3. cbn [bump in_event in_region s1]. pose proof (skipn_cons _ _ _ Hr) as SK. cbn [skipn] in SK.
      destruct (Z.eqb_spec (ev_event (event_kept e)) 0) as [Z|Z].
      - rewrite SK. cbn [firstn found]. reflexivity.
      - rewrite SK at 1. cbn [found]. reflexivity. }
    rewrite C. cbn [lead]. destruct (barrel r) eqn:B.
    + exists 1%nat, true, s1. cbn [app lead fst snd announce map List.concat]. split.
      * intros [|fuel] say Hf; [lia|]. rewrite LD, R1, R2, app_nil_r. reflexivity.
      * cbn [next_is fst snd]. repeat split; [exact R1|]. exists evs. split; [apply (inv_bump [] _ end_eof); assumption|reflexivity].
    + destruct (IH e evs eq_refl (bump s1) (inv_bump [] _ end_eof _ _ I1 R4)) as (N & b & s' & HB & HD). cbn [app]. destruct (lead (stream (bump s1) evs)) as [bs rest]. cbn [fst snd] in *.
      exists (S N), b, s'. split; [|exact HD]. intros [|fuel] say Hf; [lia|]. rewrite LD, R1, R2. cbn [negb]. rewrite HB by lia. unfold announce. cbn [map List.concat]. rewrite <- app_assoc. reflexivity.
Qed.
Lemma next_say evs : forall s, Inv [] s evs -> result_say s evs.
Proof.
  assert (ST : forall evs, (forall e evs', evs = e :: evs' -> forall s, Inv [] s evs' -> result_say s evs') -> forall s, Inv [] s evs -> result_say s evs).
  { clear. intros evs IH s HI. pose proof HI as (I1 & I2 & I3 & I4 & I5). pose proof (load_say evs I2 IH) as LD.
    destruct (Z.eqb_spec (ev_event (in_event s)) 0) as [Z|Z].
    - apply LD; [exact I1|unfold reload; rewrite Z; reflexivity|unfold curn; rewrite Z; reflexivity].
    - eapply scan_say; [exact HI|reflexivity|exact Z|]. intros s1 (J1 & _) HL HN. apply LD; [exact J1|unfold reload; rewrite HL, Z.eqb_refl; apply orb_true_r|].
      unfold curn. rewrite HL, skipn_all. destruct (_ =? 0); reflexivity. }
  induction evs as [|e evs IH]; apply ST; [discriminate|]. intros e' evs' E. injection E as <- <-. exact IH.
Qed.

(** ** The loop *)
Definition read_text (i : nat) (r : Region) : list ascii :=
  printf_nl "Read region %u with %lu tracks, %lu em calo, %lu had calo, %lu muons"
    [Z.of_nat i; Z.of_nat (length (rg_track r)); Z.of_nat (length (rg_emcalo r)); Z.of_nat (length (rg_calo r)); Z.of_nat (length (rg_muon r))].
Section loop.
Context {S : Type} (c : config) (special : Z -> Z) (clear : fwregion -> fwregion) (hear : S -> list ascii -> S) (body : nat -> S -> fwregion -> res (S * option Z)).
Hypothesis Hclear : forall a, arrays_ok c a -> arrays_ok c (clear a).
Fixpoint walk_say (n test : nat) (st : S) (l : list news) : res (S * option Z) :=
  match n with
  | O => Ok (st, None)
  | Datatypes.S n' =>
    let t := announce (fst (lead l)) in
    match snd (lead l) with
    | Found e i r :: rest =>
        do (st1, ex) <- body test (hear st (t ++ read_text i r)) (show c special (e, r));
        match ex with Some code => Ok (st1, Some code) | None => walk_say n' (Datatypes.S test) st1 rest end
    | _ => Ok (hear st t, None)
    end
  end.
Lemma fw_say_ok out s s' say fuel e r : next_region_say (Ok true) fuel [] s = Some (Ok (true, s', say)) -> in_event s' = e -> rd (ev_regions e) (in_region s') = Ok r ->
  etas_ok (ev_regions e) -> arrays_ok c out -> next_region_fw_say c special (Ok true) fuel out s = Some (Ok (true, show c special (e, r), bump s', say ++ read_text (in_region s') r)).
Proof.
  intros HN HE HR HV (A1 & A2 & A3 & A4). unfold next_region_fw_say. rewrite HN, HE, HR. cbn [bind].
  assert (V : vec_ok r).
  { unfold rd in HR. destruct (nth_error _ _) eqn:E; [|discriminate]. injection HR as ->. apply nth_error_In in E. unfold etas_ok in HV. rewrite Forall_forall in HV. apply (HV _ E). }
  destruct V as (V1 & V2 & V3 & V4). rewrite !convert_in_ok by assumption. cbn [bind]. unfold show, fw_arrays, bump, read_region, read_text. rewrite HE. reflexivity.
Qed.
Lemma loop_say n : forall evs s, Inv [] s evs -> exists N, forall fuel test st arr, (N <= fuel)%nat -> arrays_ok c arr ->
  region_loop_say c special (Ok true) fuel clear hear body n test st arr s = Some (walk_say n test st (stream s evs)).
Proof.
  induction n as [|n IH]; intros evs s HI; [exists 0%nat; reflexivity|].
  destruct (next_say evs s HI) as (N & b & s' & HR & HX). cbn [walk_say]. destruct (lead (stream s evs)) as [bs [|[e|e i r] rest]] eqn:EL; cbn [fst snd next_is] in *.
  - subst b. exists N. intros fuel test st arr Hf HA. cbn [region_loop_say]. unfold next_region_fw_say. rewrite HR by lia. reflexivity.
  - destruct HX.
  - destruct HX as (-> & R1 & <- & R2 & evs1 & R3 & <-). destruct (IH evs1 (bump s') R3) as (N2 & H2). exists (Nat.max N N2). intros fuel test st arr Hf HA.
    cbn [region_loop_say]. assert (HV : etas_ok (ev_regions e)) by (destruct R3 as (_ & _ & _ & _ & HV); cbn [bump in_event] in HV; rewrite R1 in HV; exact HV).
    rewrite (fw_say_ok (clear arr) s s' _ fuel e r (HR fuel [] ltac:(lia)) R1 R2 HV (Hclear arr HA)). cbn [app].
    destruct (body test (hear st (announce bs ++ read_text (in_region s') r)) (show c special (e, r))) as [[st1 [code|]]|k]; cbn [bind]; try reflexivity.
    rewrite (H2 fuel (Datatypes.S test) st1 (show c special (e, r))) by (lia || apply show_arrays). reflexivity.
Qed.
Lemma loop_say_dump n g evs s : Forall good_event evs -> inputs_open g (Some (dump evs)) = Ok s -> exists N, forall fuel test st arr, (N <= fuel)%nat -> arrays_ok c arr ->
  region_loop_say c special (Ok true) fuel clear hear body n test st arr s = Some (walk_say n test st (flat_map event_news (map event_kept evs))).
Proof.
  intros HG HO. destruct (open_inv _ _ _ HG HO) as (HI & HC). destruct (loop_say n evs s HI) as (N & H). exists N. intros fuel test st arr Hf HA.
  rewrite (H fuel test st arr Hf HA). injection HO as <-. reflexivity.
Qed.
End loop.
Lemma founds_kept evs : founds (flat_map event_news (map event_kept evs)) = flat_map outk evs.
Proof. induction evs as [|e evs IH]; [reflexivity|]. cbn [map flat_map]. rewrite founds_app, founds_event, IH. reflexivity. Qed.
