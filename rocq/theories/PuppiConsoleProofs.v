(** The console of the PUPPI test program. *)
From Coq Require Import Ascii String.
From Verif Require Import Base BaseFacts MapiFacts Data PFHw PFRef SpecPF Puppi SpecPuppi PuppiProofs Bhv Vtx SerText SerTextFacts Printf HumanRead SpecHR HRFacts HRProofs
  Discrete Convert DiscreteIO SpecIO IOFacts IOProofs RegionLoop SpecTest PFTestProofs PuppiTest SpecPuppiTest PuppiTestProofs Console SpecConsole ConsoleFacts ConsoleIO ConsoleProofs ConsoleMain PuppiConsole SpecPuppiConsole.
Local Open Scope string_scope.
Local Open Scope list_scope.
Local Open Scope Z_scope.

(** ** The lines *)
Lemma l_test a : small a -> let s := printf "test %d" [a] in nonl s /\ read_row (map tidy s) = (["test"], [a]).
Proof. intros Ha. cbv zeta. split; [line_nonl|console_row]. Qed.
Lemma l_end a : small a -> let s := printf "end of test ---- %d" [a] in nonl s /\ read_row (map tidy s) = (["end"; "of"; "test"; "----"], [a]).
Proof. intros Ha. cbv zeta. split; [line_nonl|console_row]. Qed.
Lemma l_puppi a b c : small a -> small b -> small c -> let s := printf "hwpt = %d, hwptpuppi = %d, hwptpuppi-ref = %d " [a; b; c] in
  nonl s /\ read_row (map tidy s) = (["hwpt"; "="; "hwptpuppi"; "="; "hwptpuppi-ref"; "="], [a; b; c]).
Proof. intros Ha Hb Hc. cbv zeta. split; [line_nonl|console_row]. Qed.
Definition lines_small (lines : list (Z * Z * Z)) : Prop := Forall (fun l => small (fst (fst l)) /\ small (snd (fst l)) /\ small (snd l)) lines.
Lemma lines_say lines : lines_small lines -> says (List.concat (map pp_line lines)) (map puppi_row lines).
Proof.
  induction 1 as [|((p & h) & r) l (H1 & H2 & H3) HF IH]; [apply says_nil|]. cbn [map List.concat fst snd] in *.
  change (puppi_row (p, h, r) :: map puppi_row l) with ([puppi_row (p, h, r)] ++ map puppi_row l). apply says_app; [|exact IH].
  destruct (l_puppi p h r H1 H2 H3) as (A & B). unfold pp_line, printf_nl. apply says_line; [exact A|exact B].
Qed.
Lemma text_says test lines : Z.of_nat test < 2 ^ 31 -> lines_small lines -> says (pp_text test lines) (puppi_rows test lines).
Proof.
  intros HT HL. assert (S : small (Z.of_nat test)) by (unfold small; lia). unfold pp_text, puppi_rows. apply says_app; [|apply says_app; [apply lines_say; exact HL|]].
  - destruct (l_test _ S) as (A & B). apply says_line; [exact A|exact B].
  - destruct (l_end _ S) as (A & B). apply says_line; [exact A|exact B].
Qed.
Lemma puppi_small tab pt s : table_ok tab -> inS 16 pt -> small (puppi_pt tab pt s).
Proof.
  intros (HL & HT) HP. unfold inS in HP. change (2 ^ (16 - 1)) with 32768 in HP. unfold puppi_pt. cbv zeta. destruct (Z.leb_spec (s / 1024) 0); [unfold small; lia|]. destruct (Z.ltb_spec (s / 1024) 1174); [|unfold small; lia].
  assert (W : 0 <= nth (Z.to_nat (s / 1024)) tab 0 <= 255).
  { destruct (Nat.lt_ge_cases (Z.to_nat (s / 1024)) (length tab)) as [L|L]; [|rewrite nth_overflow by exact L; lia]. exact (proj1 (Forall_forall _ _) HT _ (nth_In tab 0 L)). }
  set (w := nth _ _ _) in *. unfold small. assert (-32768 * 255 <= pt * w <= 32767 * 255) by nia. set (q := pt * w) in *. clearbody q. lia.
Qed.
Lemma report_small c tab nall mem vold r lines : table_ok tab -> region_ok c r -> report c tab nall mem vold r lines -> lines_small lines.
Proof.
  intros HT (_ & HE & HH & HK & _) (q & v & Hq & _ & ->). destruct (PuppiTestProofs.ref_ranges _ _ _ _ _ _ _ HE HH HK Hq) as (_ & R2).
  apply Forall_forall. intros l Hl. apply in_map_iff in Hl as (n & <- & Hn). pose proof (proj1 (Forall_forall _ _) R2 n Hn) as P. cbv zeta. cbn [fst snd].
  split; [unfold inS in P; unfold small; change (2 ^ (16 - 1)) with 32768 in P; lia|]. split; apply puppi_small; assumption.
Qed.

(** ** The loop *)
Section walk.
Variables (c : config) (special : Z -> Z) (tab : list Z) (nall : nat) (mr : nat -> pfmem) (vold : nat -> vtxobj).
Hypothesis HT : table_ok tab.
Lemma body_any test st r : pp_body c tab nall mr vold test st r = do (new, ex) <- pp_body c tab nall mr vold test [] r; Ok (st ++ new, ex).
Proof.
  unfold pp_body. destruct (pfalgo3_full_ref _ _ _ _ _ _) as [q|k]; [cbn [bind]|reflexivity]. destruct (mapM _ _) as [tks|k]; [cbn [bind]|reflexivity].
  destruct (simple_vtx_ref _ _) as [v|k]; [cbn [bind]|reflexivity]. destruct (simple_puppi_ref _ _ _ _) as [x|k]; [cbn [bind]|reflexivity]. destruct (simple_puppi_hw _ _ _ _) as [y|k]; reflexivity.
Qed.
Lemma puppi_lead test l out : puppi_story test l out = map (fun e => news_row (Begin e)) (fst (lead l)) ++ puppi_story test (snd (lead l)) out.
Proof. induction l as [|[e|e i r] l IH]; cbn [lead]; try reflexivity. destruct (lead l) as [bs rest]. cbn [fst snd puppi_story map app] in *. rewrite IH. reflexivity. Qed.
Definition hear : list (list (Z * Z * Z)) * list ascii -> list ascii -> list (list (Z * Z * Z)) * list ascii := fun '(out, text) say => (out, text ++ say).
Lemma walk_puppi n : forall t l out0 text, (t + S n = PP_NTEST)%nat -> Forall news_ok l ->
  match walk (pp_body c tab nall mr vold) (S t) out0 (firstn (S n) (map (show c special) (founds l))) with
  | Ok (out, ex) => exists new u, out = out0 ++ new /\ ex = None /\ walk_say c special hear (pp_body_say c tab nall mr vold) (S n) (S t) (out0, text) l = Ok ((out0 ++ new, text ++ u), None) /\ says u (puppi_story (S t) l new)
  | UB k => walk_say c special hear (pp_body_say c tab nall mr vold) (S n) (S t) (out0, text) l = UB k
  end.
Proof.
  induction n as [|n IH]; intros t l out0 text HN HL.
  all: destruct (lead_says l HL) as (SA & HL'); rewrite lead_founds; pose proof (lead_head l) as LH; rewrite walk_say_S; destruct (lead l) as [bs rest] eqn:EL; cbn [fst snd] in *.
  all: destruct rest as [|[e|e i r] rest]; [|destruct LH|].
  all: try (cbn [founds map firstn walk]; exists [], (announce bs); rewrite app_nil_r; split; [reflexivity|]; split; [reflexivity|]; split; [reflexivity|]; rewrite puppi_lead, EL; cbn [fst snd puppi_story]; rewrite app_nil_r; exact SA).
  all: inversion HL' as [|? ? N1 N2]; subst; pose proof (found_says e i r N1) as SF; cbn [founds map]; rewrite firstn_cons, walk_cons, body_any; unfold pp_body_say, hear at 1.
  all: destruct (pp_body c tab nall mr vold (S t) [] (show c special (e, r))) as [(new & ex)|k] eqn:EB; cbn [bind]; [|reflexivity].
  all: destruct (body_Ok c tab nall mr vold _ _ _ _ _ HT (show_ok c special (e, r)) EB) as (_ & -> & lines & EN & RP); cbn [app] in EN; subst new.
  all: assert (TS : says (pp_text (S t) lines) (puppi_rows (S t) lines)) by (apply text_says; [unfold PP_NTEST in HN; lia|exact (report_small _ _ _ _ _ _ _ HT (show_ok c special (e, r)) RP)]).
  all: cbn [map List.concat]; rewrite app_nil_r.
  - cbn [walk firstn]. exists [lines], (announce bs ++ read_text i r ++ pp_text (S t) lines). split; [reflexivity|]. split; [reflexivity|]. split.
    + cbn [walk_say]. rewrite <- !app_assoc. reflexivity.
    + rewrite puppi_lead, EL. cbn [fst snd]. apply says_app; [exact SA|]. cbn [puppi_story]. replace (S t =? 50)%nat with true by (symmetry; apply Nat.eqb_eq; unfold PP_NTEST in HN; lia). rewrite app_nil_r.
      change (?x :: puppi_rows (S t) lines) with ([x] ++ puppi_rows (S t) lines). apply says_app; [exact SF|exact TS].
  - specialize (IH (S t) rest (out0 ++ [lines]) ((text ++ announce bs ++ read_text i r) ++ pp_text (S t) lines) ltac:(lia) N2).
    destruct (walk _ _ _ _) as [(out & ex)|k].
    + destruct IH as (new & u & -> & -> & W & SU). exists (lines :: new), (announce bs ++ read_text i r ++ pp_text (S t) lines ++ u). split; [rewrite <- app_assoc; reflexivity|]. split; [reflexivity|]. split.
      * change (lines :: new) with ([lines] ++ new). rewrite (app_assoc out0). replace (text ++ announce bs ++ read_text i r ++ pp_text (S t) lines ++ u) with (((text ++ announce bs ++ read_text i r) ++ pp_text (S t) lines) ++ u) by (rewrite <- !app_assoc; reflexivity). exact W.
      * rewrite puppi_lead, EL. cbn [fst snd]. apply says_app; [exact SA|]. cbn [puppi_story]. replace (S t =? 50)%nat with false by (symmetry; apply Nat.eqb_neq; unfold PP_NTEST in HN; lia).
        change (?x :: puppi_rows (S t) lines ++ ?y) with ([x] ++ puppi_rows (S t) lines ++ y). apply says_app; [exact SF|]. apply says_app; [exact TS|exact SU].
    + exact IH.
Qed.
End walk.
Lemma puppi_kept l : forall test out, puppi_story test (map news_kept l) out = puppi_story test l out.
Proof.
  induction l as [|[e|e i r] l IH]; intros test out; [reflexivity| |]; cbn [map news_kept puppi_story].
  - rewrite IH. reflexivity.
  - destruct out as [|lines out]; [reflexivity|]. rewrite IH. f_equal. exact (news_row_kept (Found e i r)).
Qed.
Lemma c86 c special tab nall mr vold g arr evs : table_ok tab -> arrays_ok c arr -> Forall good_event evs ->
  exists N, forall fuel, (N <= fuel)%nat ->
    match pp_main c special (Ok true) fuel tab nall mr vold g arr (Some (dump evs)) with
    | Some (Ok (code, out)) => exists text, pp_main_say c special (Ok true) fuel tab nall mr vold g arr (Some (dump evs)) = Some (Ok (0, out, text)) /\
        read_console text = puppi_story 1 (flat_map event_news evs) out /\ code = 0 /\ length out = length (tested c special PP_NTEST evs) /\
        forall i r, nth_error (tested c special PP_NTEST evs) i = Some r -> exists lines, nth_error out i = Some lines /\ report c tab nall (mr (1 + i)%nat) (vold (1 + i)%nat) r lines
    | Some (UB k) => pp_main_say c special (Ok true) fuel tab nall mr vold g arr (Some (dump evs)) = Some (UB k)
    | None => False
    end.
Proof.
  intros HT HA HG. unfold pp_main, pp_main_say. destruct (inputs_open g (Some (dump evs))) as [s|k] eqn:EO; [|discriminate EO].
  destruct (loop_dump c special clear_arrays (pp_body c tab nall mr vold) (clear_ok c) PP_NTEST g evs s HG EO) as (N1 & HW).
  destruct (loop_say_dump c special clear_arrays hear (pp_body_say c tab nall mr vold) (clear_ok c) PP_NTEST g evs s HG EO) as (N2 & HS).
  exists (Nat.max N1 N2). intros fuel Hf. rewrite (HW fuel 1%nat [] arr ltac:(lia) HA). specialize (HS fuel 1%nat ([], []) arr ltac:(lia) HA). unfold hear in HS. rewrite HS.
  assert (ET : tested c special PP_NTEST evs = firstn PP_NTEST (map (show c special) (founds (flat_map event_news (map event_kept evs))))) by (rewrite founds_kept, shown_outk; reflexivity).
  pose proof (walk_puppi c special tab nall mr vold HT 49 0 (flat_map event_news (map event_kept evs)) [] [] eq_refl (news_all_ok evs HG)) as WP. change (S 49) with PP_NTEST in WP. rewrite <- ET in WP. unfold hear in WP.
  destruct (walk _ _ _ _) as [(out & ex)|k] eqn:EW.
  - destruct WP as (new & u & -> & -> & W & SU). rewrite W. exists ([] ++ u). split; [reflexivity|]. split; [apply says_read; rewrite all_news_kept, puppi_kept in SU; exact SU|]. split; [reflexivity|].
    destruct (walk_Ok c tab nall mr vold HT _ _ _ _ _ (tested_ok c special PP_NTEST evs) EW) as (_ & out & E & L & H). cbn [app] in *. subst out. split; [exact L|exact H].
  - rewrite WP. reflexivity.
Qed.
