(** The console of the particle-flow test program. *)
From Coq Require Import Ascii String.
From Verif Require Import Base BaseFacts Data PFHw PFRef PFTotal Encoding SpecEnc EncFacts EncProofs TestUtils SerText SerTextFacts Printf HumanRead SpecHR HRFacts HRProofs MapiFacts
  Discrete Convert DiscreteIO SpecIO IOFacts IOProofs Serializer SpecSer SerProofs SerFinal SpecOut RegionLoop PFTest SpecTest PFTestProofs PFFileProofs Console SpecConsole ConsoleFacts ConsoleIO.
Local Open Scope string_scope.
Local Open Scope list_scope.
Local Open Scope Z_scope.

(** ** Lines *)
Lemma printf_clean f : clean f -> forall st args, Forall small args -> clean (printf_aux st f args).
Proof.
  induction f as [|c f IH]; intros HF st args HA; [reflexivity|]. unfold clean in HF. cbn [map] in HF. injection HF as Hc HF. specialize (IH HF). cbn [printf_aux]. destruct st as [[fl w]|].
  - destruct (_ =? _)%char; [apply IH; exact HA|]. destruct (_ =? _)%char; [apply IH; exact HA|]. destruct (_ && _); [apply IH; exact HA|]. destruct (_ =? _)%char; [apply IH; exact HA|].
    destruct (_ || _); [|apply IH; exact HA]. destruct args as [|x xs]; [reflexivity|]. inversion HA; subst. apply clean_app; [apply tidy_conv; assumption|apply IH; assumption].
  - destruct (_ =? _)%char; [apply IH; exact HA|]. unfold clean. cbn [map]. rewrite Hc, IH by exact HA. reflexivity.
Qed.
Lemma says_plain f a rw : clean (chars f) -> Forall small a -> nonl (printf f a) -> read_row (printf f a) = rw -> says (printf_nl f a) [rw].
Proof. intros HF HA HN HR. unfold printf_nl. apply says_line; [exact HN|]. replace (map tidy (printf f a)) with (printf f a); [exact HR|symmetry; apply printf_clean; assumption]. Qed.
Lemma concat_tidy (l : list (list ascii)) : map tidy (List.concat l) = List.concat (map (map tidy) l).
Proof. apply concat_map. Qed.
Lemma says_mapi {A} (line : nat -> A -> list ascii) (rw : nat -> A -> row) l : (forall i x, nth_error l i = Some x -> says (line i x) [rw i x]) -> says (List.concat (mapi line l)) (mapi rw l).
Proof. intros H. unfold says. rewrite concat_tidy, map_mapi. apply reads_mapi. exact H. Qed.
Lemma says_mapis {A} (line : nat -> A -> list ascii) (rws : nat -> A -> list row) l : (forall i x, nth_error l i = Some x -> says (line i x) (rws i x)) -> says (List.concat (mapi line l)) (List.concat (mapi rws l)).
Proof. intros H. unfold says. rewrite concat_tidy, map_mapi. apply reads_mapis. exact H. Qed.

Ltac dump_line lem := destruct lem as (A & B); try smalls; (apply says_plain; [reflexivity|repeat (apply Forall_cons; [smalls|]); apply Forall_nil|exact A|]).
Definition inputs_text (r : fwregion) : list ascii :=
  List.concat (mapi had_line (fw_calo r)) ++ List.concat (mapi em_line (fw_emcalo r)) ++ List.concat (mapi tk_line (fw_track r)) ++ List.concat (mapi mu_line (fw_muon r)).
Definition outputs_text (o : pfout) : list ascii :=
  List.concat (mapi ch_line (o_ch o)) ++ List.concat (mapi pho_line (o_pho o)) ++ List.concat (mapi ne_line (o_ne o)) ++ List.concat (mapi pfmu_line (o_mu o)).
Lemma dump_inputs_text r : on_console (hr_dump_inputs (fw_emcalo r) (fw_calo r) (fw_track r) (fw_muon r)) = Ok (inputs_text r).
Proof.
  unfold on_console, hr_dump_inputs, hr_dump_hadcalo, hr_dump_emcalo, hr_dump_track, hr_dump_mu, hr_new, inputs_text.
  repeat (rewrite put_lines; cbn [bind]). cbn [hs_text app]. rewrite <- !app_assoc. reflexivity.
Qed.
Lemma dump_outputs_text o : on_console (hr_dump_outputs o) = Ok (outputs_text o).
Proof.
  unfold on_console, hr_dump_outputs, hr_new, outputs_text. repeat (rewrite put_lines; cbn [bind]). cbn [hs_text app]. rewrite <- !app_assoc. reflexivity.
Qed.
Definition out_ok (o : pfout) : Prop := Forall ch_ok (o_ch o) /\ Forall ne_ok (o_pho o) /\ Forall ne_ok (o_ne o) /\ Forall ch_ok (o_mu o).
Lemma inputs_says c r : cfg_fits c -> region_ok c r -> says (inputs_text r) (input_rows r).
Proof.
  unfold cfg_fits. rewrite !Forall_cons_iff. intros (F1 & F2 & F3 & F4 & _) ((A1 & A2 & A3 & A4) & O1 & O2 & O3 & O4). rewrite <- A1 in F2. rewrite <- A2 in F1. rewrite <- A3 in F3. rewrite <- A4 in F4.
  rewrite Forall_forall in O1, O2, O3, O4. unfold inputs_text, input_rows. repeat apply says_app.
  - apply says_mapi. intros i o Ho. pose proof (small_idx _ _ _ F2 Ho) as Hi. destruct (O2 o (nth_error_In _ _ Ho)) as (R1 & R2 & R3 & R4).
    dump_line (p_had (Z.of_nat i) (h_pt o) (h_empt o) (h_eta o) (h_phi o) (b2z (h_isem o))). rewrite B. unfold had_row. destruct (h_isem o); reflexivity.
  - apply says_mapi. intros i o Ho. pose proof (small_idx _ _ _ F1 Ho) as Hi. destruct (O1 o (nth_error_In _ _ Ho)) as (R1 & R2 & R3 & R4).
    dump_line (p_em (Z.of_nat i) (e_pt o) (e_pterr o) (e_eta o) (e_phi o)). exact B.
  - apply says_mapi. intros i o Ho. pose proof (small_idx _ _ _ F3 Ho) as Hi. destruct (O3 o (nth_error_In _ _ Ho)) as (R1 & R2 & R3 & R4 & R5).
    dump_line (p_tk (Z.of_nat i) (t_pt o) (t_pterr o) (t_eta o) (t_phi o) (t_z0 o)). exact B.
  - apply says_mapi. intros i o Ho. pose proof (small_idx _ _ _ F4 Ho) as Hi. destruct (O4 o (nth_error_In _ _ Ho)) as (R1 & R2 & R3 & R4).
    dump_line (p_mu (Z.of_nat i) (m_pt o) (m_pterr o) (m_eta o) (m_phi o)). exact B.
Qed.
Lemma outputs_says c o : cfg_fits c -> sized c o -> out_ok o -> says (outputs_text o) (output_rows o).
Proof.
  unfold cfg_fits. rewrite !Forall_cons_iff. intros (F1 & F2 & F3 & F4 & F5 & _) (A1 & A2 & A3 & A4) (O1 & O2 & O3 & O4). rewrite <- A1 in F3. rewrite <- A2 in F1. rewrite <- A3 in F5. rewrite <- A4 in F4.
  rewrite Forall_forall in O1, O2, O3, O4. unfold outputs_text, output_rows. repeat apply says_app.
  - apply says_mapi. intros i x Ho. pose proof (small_idx _ _ _ F3 Ho) as Hi. destruct (O1 x (nth_error_In _ _ Ho)) as (R1 & R2 & R3 & R4 & R5).
    dump_line (p_ch (Z.of_nat i) (c_pt x) (c_eta x) (c_phi x) (c_id x) (c_z0 x)). exact B.
  - apply says_mapi. intros i x Ho. pose proof (small_idx _ _ _ F1 Ho) as Hi. destruct (O2 x (nth_error_In _ _ Ho)) as (R1 & R2 & R3 & R4).
    dump_line (p_pho (Z.of_nat i) (n_pt x) (n_eta x) (n_phi x) (n_id x)). exact B.
  - apply says_mapi. intros i x Ho. pose proof (small_idx _ _ _ F5 Ho) as Hi. destruct (O3 x (nth_error_In _ _ Ho)) as (R1 & R2 & R3 & R4).
    dump_line (p_ne (Z.of_nat i) (n_pt x) (n_eta x) (n_phi x) (n_id x)). exact B.
  - apply says_mapi. intros i x Ho. pose proof (small_idx _ _ _ F4 Ho) as Hi. destruct (O4 x (nth_error_In _ _ Ho)) as (R1 & R2 & R3 & R4 & R5).
    dump_line (p_pfmu (Z.of_nat i) (c_pt x) (c_eta x) (c_phi x) (c_id x)). exact B.
Qed.

(** ** The comparison of one test *)
Lemma skipn_nth {A} (l : list A) k x : nth_error l k = Some x -> skipn k l = x :: skipn (S k) l.
Proof. revert l. induction k as [|k IH]; intros [|y l] H; cbn in *; try discriminate; [congruence|]. apply IH. exact H. Qed.
Definition slot_rows_from {T} (what : string) (names : list string) (fields : T -> list Z) (k : nat) (ref out : list T) : list row :=
  List.concat (mapi (fun i p => compare_rows what names (Z.of_nat (k + i)) (fields (fst p)) (fields (snd p))) (combine ref out)).
Lemma mapi_cons {A B} (f : nat -> A -> B) x l : mapi f (x :: l) = f 0%nat x :: mapi (fun i => f (S i)) l.
Proof. unfold mapi, indexed. cbn [length seq combine map fst snd]. rewrite indexed_cons, map_map. reflexivity. Qed.
Lemma slot_rows_cons {T} what names (fields : T -> list Z) k x ref y out : slot_rows_from what names fields k (x :: ref) (y :: out) =
  compare_rows what names (Z.of_nat k) (fields x) (fields y) ++ slot_rows_from what names fields (S k) ref out.
Proof.
  unfold slot_rows_from. cbn [combine]. rewrite mapi_cons. cbn [List.concat fst snd]. rewrite Nat.add_0_r. do 2 f_equal. apply mapi_ext_in. intros i p _. rewrite Nat.add_succ_r. reflexivity.
Qed.
Lemma quad {A} (a : A) (b b' c c' d d' : Z) : b = b' -> c = c' -> d = d' -> Ok (a, b, c, d) = Ok (a, b', c', d').
Proof. intros -> -> ->. reflexivity. Qed.
Lemma nonzero_cons {T} (pt : T -> Z) x l : nonzero pt (x :: l) = (if 0 <? pt x then 1 else 0) + nonzero pt l.
Proof. unfold nonzero. cbn [filter]. destruct (0 <? pt x); cbn [length]; lia. Qed.
Lemma nonzero_range {T} (pt : T -> Z) l : 0 <= nonzero pt l <= Z.of_nat (length l).
Proof. induction l as [|x l IH]; [unfold nonzero; cbn; lia|]. rewrite nonzero_cons. cbn [length]. destruct (0 <? pt x); lia. Qed.
Section slots.
Context {T : Type} (equals : T -> T -> bool) (message : Z -> T -> T -> list ascii) (pt : T -> Z) (fields : T -> list Z) (names : list string) (what : string) (ok : T -> Prop).
Hypothesis HE : forall x y, equals x y = same_object (fields x) (fields y).
Hypothesis HM : forall i x y, small i -> ok x -> ok y -> says (message i x y) (compare_rows what names i (fields x) (fields y)).
Lemma check_from ref out n : forall k t e n0 k0, length ref = (k + n)%nat -> length out = (k + n)%nat -> Forall ok ref -> Forall ok out ->
  0 <= e -> 0 <= n0 -> 0 <= k0 -> e + Z.of_nat n < 2 ^ 31 -> n0 + Z.of_nat n < 2 ^ 31 -> k0 + Z.of_nat n < 2 ^ 31 -> Z.of_nat (k + n) < 2 ^ 31 ->
  let rows := slot_rows_from what names fields k (skipn k ref) (skipn k out) in let nz := nonzero pt (skipn k ref) in
  exists text, foldM (fun '(text, errors, ntot, nkind) i =>
    do x <- rd ref i; do y <- rd out i;
    let text := text ++ message (Z.of_nat i) x y in
    do errors <- (if negb (equals x y) then i32 (errors + 1) else Ok errors);
    if pt x >? 0 then do ntot <- i32 (ntot + 1); do nkind <- i32 (nkind + 1); Ok (text, errors, ntot, nkind)
    else Ok (text, errors, ntot, nkind)) (seq k n) (t, e, n0, k0) = Ok (t ++ text, e + Z.of_nat (length rows), n0 + nz, k0 + nz) /\ says text rows /\ (length rows <= n)%nat.
Proof.
  induction n as [|n IH]; intros k t e n0 k0 L1 L2 O1 O2 He Hn Hk B1 B2 B3 B4; cbv zeta.
  - rewrite !skipn_all2 by lia. exists []. cbn [seq foldM]. unfold nonzero, slot_rows_from. cbn. rewrite app_nil_r, !Z.add_0_r. split; [reflexivity|]. split; [apply says_nil|lia].
  - destruct (nth_error_lt ref k ltac:(lia)) as (x & Ex). destruct (nth_error_lt out k ltac:(lia)) as (y & Ey).
    rewrite (skipn_nth _ _ _ Ex), (skipn_nth _ _ _ Ey), slot_rows_cons, nonzero_cons. cbn [seq foldM]. unfold rd at 1 2. rewrite Ex, Ey. cbn [bind].
    pose proof (HM (Z.of_nat k) x y ltac:(unfold small; lia) (proj1 (Forall_forall _ _) O1 x (nth_error_In _ _ Ex)) (proj1 (Forall_forall _ _) O2 y (nth_error_In _ _ Ey))) as M.
    rewrite HE. unfold compare_rows in *. rewrite Z.gtb_ltb.
    destruct (same_object (fields x) (fields y)); cbn [negb]; [|rewrite i32_Ok by lia]; cbn [bind]; (destruct (0 <? pt x); [rewrite !i32_Ok by lia|]; cbn [bind]);
      (match goal with |- context [foldM _ _ (?t1, ?e1, ?a1, ?b1)] => destruct (IH (S k) t1 e1 a1 b1 ltac:(lia) ltac:(lia) O1 O2 ltac:(lia) ltac:(lia) ltac:(lia) ltac:(lia) ltac:(lia) ltac:(lia) ltac:(lia)) as (text & F & HS & L) end; rewrite F);
      (exists (message (Z.of_nat k) x y ++ text); split; [rewrite !app_length, <- app_assoc; cbn [length]; apply quad; lia|split; [apply says_app; assumption|rewrite app_length; cbn [length]; lia]]).
Qed.
Lemma check_says ref out n t e n0 : length ref = n -> length out = n -> Forall ok ref -> Forall ok out -> 0 <= e -> 0 <= n0 -> e + Z.of_nat n < 2 ^ 31 -> n0 + Z.of_nat n < 2 ^ 31 ->
  let rows := slot_rows what names fields ref out in
  exists text, check_slots equals message pt n ref out (t, e, n0, 0) = Ok (t ++ text, e + Z.of_nat (length rows), n0 + nonzero pt ref, nonzero pt ref) /\ says text rows /\ (length rows <= n)%nat.
Proof. intros L1 L2 O1 O2 He Hn B1 B2. cbv zeta. exact (check_from ref out n 0 t e n0 0 L1 L2 O1 O2 He Hn (Z.le_refl 0) B1 B2 ltac:(lia) ltac:(lia)). Qed.
End slots.

(** ** The reference's output is in range *)
Lemma Forall_wr {A} (P : A -> Prop) l i x l' : wr l i x = Ok l' -> Forall P l -> P x -> Forall P l'.
Proof. unfold wr. destruct (_ <? _)%nat; [|discriminate]. intros [= <-] HL HX. apply Forall_upd; assumption. Qed.
Lemma Forall_rd {A} (P : A -> Prop) l i x : rd l i = Ok x -> Forall P l -> P x.
Proof. unfold rd. destruct (nth_error l i) eqn:E; [|discriminate]. intros [= <-] H. eapply Forall_forall; [exact H|eapply nth_error_In; exact E]. Qed.
Lemma foldM_inv {A S} (P : S -> Prop) (f : S -> A -> res S) l : (forall s x s1, In x l -> P s -> f s x = Ok s1 -> P s1) -> forall s s', P s -> foldM f l s = Ok s' -> P s'.
Proof.
  induction l as [|x l IH]; intros H s s' HP; cbn [foldM]; [intros [= <-]; exact HP|]. intros E. apply bind_Ok in E as (s1 & E1 & E). eapply IH; [|eapply H; [left; reflexivity|exact HP|exact E1]|exact E].
  intros; eapply H; eauto. right. assumption.
Qed.
Lemma ch0_in : ch_ok ch0.
Proof. repeat split; vm_compute; discriminate || reflexivity. Qed.
Lemma ref_ranges kv mem nsel em had track mu out : Forall em_ok em -> Forall had_ok had -> Forall tk_ok track -> pfalgo3_full_ref_gen kv mem nsel em had track mu = Ok out -> out_ok out.
Proof.
  intros HE HH HT. unfold pfalgo3_full_ref_gen. intros H.
  apply bind_Ok in H as ((om & isMu) & E1 & H). apply bind_Ok in H as (((isEle & op) & calo) & E2 & H). apply bind_Ok in H as (((good & sums) & errs) & E3 & H).
  apply bind_Ok in H as (subpt & E4 & H). apply bind_Ok in H as (on & E5 & H). injection H as <-. unfold out_ok. cbn [o_ch o_pho o_ne o_mu].
  assert (IT : forall t id, In t track -> inU 3 id -> ch_ok (mkCh (t_pt t) (t_eta t) (t_phi t) id (t_z0 t))).
  { intros t id Ht Hid. destruct (proj1 (Forall_forall _ _) HT t Ht) as (P1 & P2 & P3 & P4 & P5). repeat split; cbn; solve [apply P1 | apply P3 | apply P4 | apply P5 | apply Hid]. }
  unfold pfalgo3_em_ref in E2. apply bind_Ok in E2 as ((tk2em & sumtk) & F1 & E2). apply bind_Ok in E2 as (emres & F2 & E2). apply bind_Ok in E2 as (ie & F3 & E2). injection E2 as <- <- <-.
  split; [|split; [|split]].
  - apply Forall_forall. intros x Hx. apply in_map_iff in Hx as ([[t [e m]] g] & <- & Hin). apply in_combine_l, in_combine_l in Hin. unfold had_ref_ch. destruct g; [|apply ch0_in].
    apply IT; [exact Hin|]. destruct e; [vm_compute; split; discriminate || reflexivity|]. destruct m; vm_compute; split; discriminate || reflexivity.
  - apply Forall_forall. intros x Hx. apply in_mapi in Hx as (i & [c [b p]] & Hi & ->). apply nth_error_In in Hi. pose proof (in_combine_l _ _ _ _ Hi) as Hc. apply in_combine_r in Hi.
    apply mapM_Ok_inv in F2. destruct (proj1 (Forall_forall _ _) HE c Hc) as (P1 & P2 & P3 & P4).
    assert (HP : inS 16 p).
    { assert (G : exists q, In q (combine em sumtk) /\ (let '(c, s) := q in em_ref_photon c s) = Ok (b, p)). { clear - F2 Hi. induction F2 as [|? ? ? ? H1 _ IH]; [destruct Hi|]. destruct Hi as [->|Hi]; [eexists; split; [left; reflexivity|exact H1]|]. destruct (IH Hi) as (q & A & B). exists q. split; [right; exact A|exact B]. }
      destruct G as ([c' s] & Hq & G). apply in_combine_l in Hq. destruct (proj1 (Forall_forall _ _) HE c' Hq) as (Q1 & _). unfold em_ref_photon in G.
      destruct (s >? 0); [|injection G as _ <-; exact Q1]. apply bind_Ok in G as (? & _ & G). apply bind_Ok in G as (? & _ & G). apply bind_Ok in G as (? & _ & G). apply bind_Ok in G as (? & _ & G).
      destruct (_ || _); [injection G as _ <-; unfold inS; lia|]. destruct (_ >? 0); injection G as _ <-; [apply wrapS_ok; lia|unfold inS; lia]. }
    unfold ne_ok. cbn [n_pt n_eta n_phi n_id]. split; [exact HP|]. destruct (negb (p =? 0)); (split; [assumption || (unfold inS; lia)|split; [assumption || (unfold inS; lia)|vm_compute; split; discriminate || reflexivity]]).
  - set (P := fun x : PFNe => ne_ok x).
    assert (HC : forall c, In c (mapi (em_ref_had kv em (map fst emres) (map (best_match_em_ref DR2MAX_EM_CALO had) em)) had) -> had_ok c).
    { intros c Hc. apply in_mapi in Hc as (i & h & Hh & ->). destruct (proj1 (Forall_forall _ _) HH h (nth_error_In _ _ Hh)) as (P1 & P2 & P3 & P4). unfold em_ref_had. cbv zeta. destruct (fold_left _ _ _) as [sub keep].
      assert (Z0 : inS 16 0) by (unfold inS; lia). assert (W : forall v, inS 16 (pt_t v)) by (intros; apply wrapS_ok; lia).
      destruct (_ <=? _); [|destruct (_ && _)]; unfold had_ok; cbn [h_pt h_empt h_eta h_phi]; repeat split; try assumption; try apply Z0; try apply W; try apply P1; try apply P2; try apply P3; try apply P4; destruct (_ >? 0); try apply Z0; apply W. }
    unfold ptsort_ref in E5. refine (foldM_inv (Forall P) _ _ _ _ _ _ E5).
    + intros s x s1 Hx Hs Es. unfold ptsort_ref_step in Es.
      assert (OX : P x).
      { apply in_mapi in Hx as (i & [c p] & Hi & ->). apply nth_error_In in Hi. pose proof (in_combine_l _ _ _ _ Hi) as Hc. apply in_combine_r in Hi. destruct (HC c Hc) as (P1 & P2 & P3 & P4).
        assert (HP : inS 16 p).
        { apply mapM_Ok_inv in E4. assert (G : exists q, In q (combine (mapi (em_ref_had kv em (map fst emres) (map (best_match_em_ref DR2MAX_EM_CALO had) em)) had) (combine sums errs)) /\ (let '(c, (s, e)) := q in had_ref_subpt c s e) = Ok p).
          { clear - E4 Hi. induction E4 as [|? ? ? ? H1 _ IH]; [destruct Hi|]. destruct Hi as [->|Hi]; [eexists; split; [left; reflexivity|exact H1]|]. destruct (IH Hi) as (q & A & B). exists q. split; [right; exact A|exact B]. }
          destruct G as ([c' [s' e']] & Hq & G). apply in_combine_l in Hq. destruct (HC c' Hq) as (Q1 & _). unfold had_ref_subpt in G. destruct (s' >? 0); [|injection G as <-; assumption].
          apply bind_Ok in G as (? & _ & G). injection G as <-. destruct (_ && _); [apply wrapS_ok; lia|unfold inS; lia]. }
        unfold P, had_ref_ne, ne_ok. destruct (p >? 0); cbn [n_pt n_eta n_phi n_id].
        - split; [exact HP|]. split; [assumption|]. split; [assumption|]. vm_compute. split; discriminate || reflexivity.
        - split; [unfold inS; lia|]. split; [unfold inS; lia|]. split; [unfold inS; lia|]. unfold inU; lia. }
      destruct (find _ _); [|injection Es as <-; exact Hs]. apply bind_Ok in Es as (o' & Ef & Es). eapply Forall_wr; [exact Es| |exact OX].
      refine (foldM_inv (Forall P) _ _ _ _ _ Hs Ef). intros a j a1 _ Ha Ea. apply bind_Ok in Ea as (v & Er & Ea). eapply Forall_wr; [exact Ea|exact Ha|eapply Forall_rd; eassumption].
    + apply Forall_forall. intros x Hx. rewrite map_map in Hx. apply in_map_iff in Hx as (j & <- & _). unfold P, ne_ok, ne_zero_pt. cbn [n_pt n_eta n_phi n_id]. unfold inS, inU. lia.
  - change (Forall ch_ok (fst (om, isMu))). refine (foldM_inv (fun st => Forall ch_ok (fst st)) _ _ _ _ _ _ E1); [|constructor].
    intros [o b] m s1 _ Ho Es. cbn [fst] in *. unfold mu_ref_step in Es. destruct (m_pt m >? 0); [destruct (mu_ref_best track m)|].
    + apply bind_Ok in Es as (t & Er & Es). apply bind_Ok in Es as (? & _ & Es). injection Es as <-. cbn [fst]. apply Forall_app. split; [exact Ho|]. constructor; [|constructor].
      apply IT; [|vm_compute; split; discriminate || reflexivity]. unfold rd in Er. destruct (nth_error track n) eqn:En; [|discriminate]. injection Er as ->. eapply nth_error_In; exact En.
    + injection Es as <-. cbn [fst]. apply Forall_app. split; [exact Ho|]. constructor; [apply ch0_in|constructor].
    + injection Es as <-. cbn [fst]. apply Forall_app. split; [exact Ho|]. constructor; [apply ch0_in|constructor].
Qed.

(** ** The verdict *)
Lemma same_in_range o q : same_out o q -> out_ok o -> out_ok q.
Proof. intros (E1 & E2 & E3 & E4) (O1 & O2 & O3 & O4). unfold out_ok. rewrite <- E1, <- E4. repeat split; try assumption; eapply same_ok; eassumption. Qed.
Lemma run_in_range b c mh mr r run : mem_typed mh -> region_ok c r -> run_ok b c mh mr r run -> out_ok (pr_ref run) /\ out_ok (pr_hw run).
Proof.
  intros HM (_ & HE & HH & HT & HU) (_ & HR & o & Ho & HS & _). split; [eapply ref_ranges; [exact HE|exact HH|exact HT|exact HR]|].
  eapply same_in_range; [exact HS|]. exact (pf_ranges _ _ _ _ _ _ _ HE HH HT HM Ho).
Qed.
Lemma slot_rows_nil {T} (equals : T -> T -> bool) what names (fields : T -> list Z) : (forall x y, equals x y = same_object (fields x) (fields y)) ->
  forall ref out k, length ref = length out -> slot_rows_from what names fields k ref out = [] <-> Forall2 (fun a b => equals a b = true) ref out.
Proof.
  intros HE. induction ref as [|x ref IH]; intros [|y out] k L; try discriminate L.
  - split; [constructor|reflexivity].
  - rewrite slot_rows_cons. unfold compare_rows. rewrite <- HE. split.
    + destruct (equals x y) eqn:E; [|discriminate]. cbn [app]. intros H. constructor; [exact E|]. apply (IH out (S k)); [injection L; auto|exact H].
    + intros H. inversion H; subst. rewrite H3. cbn [app]. apply IH; [injection L; auto|assumption].
Qed.
Lemma mismatches_agree c ref hw : sized c ref -> sized c hw -> test_mismatches ref hw = [] <-> agree ref hw.
Proof.
  intros (R1 & R2 & R3 & R4) (H1 & H2 & H3 & H4). unfold test_mismatches, agree.
  rewrite <- (slot_rows_nil pf_equals_ch "PF Charged" ch_names ch_fields ch_same _ _ 0) by congruence. rewrite <- (slot_rows_nil pf_equals_ne "Photon" ne_names ne_fields ne_same _ _ 0) by congruence.
  rewrite <- (slot_rows_nil pf_equals_ne "PF Neutral" ne_names ne_fields ne_same _ _ 0) by congruence. rewrite <- (slot_rows_nil pf_equals_ch "PF Muon" ch_names ch_fields ch_same _ _ 0) by congruence.
  change (@slot_rows ?T ?w ?n ?f ?a ?b) with (@slot_rows_from T w n f 0 a b). 
  split; [intros E; apply app_eq_nil in E as (? & E); apply app_eq_nil in E as (? & E); apply app_eq_nil in E as (? & E); auto|intros (-> & -> & -> & ->); reflexivity].
Qed.
Lemma label_says s rw rest rows : one_line s -> read_row (map tidy (chars s)) = rw -> says rest rows -> says (chars s ++ newline :: rest) ([rw] ++ rows).
Proof.
  intros H E HS. change (newline :: rest) with ([newline] ++ rest). rewrite app_assoc. apply says_app; [|exact HS]. apply says_line; [|exact E]. apply Forall_forall. intros c Hc ->. exact (H Hc).
Qed.
Ltac no_newline := let H := fresh in intros H; cbn in H; repeat (destruct H as [H|H]; [discriminate H|]); exact H.
Lemma validate_says b c test run : build_ok b c -> cfg_fits c -> Z.of_nat test < 2 ^ 31 -> region_ok c (pr_region run) -> sized c (pr_ref run) -> sized c (pr_hw run) -> out_ok (pr_ref run) -> out_ok (pr_hw run) ->
  exists text, pf_validate c (Z.of_nat test) run = Ok (text, match test_mismatches (pr_ref run) (pr_hw run) with [] => None | _ => Some 1 end) /\ says text (verdict_rows test run).
Proof.
  intros (HB & _) HC HT HR Sr Sh Or Oh. pose proof Sr as (R1 & R2 & R3 & R4). pose proof Sh as (H1 & H2 & H3 & H4). pose proof Or as (A1 & A2 & A3 & A4). pose proof Oh as (B1 & B2 & B3 & B4).
  unfold pf_validate. cbv zeta.
  assert (N1 := nonzero_range c_pt (o_ch (pr_ref run))). assert (N2 := nonzero_range n_pt (o_pho (pr_ref run))). assert (N3 := nonzero_range n_pt (o_ne (pr_ref run))). assert (N4 := nonzero_range c_pt (o_mu (pr_ref run))). rewrite R1 in N1. rewrite R2 in N2. rewrite R3 in N3. rewrite R4 in N4.
  destruct (check_says pf_equals_ch (ch_message "PF Charged") c_pt ch_fields ch_names "PF Charged" ch_ok ch_same ltac:(intros; apply ch_says; [no_newline|assumption..]) _ _ _ [] 0 0 R1 H1 A1 B1 ltac:(lia) ltac:(lia) ltac:(lia) ltac:(lia)) as (t1 & -> & S1 & L1). cbn [bind app]. rewrite !Z.add_0_l.
  set (r1 := slot_rows "PF Charged" _ _ _ _) in *.
  destruct (check_says pf_equals_ne (ne_message "Photon") n_pt ne_fields ne_names "Photon" ne_ok ne_same ltac:(intros; apply ne_says; [no_newline|assumption..]) _ _ _ t1 (Z.of_nat (length r1)) (nonzero c_pt (o_ch (pr_ref run))) R2 H2 A2 B2 ltac:(lia) ltac:(lia) ltac:(lia) ltac:(lia)) as (t2 & -> & S2 & L2). cbn [bind].
  set (r2 := slot_rows "Photon" _ _ _ _) in *.
  destruct (check_says pf_equals_ne (ne_message "PF Neutral") n_pt ne_fields ne_names "PF Neutral" ne_ok ne_same ltac:(intros; apply ne_says; [no_newline|assumption..]) _ _ _ (t1 ++ t2) (Z.of_nat (length r1) + Z.of_nat (length r2)) (nonzero c_pt (o_ch (pr_ref run)) + nonzero n_pt (o_pho (pr_ref run))) R3 H3 A3 B3 ltac:(lia) ltac:(lia) ltac:(lia) ltac:(lia)) as (t3 & -> & S3 & L3). cbn [bind].
  set (r3 := slot_rows "PF Neutral" _ _ _ _) in *.
  destruct (check_says pf_equals_ch (ch_message "PF Muon") c_pt ch_fields ch_names "PF Muon" ch_ok ch_same ltac:(intros; apply ch_says; [no_newline|assumption..]) _ _ _ ((t1 ++ t2) ++ t3) (Z.of_nat (length r1) + Z.of_nat (length r2) + Z.of_nat (length r3)) (nonzero c_pt (o_ch (pr_ref run)) + nonzero n_pt (o_pho (pr_ref run)) + nonzero n_pt (o_ne (pr_ref run))) R4 H4 A4 B4 ltac:(lia) ltac:(lia) ltac:(lia) ltac:(lia)) as (t4 & -> & S4 & L4). cbn [bind].
  set (r4 := slot_rows "PF Muon" _ _ _ _) in *.
  assert (EM : test_mismatches (pr_ref run) (pr_hw run) = r1 ++ r2 ++ r3 ++ r4) by reflexivity.
  assert (ST : says (((t1 ++ t2) ++ t3) ++ t4) (r1 ++ r2 ++ r3 ++ r4)) by (rewrite <- !app_assoc; repeat apply says_app; assumption).
  assert (LM : Z.of_nat (length r1) + Z.of_nat (length r2) + Z.of_nat (length r3) + Z.of_nat (length r4) = Z.of_nat (length (test_mismatches (pr_ref run) (pr_hw run)))) by (rewrite EM, !app_length; lia).
  rewrite LM. unfold verdict_rows. rewrite <- EM in ST. assert (LB : Z.of_nat (length (test_mismatches (pr_ref run) (pr_hw run))) < 2 ^ 31) by (rewrite <- LM; lia).
  clearbody r1 r2 r3 r4. clear EM LM S1 S2 S3 S4 L1 L2 L3 L4. set (T := ((t1 ++ t2) ++ t3) ++ t4) in *. clearbody T. cbv zeta.
  set (bad := test_mismatches (pr_ref run) (pr_hw run)) in *. clearbody bad. destruct (Z.eqb_spec (Z.of_nat (length bad)) 0) as [E|E]; cbn [negb].
  - destruct bad as [|x bad]; [|cbn in E; lia]. eexists. split; [reflexivity|]. apply says_app; [exact ST|].
    set (cch := nonzero c_pt (o_ch (pr_ref run))) in *. set (cp := nonzero n_pt (o_pho (pr_ref run))) in *. set (cn := nonzero n_pt (o_ne (pr_ref run))) in *. set (cm := nonzero c_pt (o_mu (pr_ref run))) in *. clearbody cch cp cn cm.
    destruct (l_passed (Z.of_nat test) (cch + cp + cn + cm) cch cp cn) as (A & B); try (unfold small; lia). unfold printf_nl. apply says_line; [exact A|exact B].
  - rewrite dump_inputs_text, !dump_outputs_text. cbn [bind]. destruct bad as [|x bad]; [cbn in E; lia|]. set (n := length (x :: bad)) in *. set (rows := x :: bad) in *. clearbody rows.
    eexists. split; [reflexivity|]. apply says_app; [exact ST|]. apply says_app.
    { destruct (l_error (Z.of_nat test) (Z.of_nat n)) as (A & B); try (unfold small; lia). unfold printf_nl. apply says_line; [exact A|exact B]. }
        apply label_says; [no_newline|reflexivity|]. apply says_app; [exact (inputs_says c _ HC HR)|].
    apply label_says; [no_newline|reflexivity|]. apply says_app; [exact (outputs_says c _ HC Sr Or)|].
    apply label_says; [no_newline|reflexivity|]. exact (outputs_says c _ HC Sh Oh).
Qed.
