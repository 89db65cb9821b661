(** The console of the regionizer test program. *)
From Coq Require Import Ascii String.
From Verif Require Import Base BaseFacts Data PFHw TestUtils SerText SerTextFacts Printf HumanRead SpecHR HRFacts HRProofs MapiFacts Discrete Convert DiscreteIO SpecIO EventLoop EventLoopFacts Encoding SpecEnc Serializer SpecSer
  Regionizer SpecRegion RegTest SpecRegTest RegTestRun RegFiles SpecRegFiles RegTestFinal RegPackProofs Console SpecConsole ConsoleFacts ConsoleProofs ConsoleMain RegConsole SpecRegConsole.
Local Open Scope string_scope.
Local Open Scope list_scope.
Local Open Scope Z_scope.

(** ** The functions without their text *)
Definition forget {A} (x : A + list ascii) : option A := match x with inl a => Some a | inr _ => None end.
Lemma foldM_forget {A S S'} (p : S -> S') (f : S' -> A -> res S') (g : S -> A -> res S) l : (forall s x, In x l -> f (p s) x = do r <- g s x; Ok (p r)) -> forall s, foldM f l (p s) = do r <- foldM g l s; Ok (p r).
Proof.
  induction l as [|x l IH]; intros H s; cbn [foldM]; [reflexivity|]. rewrite H by (left; reflexivity). destruct (g s x) as [s1|k]; cbn [bind]; [|reflexivity]. apply IH. intros; apply H; right; assumption.
Qed.
Lemma fill_stream_erase {T} n step offset name k (data stream : list T) : fill_stream n step offset data stream = do r <- fill_stream_say n step offset name k data stream; Ok (forget r).
Proof. unfold fill_stream, fill_stream_say. destruct stream; [|reflexivity]. destruct (mapM _ _); reflexivity. Qed.
Lemma fill_both_erase {A} n step offset k name nref data (c : chan A) : fill_both n step offset k data c = do r <- fill_both_say n step offset k name nref data c; Ok (forget r).
Proof.
  unfold fill_both, fill_both_say. destruct (rd (ch_fib c) k) as [s|]; cbn [bind]; [|reflexivity]. rewrite (fill_stream_erase _ _ _ name k). destruct (fill_stream_say _ _ _ name _ _ _) as [[f|t]|]; cbn [bind forget]; try reflexivity.
  destruct (wr _ _ _); cbn [bind]; [|reflexivity]. destruct (rd (ch_fibr c) k) as [s'|]; cbn [bind]; [|reflexivity]. rewrite (fill_stream_erase _ _ _ nref k). destruct (fill_stream_say _ _ _ nref _ _ _) as [[f'|t]|]; cbn [bind forget]; try reflexivity.
  destruct (wr _ _ _); reflexivity.
Qed.
Ltac next := match goal with
  | |- context [bind (fill_both ?n ?s ?o ?k ?d ?c) _] =>
      match goal with |- context [bind (fill_both_say n s o k ?name ?nref d c) _] => rewrite (fill_both_erase n s o k name nref d c); destruct (fill_both_say n s o k name nref d c) as [[?|?]|?] end
  | |- bind ?x _ = _ => destruct x
  end; cbn [bind forget]; try reflexivity.
Lemma tracks_erase {A} n is name nref (data : list (robj A)) ct :
  foldM (fun ct i => match ct with None => Ok None | Some ct => fill_both n 2 i (2 * is + i) data ct end) (seq 0 2) (Some ct) =
  do r <- foldM (fun ct i => match ct with inr t => Ok (inr t) | inl ct => fill_both_say n 2 i (2 * is + i) name nref data ct end) (seq 0 2) (inl ct); Ok (forget r).
Proof. apply (foldM_forget forget _ _ _) with (s := inl ct). intros [s|t] i _; [|reflexivity]. apply fill_both_erase. Qed.
Lemma sector_erase c ev st is : reg_sector c ev (forget st) is = do r <- reg_sector_say c ev st is; Ok (forget r).
Proof.
  destruct st as [st|t]; [|reflexivity]. unfold reg_sector, reg_sector_say. cbn [forget]. do 10 next.
  rewrite (tracks_erase _ _ "track stream " "track ref stream").
  match goal with |- bind (bind ?x _) _ = _ => destruct x as [[ct|t]|k] end; cbn [bind forget]; try reflexivity. next.
Qed.
Lemma sectors_erase c ev st : foldM (reg_sector c ev) (seq 0 N_IN_SECTORS) (Some st) = do r <- foldM (reg_sector_say c ev) (seq 0 N_IN_SECTORS) (inl st); Ok (forget r).
Proof. apply (foldM_forget forget _ _ _) with (s := inl st). intros s x _. apply sector_erase. Qed.
Lemma muons_erase c st : reg_muons c st = do r <- reg_muons_say c st; Ok (forget r).
Proof.
  unfold reg_muons, reg_muons_say. cbv zeta. next. match goal with |- foldM ?f ?l (Some ?s0) = bind (foldM ?g _ _) _ => refine (foldM_forget forget f g l _ (inl s0)) end.
  intros [s|t] i _; [|reflexivity]. cbn [forget]. do 2 next.
Qed.

(** the comparison; [i32] holds the slot numbers *)
Definition quiet (st : list ascii * Z) : Prop := 0 <= snd st /\ (snd st = 0 -> fst st = []).
Lemma i32_range x y : i32 x = Ok y -> y = x.
Proof. unfold i32. destruct (_ && _); congruence. Qed.
Section quiet.
Context {T : Type} (equals : T -> T -> bool) (message : Z -> T -> T -> list ascii).
Lemma mismatch_erase n ir ref out st : (ir < 18)%nat -> Z.of_nat n < 2 ^ 30 -> mismatch equals n ref out (snd st) = do r <- mismatch_say equals message n ir ref out st; Ok (snd r).
Proof.
  intros HI HN. unfold mismatch, mismatch_say. change false with (fst (false, fst st)) at 1.
  rewrite (foldM_forget fst _ (fun '(bad, t) i => if bad : bool then Ok (true, t) else do x <- rd ref i; do y <- rd out i; do k <- i32 (Z.of_nat ir * 100 + Z.of_nat i); Ok (negb (equals x y), t ++ message k x y))).
  - destruct (foldM _ _ _) as [[bad t]|k]; cbn [bind fst]; [|reflexivity]. destruct bad; [|reflexivity]. destruct (i32 _); reflexivity.
  - intros [bad t] i Hi. apply in_seq in Hi. cbn [fst]. destruct bad; [reflexivity|]. destruct (rd ref i); cbn [bind]; [|reflexivity]. destruct (rd out i); cbn [bind]; [|reflexivity]. rewrite i32_Ok by lia. reflexivity.
Qed.
Hypothesis HM : forall i x y, equals x y = true -> message i x y = [].
Lemma mismatch_quiet n ir ref out st st' : quiet st -> mismatch_say equals message n ir ref out st = Ok st' -> quiet st'.
Proof.
  intros (Q1 & Q2). unfold mismatch_say. intros H. apply bind_Ok in H as ((bad & t) & H1 & H).
  assert (P : bad = true \/ t = fst st).
  { revert H1. apply (foldM_inv (fun s : bool * list ascii => fst s = true \/ snd s = fst st) _ (seq 0 n)) with (s := (false, fst st)) (s' := (bad, t)); [|right; reflexivity].
    intros [b u] i [b1 u1] _ [P|P]; cbn [fst snd] in *; [subst; intros [= <- <-]; auto|]. destruct b; [intros [= <- <-]; auto|]. intros E. apply bind_Ok in E as (x & _ & E). apply bind_Ok in E as (y & _ & E). apply bind_Ok in E as (k & _ & E).
    injection E as <- <-. destruct (equals x y) eqn:EQ; [right|left; reflexivity]. rewrite HM by exact EQ. rewrite app_nil_r. exact P. }
  destruct bad.
  - apply bind_Ok in H as (e & E & H). injection H as <-. apply i32_range in E. unfold quiet. cbn [fst snd]. lia.
  - injection H as <-. destruct P as [P| ->]; [discriminate|]. split; assumption.
Qed.
End quiet.
Lemma had_quiet what i x y : had_equals x y = true -> had_message what i x y = []. Proof. unfold had_message. intros ->. reflexivity. Qed.
Lemma em_quiet what i x y : em_equals x y = true -> em_message what i x y = []. Proof. unfold em_message. intros ->. reflexivity. Qed.
Lemma track_quiet what i x y : track_equals x y = true -> track_message what i x y = []. Proof. unfold track_message. intros ->. reflexivity. Qed.
Lemma mu_quiet what i x y : mu_equals x y = true -> mu_message what i x y = []. Proof. unfold mu_message. intros ->. reflexivity. Qed.
Lemma compare_erase c st : cfg_small c -> reg_compare c st = do r <- reg_compare_say c st; Ok (snd r).
Proof.
  unfold cfg_small. rewrite !Forall_cons_iff. intros (F1 & F2 & F3 & F4 & _). unfold reg_compare, reg_compare_say. match goal with |- foldM ?f ?l 0 = bind (foldM ?g _ ?s0) _ => refine (foldM_forget (@snd (list ascii) Z) f g l _ s0) end. intros e ir Hi. apply in_seq in Hi. change N_OUT_REGIONS with 18%nat in Hi.
  do 2 next. rewrite (mismatch_erase _ (had_message "regionized hadcalo") _ ir _ _ e) by (assumption || lia). match goal with |- context [mismatch_say ?a ?b ?c ?d ?e ?f ?g] => destruct (mismatch_say a b c d e f g) as [e1|k]; cbn [bind]; [|reflexivity] end.
  do 2 next. rewrite (mismatch_erase _ (em_message "regionized emcalo") _ ir _ _ e1) by (assumption || lia). match goal with |- context [mismatch_say ?a ?b ?c ?d ?e ?f ?g] => destruct (mismatch_say a b c d e f g) as [e2|k]; cbn [bind]; [|reflexivity] end.
  do 2 next. rewrite (mismatch_erase _ (track_message "regionized track") _ ir _ _ e2) by (assumption || lia). match goal with |- context [mismatch_say ?a ?b ?c ?d ?e ?f ?g] => destruct (mismatch_say a b c d e f g) as [e3|k]; cbn [bind]; [|reflexivity] end.
  do 2 next. apply mismatch_erase; [lia|assumption].
Qed.
Lemma compare_quiet c st t e : reg_compare_say c st = Ok (t, e) -> e = 0 -> t = [].
Proof.
  intros H. assert (Q : quiet (t, e)); [|exact (proj2 Q)]. unfold reg_compare_say in H. revert H.
  match goal with |- foldM ?f ?l ?s0 = _ -> _ => apply (foldM_inv quiet f l) end; [|split; [apply Z.le_refl|reflexivity]].
  clear. intros s ir s' _ Q E. apply bind_Ok in E as (a & _ & E). apply bind_Ok in E as (b & _ & E). apply bind_Ok in E as (e1 & E1 & E). apply bind_Ok in E as (a2 & _ & E). apply bind_Ok in E as (b2 & _ & E). apply bind_Ok in E as (e2 & E2 & E).
  apply bind_Ok in E as (a3 & _ & E). apply bind_Ok in E as (b3 & _ & E). apply bind_Ok in E as (e3 & E3 & E). apply bind_Ok in E as (a4 & _ & E). apply bind_Ok in E as (b4 & _ & E4).
  eapply mismatch_quiet in E1; [|intros; apply had_quiet; assumption|exact Q]. eapply mismatch_quiet in E2; [|intros; apply em_quiet; assumption|exact E1].
  eapply mismatch_quiet in E3; [|intros; apply track_quiet; assumption|exact E2]. eapply mismatch_quiet in E4; [|intros; apply mu_quiet; assumption|exact E3]. exact E4.
Qed.

(** ** One test *)
Notation passed_line test := (printf_nl "Passed test %d" [Z.of_nat test]).
Lemma body_erase c junk work test st ev text : cfg_small c -> length (ev_regions ev) = 12%nat ->
  match reg_body c junk work test st ev with
  | UB k => reg_body_say c junk work test (st, text) ev = UB k
  | Ok (st1, None) => reg_body_say c junk work test (st, text) ev = Ok (st1, text ++ passed_line test, None)
  | Ok (_, Some _) => True
  end.
Proof.
  intros HC H12. unfold reg_body, reg_body_say. rewrite H12. cbn [Nat.eqb N_IN_SECTORS negb]. change 12%nat with N_IN_SECTORS. rewrite sectors_erase.
  destruct (foldM _ _ _) as [[st1|t]|k]; cbn [bind forget]; [|exact I|reflexivity]. rewrite muons_erase. destruct (reg_muons_say c st1) as [[st2|t]|k]; cbn [bind forget]; [|exact I|reflexivity].
  destruct (reg_run _ _ _ _) as [st3|k]; cbn [bind]; [|reflexivity]. rewrite compare_erase by exact HC. unfold reg_validate. destruct (reg_compare_say c st3) as [[t e]|k] eqn:E; cbn [bind snd]; [|reflexivity].
  destruct (Z.eqb_spec e 0) as [Z0|Z0]; cbn [negb]; [|exact I]. rewrite (compare_quiet _ _ _ _ E Z0). rewrite (app_nil_l (printf_nl _ _)). reflexivity.
Qed.
Lemma passed_says test : Z.of_nat test < 2 ^ 31 -> says (passed_line test) [passed_row test].
Proof.
  intros H. assert (Ha : small (Z.of_nat test)) by (unfold small; lia). set (a := Z.of_nat test) in *. unfold printf_nl. apply says_line; [line_nonl|console_row].
Qed.

(** ** The comparison with any regions *)
Section first.
Context {T : Type} (equals : T -> T -> bool) (message : Z -> T -> T -> list ascii) (fields : T -> list Z) (names : list string) (what : string) (ok : T -> Prop).
Hypothesis HE : forall x y, equals x y = same_object (fields x) (fields y).
Hypothesis HM : forall i x y, small i -> ok x -> ok y -> says (message i x y) (compare_rows what names i (fields x) (fields y)).
Hypothesis HQ : forall i x y, equals x y = true -> message i x y = [].
Variables (ref out : list T) (ir : nat).
Definition first_step : bool * list ascii -> nat -> res (bool * list ascii) := fun '(bad, t) i =>
  if bad : bool then Ok (true, t) else do x <- rd ref i; do y <- rd out i; do k <- i32 (Z.of_nat ir * 100 + Z.of_nat i); Ok (negb (equals x y), t ++ message k x y).
Lemma first_stop l : forall t, foldM first_step l (true, t) = Ok (true, t).
Proof. induction l as [|i l IH]; intros t; cbn [foldM]; [reflexivity|]. cbn [first_step bind]. apply IH. Qed.
Lemma first_from n : forall k t, length ref = (k + n)%nat -> length out = (k + n)%nat -> Forall ok ref -> Forall ok out -> Z.of_nat (k + n) < 2 ^ 30 -> (ir < 18)%nat ->
  let rows := firstn 1 (slot_rows_from what names fields (100 * ir + k) (skipn k ref) (skipn k out)) in
  exists text, foldM first_step (seq k n) (false, t) = Ok (match rows with [] => false | _ => true end, t ++ text) /\ says text rows.
Proof.
  induction n as [|n IH]; intros k t L1 L2 O1 O2 B HI; cbv zeta.
  - rewrite !skipn_all2 by lia. exists []. rewrite app_nil_r. split; [reflexivity|apply says_nil].
  - destruct (nth_error_lt ref k ltac:(lia)) as (x & Ex). destruct (nth_error_lt out k ltac:(lia)) as (y & Ey).
    rewrite (skipn_nth _ _ _ Ex), (skipn_nth _ _ _ Ey), slot_rows_cons. cbn [seq foldM]. unfold first_step at 1. unfold rd at 1 2. rewrite Ex, Ey. cbn [bind]. rewrite i32_Ok by lia. cbn [bind].
    replace (Z.of_nat ir * 100 + Z.of_nat k) with (Z.of_nat (100 * ir + k)) by lia.
    pose proof (HM (Z.of_nat (100 * ir + k)) x y ltac:(unfold small; lia) (proj1 (Forall_forall _ _) O1 x (nth_error_In _ _ Ex)) (proj1 (Forall_forall _ _) O2 y (nth_error_In _ _ Ey))) as M.
    unfold compare_rows in *. destruct (equals x y) eqn:EQ; pose proof EQ as EQ'; rewrite HE in EQ'; rewrite EQ' in *; cbn [negb].
    + rewrite HQ, app_nil_r by exact EQ. cbn [app]. rewrite <- Nat.add_succ_r. apply IH; (assumption || lia).
    + rewrite first_stop. cbn [app firstn]. eexists. split; [reflexivity|exact M].
Qed.
Lemma mismatch_first n st : length ref = n -> length out = n -> Forall ok ref -> Forall ok out -> Z.of_nat n < 2 ^ 30 -> (ir < 18)%nat -> 0 <= snd st < 1000 ->
  let rows := first_row what names fields ir ref out in
  exists text, mismatch_say equals message n ir ref out st = Ok (fst st ++ text, snd st + Z.of_nat (length rows)) /\ says text rows /\ (length rows <= 1)%nat.
Proof.
  intros L1 L2 O1 O2 B HI HS. cbv zeta. destruct (first_from n 0 (fst st) L1 L2 O1 O2 B HI) as (text & F & S). exists text. unfold mismatch_say.
  match goal with |- context [foldM ?f (seq 0 n) (false, fst st)] => change f with first_step end.
  assert (ES : firstn 1 (slot_rows_from what names fields (100 * ir + 0) (skipn 0 ref) (skipn 0 out)) = first_row what names fields ir ref out) by (rewrite Nat.add_0_r; reflexivity). rewrite ES in F, S.
  assert (L : (length (first_row what names fields ir ref out) <= 1)%nat) by (unfold first_row; apply firstn_le_length).
  destruct (first_row what names fields ir ref out) as [|r [|r' rows]] eqn:ER; cbn [length] in L; [| |lia].
  - rewrite F. cbn [bind length]. rewrite Z.add_0_r. auto.
  - rewrite F. cbn [bind length]. rewrite i32_Ok by lia. auto.
Qed.
End first.

Lemma rd_row {T} n m (l : list (list T)) i : dims2 n m l -> (i < n)%nat -> rd l i = Ok (nth i l []) /\ length (nth i l []) = m.
Proof.
  intros (L & F) H. destruct (nth_error_lt l i ltac:(lia)) as (x & E). unfold rd. rewrite E, (nth_error_nth _ _ _ E). split; [reflexivity|]. apply F. eapply nth_error_In. exact E.
Qed.
Lemma rd_mapped {S T} (f : S -> T) n m (l : list (list S)) i : dims2 n m (map (map f) l) -> (i < n)%nat -> rd l i = Ok (nth i l []) /\ map f (nth i l []) = nth i (map (map f) l) [] /\ length (nth i (map (map f) l) []) = m.
Proof.
  intros D H. destruct (rd_row n m _ i D H) as (_ & L). split; [|split; [symmetry; apply nth_map_map|exact L]]. destruct D as (L' & _). rewrite map_length in L'. unfold rd. destruct (nth_error_lt l i ltac:(lia)) as (x & E). rewrite E, (nth_error_nth _ _ _ E). reflexivity.
Qed.
Lemma row_ok {T} (ok : T -> Prop) (l : list (list T)) i : Forall (Forall ok) l -> Forall ok (nth i l []).
Proof. intros F. destruct (nth_in_or_default i l []) as [H|H]; [exact (proj1 (Forall_forall _ _) F _ H)|rewrite H; constructor]. Qed.
Lemma two {A} (a a' : A) (b b' : Z) : a = a' -> b = b' -> Ok (a, b) = Ok (a', b').
Proof. intros -> ->. reflexivity. Qed.
Section any.
Context (c : config) (st : rstate).
Notation ref := (reference_regions st).
Notation out := (tested_regions st).
Hypothesis (HC : cfg_small c) (HR : regions4_ok c ref) (HO : regions4_ok c out).
Lemma compare_region ir s : (ir < 18)%nat -> 0 <= snd s < 900 -> exists text,
  (do a <- rd (ch_regr (rs_calo st)) ir; do b <- rd (ch_reg (rs_calo st)) ir; do e <- mismatch_say had_equals (had_message "regionized hadcalo") (NCALO c) ir (map had_of_r a) (map had_of_r b) s;
    do a <- rd (ch_regr (rs_em st)) ir; do b <- rd (ch_reg (rs_em st)) ir; do e <- mismatch_say em_equals (em_message "regionized emcalo") (NEMCALO c) ir (map em_of_r a) (map em_of_r b) e;
    do a <- rd (ch_regr (rs_tk st)) ir; do b <- rd (ch_reg (rs_tk st)) ir; do e <- mismatch_say track_equals (track_message "regionized track") (NTRACK c) ir (map tk_of_r a) (map tk_of_r b) e;
    do a <- rd (ch_regr (rs_mu st)) ir; do b <- rd (ch_reg (rs_mu st)) ir; mismatch_say mu_equals (mu_message "regionized muon") (NMU c) ir (map mu_of_r a) (map mu_of_r b) e) =
  Ok (fst s ++ text, snd s + Z.of_nat (length (region_mismatches ref out ir))) /\ says text (region_mismatches ref out ir) /\ (length (region_mismatches ref out ir) <= 4)%nat.
Proof.
  intros HI HS. pose proof HC as HC'. unfold cfg_small in HC'. rewrite !Forall_cons_iff in HC'. destruct HC' as (F1 & F2 & F3 & F4 & _). destruct HR as (R1 & R2 & R3 & R4 & Q1 & Q2 & Q3 & Q4). destruct HO as (O1 & O2 & O3 & O4 & P1 & P2 & P3 & P4). unfold region_mismatches. unfold reference_regions, tested_regions in *. cbn [rp_calo rp_em rp_tk rp_mu] in *.
  assert (OL : forall w, In w ["regionized hadcalo"; "regionized emcalo"; "regionized track"; "regionized muon"] -> one_line w).
  { intros w Hw. unfold one_line. cbn in Hw. repeat destruct Hw as [<-|Hw]; try contradiction; cbn; intuition discriminate. }
  destruct (rd_mapped had_of_r _ _ _ ir R1 HI) as (-> & E1 & LR1). destruct (rd_mapped had_of_r _ _ _ ir O1 HI) as (-> & E1' & LO1). cbn [bind]. rewrite E1, E1'.
  destruct (mismatch_first had_equals (had_message "regionized hadcalo") had_fields had_names "regionized hadcalo" had_ok had_same (fun i x y Hi Hx Hy => had_says _ i (OL "regionized hadcalo" ltac:(cbn; auto)) Hi x y Hx Hy) (had_quiet _)
    _ _ ir (NCALO c) s LR1 LO1 (row_ok _ _ ir Q1) (row_ok _ _ ir P1) F1 HI ltac:(lia)) as (t1 & M1 & S1 & L1). cbn [rp_calo] in *. rewrite M1. clear M1. cbn [bind].
  destruct (rd_mapped em_of_r _ _ _ ir R2 HI) as (-> & E2 & LR2). destruct (rd_mapped em_of_r _ _ _ ir O2 HI) as (-> & E2' & LO2). cbn [bind]. rewrite E2, E2'.
  match goal with |- context [mismatch_say em_equals _ _ _ _ _ ?s1] => destruct (mismatch_first em_equals (em_message "regionized emcalo") em_fields em_names "regionized emcalo" em_ok em_same (fun i x y Hi Hx Hy => em_says _ i (OL "regionized emcalo" ltac:(cbn; auto)) Hi x y Hx Hy) (em_quiet _)
    _ _ ir (NEMCALO c) s1 LR2 LO2 (row_ok _ _ ir Q2) (row_ok _ _ ir P2) F2 HI ltac:(cbn [snd]; lia)) as (t2 & M2 & S2 & L2) end. cbn [rp_em] in *. rewrite M2. clear M2. cbn [bind].
  destruct (rd_mapped tk_of_r _ _ _ ir R3 HI) as (-> & E3 & LR3). destruct (rd_mapped tk_of_r _ _ _ ir O3 HI) as (-> & E3' & LO3). cbn [bind]. rewrite E3, E3'.
  match goal with |- context [mismatch_say track_equals _ _ _ _ _ ?s1] => destruct (mismatch_first track_equals (track_message "regionized track") tk_fields tk_names "regionized track" tk_ok track_same (fun i x y Hi Hx Hy => track_says _ i (OL "regionized track" ltac:(cbn; auto)) Hi x y Hx Hy) (track_quiet _)
    _ _ ir (NTRACK c) s1 LR3 LO3 (row_ok _ _ ir Q3) (row_ok _ _ ir P3) F3 HI ltac:(cbn [snd]; lia)) as (t3 & M3 & S3 & L3) end. cbn [rp_tk] in *. rewrite M3. clear M3. cbn [bind].
  destruct (rd_mapped mu_of_r _ _ _ ir R4 HI) as (-> & E4 & LR4). destruct (rd_mapped mu_of_r _ _ _ ir O4 HI) as (-> & E4' & LO4). cbn [bind]. rewrite E4, E4'.
  match goal with |- context [mismatch_say mu_equals _ _ _ _ _ ?s1] => destruct (mismatch_first mu_equals (mu_message "regionized muon") mu_fields em_names "regionized muon" mu_ok mu_same (fun i x y Hi Hx Hy => mu_says _ i (OL "regionized muon" ltac:(cbn; auto)) Hi x y Hx Hy) (mu_quiet _)
    _ _ ir (NMU c) s1 LR4 LO4 (row_ok _ _ ir Q4) (row_ok _ _ ir P4) F4 HI ltac:(cbn [snd]; lia)) as (t4 & M4 & S4 & L4) end. cbn [rp_mu] in *. rewrite M4. clear M4.
  exists (t1 ++ t2 ++ t3 ++ t4). cbn [fst snd]. split; [|split; [repeat (apply says_app; [assumption|]); assumption|rewrite !app_length; lia]].
  apply two; [rewrite <- !app_assoc; reflexivity|rewrite !app_length; lia].
Qed.
Lemma compare_says : exists text, reg_compare_say c st = Ok (text, Z.of_nat (length (all_mismatches ref out))) /\ says text (all_mismatches ref out) /\ (length (all_mismatches ref out) <= 72)%nat.
Proof.
  unfold reg_compare_say, all_mismatches. change N_OUT_REGIONS with 18%nat.
  assert (G : forall n k s, (k + n <= 18)%nat -> 0 <= snd s -> snd s + 4 * Z.of_nat n < 900 -> exists text,
    foldM (fun e ir =>
    do a <- rd (ch_regr (rs_calo st)) ir; do b <- rd (ch_reg (rs_calo st)) ir; do e <- mismatch_say had_equals (had_message "regionized hadcalo") (NCALO c) ir (map had_of_r a) (map had_of_r b) e;
    do a <- rd (ch_regr (rs_em st)) ir; do b <- rd (ch_reg (rs_em st)) ir; do e <- mismatch_say em_equals (em_message "regionized emcalo") (NEMCALO c) ir (map em_of_r a) (map em_of_r b) e;
    do a <- rd (ch_regr (rs_tk st)) ir; do b <- rd (ch_reg (rs_tk st)) ir; do e <- mismatch_say track_equals (track_message "regionized track") (NTRACK c) ir (map tk_of_r a) (map tk_of_r b) e;
    do a <- rd (ch_regr (rs_mu st)) ir; do b <- rd (ch_reg (rs_mu st)) ir; mismatch_say mu_equals (mu_message "regionized muon") (NMU c) ir (map mu_of_r a) (map mu_of_r b) e)
    (seq k n) s = Ok (fst s ++ text, snd s + Z.of_nat (length (flat_map (region_mismatches ref out) (seq k n)))) /\ says text (flat_map (region_mismatches ref out) (seq k n)) /\ (length (flat_map (region_mismatches ref out) (seq k n)) <= 4 * n)%nat).
  { induction n as [|n IH]; intros k s Hk H0 HS; cbn [seq foldM flat_map length].
    - exists []. rewrite app_nil_r, Z.add_0_r. destruct s. split; [reflexivity|]. split; [apply says_nil|lia].
    - destruct (compare_region k s ltac:(lia) ltac:(lia)) as (t1 & -> & S1 & L1). cbn [bind].
      destruct (IH (S k) (fst s ++ t1, snd s + Z.of_nat (length (region_mismatches ref out k))) ltac:(lia) ltac:(cbn [snd]; lia) ltac:(cbn [snd]; lia)) as (t2 & E2 & S2 & L2). rewrite E2. clear E2. cbn [fst snd].
      exists (t1 ++ t2). split; [apply two; [rewrite <- app_assoc; reflexivity|rewrite app_length; lia]|]. split; [apply says_app; assumption|rewrite app_length; lia]. }
  destruct (G 18%nat 0%nat ([], 0) ltac:(lia) ltac:(cbn [snd]; lia) ltac:(cbn [snd]; lia)) as (t & E & S & L). exists t. rewrite E. auto.
Qed.
(** the dump after a failure *)
Lemma count_is l : Z.of_nat (length l) < 2 ^ 32 -> count_nonzero l = nonzero h_pt l.
Proof.
  intros H. unfold count_nonzero. assert (G : forall l n, 0 <= n -> n + Z.of_nat (length l) < 2 ^ 32 -> fold_left (fun n o => wrapU 32 (n + b2z (h_pt o >? 0))) l n = n + nonzero h_pt l).
  { clear. induction l as [|o l IH]; intros n H0 H; cbn [fold_left]; [unfold nonzero; cbn; lia|]. rewrite nonzero_cons, Z.gtb_ltb. cbn [length] in H.
    destruct (0 <? h_pt o); cbn [b2z]; rewrite wrapU_id by (unfold inU; lia); rewrite IH by lia; lia. }
  rewrite G by lia. lia.
Qed.
Lemma dump_calo_says l : Forall had_ok l -> Z.of_nat (length l) < 2 ^ 30 -> exists text, dump_calo l = Ok text /\ says text (mapi had_row l).
Proof.
  intros F L. unfold dump_calo, on_console, hr_dump_hadcalo, hr_new. rewrite put_lines. cbn [bind hs_text app]. eexists. split; [reflexivity|]. rewrite Forall_forall in F. apply says_mapi. intros i o Ho.
  assert (L2 : Z.of_nat (length l) < 2 ^ 32) by lia. pose proof (small_idx _ _ _ L2 Ho) as Hi. destruct (F o (nth_error_In _ _ Ho)) as (R1 & R2 & R3 & R4).
  dump_line (p_had (Z.of_nat i) (h_pt o) (h_empt o) (h_eta o) (h_phi o) (b2z (h_isem o))). rewrite B. unfold had_row. destruct (h_isem o); reflexivity.
Qed.
Section dump_lines.
Variables (a b d e : Z).
Hypothesis (Ha : small a) (Hb : small b) (Hd : small d) (He : small e).
Lemma l_sector : says (printf_nl "INPUT SECTOR %d (FOUND %u): " [a; b]) [(["INPUT"; "SECTOR"; "FOUND"; ":"], [a; b])].
Proof. unfold printf_nl. apply says_line; [line_nonl|console_row]. Qed.
Lemma l_region : says (printf_nl "OUTPUT REGION %d (ETA %d PHI %d) (REF; FOUND %u): " [a; b; d; e]) [(["OUTPUT"; "REGION"; "ETA"; "PHI"; "REF;"; "FOUND"; ":"], [a; b; d; e])].
Proof. unfold printf_nl. apply says_line; [line_nonl|console_row]. Qed.
Lemma l_region_test : says (printf_nl "OUTPUT REGION %d (TEST): " [a]) [(["OUTPUT"; "REGION"; "TEST"; ":"], [a])].
Proof. unfold printf_nl. apply says_line; [line_nonl|console_row]. Qed.
Lemma l_failed : says (printf_nl "Error in computing test %d (%d)" [a; b]) [(["Error"; "in"; "computing"; "test"], [a; b])].
Proof. destruct (l_error a b Ha Hb) as (A & B). unfold printf_nl. apply says_line; assumption. Qed.
End dump_lines.
Lemma says_cons t r t' r' : says t [r] -> says t' r' -> says (t ++ t') (r :: r').
Proof. intros H H'. exact (says_app _ [r] _ _ H H'). Qed.
Lemma mapM_says {A} (f : A -> res (list ascii)) (rows : A -> list row) l : (forall x, In x l -> exists t, f x = Ok t /\ says t (rows x)) -> exists ts, mapM f l = Ok ts /\ says (List.concat ts) (flat_map rows l).
Proof.
  induction l as [|x l IH]; intros H; [exists []; split; [reflexivity|apply says_nil]|]. destruct (H x (or_introl eq_refl)) as (t & E & S). destruct IH as (ts & E' & S'); [intros; apply H; right; assumption|].
  exists (t :: ts). cbn [mapM]. rewrite E, E'. split; [reflexivity|]. cbn [List.concat flat_map]. apply says_app; assumption.
Qed.
Lemma mapi_nth {A B} (f : nat -> A -> list B) d l : List.concat (mapi f l) = flat_map (fun i => f i (nth i l d)) (seq 0 (length l)).
Proof.
  assert (G : forall l k (g : nat -> A -> list B), (forall i x, g i x = f (k + i)%nat x) -> List.concat (mapi g l) = flat_map (fun i => f i (nth (i - k) l d)) (seq k (length l))).
  { clear. induction l as [|x l IH]; intros k g H; [reflexivity|]. rewrite mapi_cons. cbn [List.concat length seq flat_map]. rewrite H, Nat.add_0_r, Nat.sub_diag. f_equal.
    rewrite (IH (S k)) by (intros i y; rewrite H; f_equal; lia). rewrite !flat_map_concat_map. f_equal. apply map_ext_in. intros i Hi. apply in_seq in Hi. replace (i - k)%nat with (S (i - S k)) by lia. reflexivity. }
  rewrite (G l 0%nat f) by reflexivity. rewrite !flat_map_concat_map. f_equal. apply map_ext. intros i. rewrite Nat.sub_0_r. reflexivity.
Qed.
Hypothesis (HI : dims2 12 15 (ri_calo (rs_ins st))) (HT : Forall (Forall had_ok) (ri_calo (rs_ins st))).
Lemma small_nat n : Z.of_nat n < 2 ^ 31 -> small (Z.of_nat n).
Proof. unfold small. lia. Qed.
Lemma small_nonzero (l : list HadCalo) : Z.of_nat (length l) < 2 ^ 30 -> small (nonzero h_pt l).
Proof. pose proof (nonzero_range h_pt l). unfold small. lia. Qed.
Lemma dump_says : exists text, reg_dump st = Ok text /\ says text (failure_rows (ri_calo (rs_ins st)) ref out).
Proof.
  unfold reg_dump, failure_rows. rewrite (mapi_nth _ []). destruct HI as (L12 & L15). rewrite L12. change N_IN_SECTORS with 12%nat. change N_OUT_REGIONS with 18%nat.
  pose proof HC as HC'. unfold cfg_small in HC'. rewrite !Forall_cons_iff in HC'. destruct HC' as (F1 & _). destruct HR as (R1 & _ & _ & _ & Q1 & _). destruct HO as (O1 & _ & _ & _ & P1 & _). unfold reference_regions, tested_regions in *. cbn [rp_calo] in *.
  match goal with |- context [bind (mapM ?f (seq 0 12)) _] => destruct (mapM_says f (fun is => (["INPUT"; "SECTOR"; "FOUND"; ":"], [Z.of_nat is; nonzero h_pt (nth is (ri_calo (rs_ins st)) [])]) :: mapi had_row (nth is (ri_calo (rs_ins st)) [])) (seq 0 12)) as (t1 & E1 & S1) end.
  { intros is Hs. apply in_seq in Hs. destruct (rd_row 12 15 _ is HI ltac:(lia)) as (-> & L). cbn [bind]. destruct (dump_calo_says (nth is (ri_calo (rs_ins st)) []) (row_ok _ _ _ HT) ltac:(lia)) as (d & -> & SD). cbn [bind]. eexists. split; [reflexivity|].
    rewrite count_is by lia. apply says_cons; [apply l_sector; [apply small_nat; lia|apply small_nonzero; lia]|exact SD]. }
  rewrite E1. cbn [bind].
  match goal with |- context [bind (mapM ?f (seq 0 18)) _] => match goal with |- context [flat_map ?g (seq 0 18)] => destruct (mapM_says f g (seq 0 18)) as (t2 & E2 & S2) end end.
  { intros ir Hs. apply in_seq in Hs. destruct (rd_mapped had_of_r _ _ _ ir R1 ltac:(lia)) as (-> & E2 & LR). destruct (rd_mapped had_of_r _ _ _ ir O1 ltac:(lia)) as (-> & E2' & LO). cbn [bind]. cbv zeta. rewrite E2, E2'.
    destruct (dump_calo_says _ (row_ok _ _ ir Q1) ltac:(lia)) as (d1 & -> & S2). destruct (dump_calo_says _ (row_ok _ _ ir P1) ltac:(lia)) as (d2 & -> & S3). cbn [bind]. eexists. split; [reflexivity|].
    rewrite count_is by lia. change N_OUT_REGIONS_PHI with 6%nat.
    apply says_cons; [apply l_region; [apply small_nat; lia|apply small_nat; assert (ir / 6 <= ir)%nat by (apply Nat.div_le_upper_bound; lia); lia|apply small_nat; pose proof (Nat.mod_upper_bound ir 6 ltac:(lia)); lia|apply small_nonzero; lia]|].
    apply says_app; [exact S2|]. apply says_cons; [apply l_region_test; apply small_nat; lia|exact S3]. }
  rewrite E2. cbn [bind]. eexists. split; [reflexivity|]. apply says_app; assumption.
Qed.
Lemma validate_step test t (errors : nat) d : reg_compare_say c st = Ok (t, Z.of_nat errors) -> reg_dump st = Ok d ->
  reg_validate c test st = Ok (match errors with O => t ++ passed_line test | _ => t ++ printf_nl "Error in computing test %d (%d)" [Z.of_nat test; Z.of_nat errors] ++ d end, match errors with O => None | _ => Some 1 end).
Proof. intros E ED. unfold reg_validate. rewrite E, ED. destruct errors; reflexivity. Qed.
Lemma validate_says test : Z.of_nat test < 2 ^ 31 -> exists text,
  reg_validate c test st = Ok (text, match all_mismatches ref out with [] => None | _ => Some 1 end) /\ says text (judgement_rows test (ri_calo (rs_ins st)) ref out).
Proof.
  intros Ht. destruct compare_says as (t & E & S & L). destruct dump_says as (d & ED & SD).
  rewrite (validate_step test _ _ _ E ED). unfold judgement_rows. revert S L. destruct (all_mismatches ref out) as [|r l]; intros S L.
  - exists (t ++ passed_line test). split; [reflexivity|]. apply says_app; [exact S|]. exact (passed_says test Ht).
  - exists (t ++ printf_nl "Error in computing test %d (%d)" [Z.of_nat test; Z.of_nat (length (r :: l))] ++ d). split; [reflexivity|].
    apply says_app; [exact S|]. apply says_cons; [|exact SD]. apply l_failed; apply small_nat; [exact Ht|]. cbn [length] in L |- *. lia.
Qed.
End any.
