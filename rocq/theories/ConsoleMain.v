(** The console of the particle-flow test program: the whole run. *)
From Coq Require Import Ascii String.
From Verif Require Import Base BaseFacts Data PFHw PFRef PFTotal Encoding SpecEnc EncFacts EncProofs TestUtils SerText SerTextFacts Printf HumanRead SpecHR HRFacts HRProofs MapiFacts
  Discrete Convert DiscreteIO SpecIO IOFacts IOProofs Serializer SpecSer SerFacts SerProofs SerFinal SpecOut RegionLoop PFTest SpecTest PFTestProofs PFFileProofs Console SpecConsole ConsoleFacts ConsoleIO ConsoleProofs.
Local Open Scope string_scope.
Local Open Scope list_scope.
Local Open Scope Z_scope.

(** ** The lines of the reader *)
Definition news_ok (x : news) : Prop :=
  match x with
  | Begin e => inU 32 (ev_run e) /\ inU 32 (ev_lumi e) /\ inU 64 (ev_event e)
  | Found _ i r => Forall (fun n => Z.of_nat n < 2 ^ 32) [i; length (rg_track r); length (rg_emcalo r); length (rg_calo r); length (rg_muon r)]
  end.
Lemma l_begin a b : small a -> small b -> let s := printf "Beginning of run %u, lumi %u, event" [a; b] in nonl s /\ read_row (map tidy s) = (["Beginning"; "of"; "run"; "lumi"; "event"], [a; b]).
Proof. intros Ha Hb. cbv zeta. split; [line_nonl|console_row]. Qed.
Lemma begin_blank a b : printf "Beginning of run %u, lumi %u, event " [a; b] = printf "Beginning of run %u, lumi %u, event" [a; b] ++ [" "%char].
Proof. repeat expand_printf. cbn [app]. repeat first [rewrite <- app_assoc; cbn [app] | f_equal]. Qed.
Lemma big_word n : 0 <= n < 10 ^ 20 -> Forall isdig (dec 20 n) /\ read_row (dec 20 n) = ([], [n]).
Proof.
  intros H. destruct (dec_natural 20 n ltac:(lia) H) as (E & F). split; [exact F|]. pose proof (dec_nonempty 20 n ltac:(lia)) as N.
  unfold read_row. cbv zeta. rewrite <- (app_nil_r (dec 20 n)), words_word; [|eapply Forall_impl; [|exact F]; intros c Hc; destruct (dig_not_sep c Hc) as (A & B & _); auto].
  cbn [app]. pose proof (integer_digits _ N F []) as I. rewrite app_nil_r in I. rewrite E in I. destruct (dec 20 n) as [|c l]; [congruence|]. cbn [split_words labels integers]. rewrite I. reflexivity.
Qed.
Lemma begin_says e : news_ok (Begin e) -> says (beginning e) [news_row (Begin e)].
Proof.
  intros (H1 & H2 & H3). unfold inU in *. destruct (l_begin (ev_run e) (ev_lumi e)) as (A & B); [unfold small; lia..|]. destruct (big_word (ev_event e)) as (F & R); [lia|].
  unfold beginning. rewrite begin_blank. set (p := printf _ _) in *. clearbody p. rewrite <- app_assoc. cbn [app chars list_ascii_of_string].
  change (dec 20 (ev_event e) ++ [" "%char; newline]) with (dec 20 (ev_event e) ++ [" "%char] ++ [newline]).
  replace (p ++ " "%char :: dec 20 (ev_event e) ++ [" "%char] ++ [newline]) with ((p ++ " "%char :: dec 20 (ev_event e) ++ [" "%char]) ++ [newline]) by (rewrite <- !app_assoc; cbn [app]; rewrite <- app_assoc; reflexivity).
  apply says_line.
  - apply nonl_app; [exact A|]. constructor; [discriminate|]. apply nonl_app; [|repeat constructor; discriminate]. eapply Forall_impl; [|exact F]. intros c Hc. destruct (dig_not_sep c Hc) as (_ & C & _). exact C.
  - rewrite map_app. cbn [map]. rewrite map_app. cbn [map]. rewrite (clean_all (dec 20 (ev_event e))) by (eapply Forall_impl; [|exact F]; exact clean_dig). change (tidy " ") with " "%char.
    rewrite (row_mid _ _ [] [ev_event e]); [rewrite B; reflexivity|]. rewrite (row_mid _ [] [] [] eq_refl), R. reflexivity.
Qed.
Lemma found_says e i r : news_ok (Found e i r) -> says (read_text i r) [news_row (Found e i r)].
Proof.
  cbn [news_ok]. rewrite !Forall_cons_iff. intros (H1 & H2 & H3 & H4 & H5 & _). unfold read_text, printf_nl.
  destruct (l_read (Z.of_nat i) (Z.of_nat (length (rg_track r))) (Z.of_nat (length (rg_emcalo r))) (Z.of_nat (length (rg_calo r))) (Z.of_nat (length (rg_muon r)))) as (A & B); [unfold small; lia..|].
  apply says_line; [exact A|]. rewrite B. reflexivity.
Qed.

(** ** The CTP7 patterns *)
Definition ctp7_at (t : nat) (s : ctp7) : Prop := c_open s = true /\ c_nmux s = 1%nat /\ c_ipattern s = Nat.min 1024 (6 * t).
Definition ctp7_lines (t : nat) : list ascii := List.concat (map ipattern_line (filter (fun n => (n <=? 1024)%nat) (seq (6 * t) 6))).
Lemma lines_say t : Z.of_nat t < 2 ^ 20 -> says (ctp7_lines t) (pattern_rows (S t)).
Proof.
  intros H. unfold ctp7_lines, pattern_rows. replace (S t - 1)%nat with t by lia. set (l := filter _ _).
  assert (HL : forall n, In n l -> small (Z.of_nat n)) by (intros n Hn; apply filter_In in Hn as (Hn & _); apply in_seq in Hn; unfold small; lia). clearbody l.
  induction l as [|n l IH]; [apply says_nil|]. cbn [map List.concat]. change (?x :: map ?f l) with ([x] ++ map f l). apply says_app; [|apply IH; intros; apply HL; right; assumption].
  unfold ipattern_line, printf_nl. destruct (l_ipattern (Z.of_nat n) (HL n (or_introl eq_refl))) as (A & B). apply says_line; [exact A|exact B].
Qed.
Lemma filter_none (l : list nat) : (forall n, In n l -> (1024 < n)%nat) -> filter (fun n => (n <=? 1024)%nat) l = [].
Proof. induction l as [|x l IH]; intros H; [reflexivity|]. cbn [filter]. rewrite (proj2 (Nat.leb_gt x 1024)) by (apply H; left; reflexivity). apply IH. intros; apply H; right; assumption. Qed.
Lemma ctp7_step s t event nchann : ctp7_at t s -> (nchann <= length event)%nat -> exists s', ctp7_event s (event, nchann) = Ok s' /\ ctp7_at (S t) s' /\ ctp7_say s = ctp7_lines t.
Proof.
  intros (H1 & H2 & H3) HL. unfold ctp7_event, ctp7_say. rewrite H1, H2, H3. cbn [negb orb].
  destruct (Nat.le_gt_cases 171 t) as [L|L].
  { rewrite Nat.min_l by lia. change (1023 <? 1024)%nat with true. cbn [orb]. exists s. split; [reflexivity|]. split; [split; [exact H1|split; [exact H2|lia]]|].
    unfold ctp7_lines. rewrite filter_none; [reflexivity|]. intros n Hn. apply in_seq in Hn. lia. }
  rewrite Nat.min_r by lia. rewrite (proj2 (Nat.ltb_ge 1023 (6 * t))) by lia. cbn [orb negb Nat.eqb]. unfold ctp7_print. rewrite H3, Nat.min_r by lia. rewrite (proj2 (Nat.ltb_ge 1023 (6 * t))) by lia.
  assert (M : exists ws, mapM (rd event) (seq 0 nchann) = Ok ws).
  { clear - HL. assert (G : forall k, (forall j, In j k -> (j < length event)%nat) -> exists ws, mapM (rd event) k = Ok ws).
    { induction k as [|j k IH]; intros H; [eexists; reflexivity|]. cbn [mapM]. destruct (nth_error_lt event j (H j (or_introl eq_refl))) as (x & Ex). unfold rd at 1. rewrite Ex. cbn [bind].
      destruct IH as (ws & ->); [intros; apply H; right; assumption|]. eexists. reflexivity. }
    apply G. intros j Hj. apply in_seq in Hj. lia. }
  destruct M as (ws & ->). cbn [bind]. eexists. split; [reflexivity|]. unfold ctp7_at, ctp7_lines.
  destruct (Nat.eq_dec t 170) as [N|N].
  - set (m := (6 * t)%nat) in *. assert (Hm : Z.of_nat m = 1020) by lia. assert (E : Nat.min 1024 (6 * S t) = (4 + m)%nat) by lia. rewrite E. clearbody m. clear E N L H3.
    assert (Q1 : (1023 <? S m)%nat = false) by (apply Nat.ltb_ge; lia). assert (Q2 : (1023 <? S (S m))%nat = false) by (apply Nat.ltb_ge; lia). assert (Q3 : (1023 <? S (S (S m)))%nat = false) by (apply Nat.ltb_ge; lia).
    assert (Q4 : (1023 <? S (S (S (S m))))%nat = true) by (apply Nat.ltb_lt; lia). assert (Q' : forall k, Z.of_nat k <= 1024 -> (k <=? 1024)%nat = true) by (intros k Hk; apply Nat.leb_le; lia).
    assert (Q5 : (S (S (S (S (S m)))) <=? 1024)%nat = false) by (apply Nat.leb_gt; lia).
    split.
    + cbn [seq fold_left]. unfold ctp7_pad. cbn [c_ipattern c_open c_nmux c_lines]. rewrite Q1. cbn [c_ipattern c_open c_nmux c_lines]. rewrite Q2. cbn [c_ipattern c_open c_nmux c_lines]. rewrite Q3. cbn [c_ipattern c_open c_nmux c_lines].
      rewrite Q4. cbn [c_ipattern c_open c_nmux c_lines]. rewrite Q4. cbn [c_ipattern c_open c_nmux c_lines snd]. repeat split; assumption.
    + set (f := ipattern_line). clearbody f. cbn [seq fold_left fst]. rewrite Q1, Q2, Q3, Q4. cbn [filter]. rewrite Q5.
      rewrite !Q' by lia. cbn [map List.concat fst]. rewrite <- !app_assoc, app_nil_r. reflexivity.
  - set (m := (6 * t)%nat) in *. assert (Hm : (m <= 1014)%nat) by lia. assert (E : Nat.min 1024 (6 * S t) = (6 + m)%nat) by lia. rewrite E. clearbody m. clear E.
    assert (Q1 : (1023 <? S m)%nat = false) by (apply Nat.ltb_ge; lia). assert (Q2 : (1023 <? S (S m))%nat = false) by (apply Nat.ltb_ge; lia). assert (Q3 : (1023 <? S (S (S m)))%nat = false) by (apply Nat.ltb_ge; lia).
    assert (Q4 : (1023 <? S (S (S (S m))))%nat = false) by (apply Nat.ltb_ge; lia). assert (Q5 : (1023 <? S (S (S (S (S m)))))%nat = false) by (apply Nat.ltb_ge; lia).
    assert (Q' : forall k, Z.of_nat k <= 1024 -> (k <=? 1024)%nat = true) by (intros k Hk; apply Nat.leb_le; lia).
    split.
    + cbn [seq fold_left]. unfold ctp7_pad. cbn [c_ipattern c_open c_nmux c_lines]. rewrite Q1. cbn [c_ipattern c_open c_nmux c_lines]. rewrite Q2. cbn [c_ipattern c_open c_nmux c_lines]. rewrite Q3. cbn [c_ipattern c_open c_nmux c_lines].
      rewrite Q4. cbn [c_ipattern c_open c_nmux c_lines]. rewrite Q5. cbn [c_ipattern c_open c_nmux c_lines snd]. repeat split; assumption.
    + set (f := ipattern_line). clearbody f. cbn [seq fold_left fst]. rewrite Q1, Q2, Q3, Q4, Q5. cbn [filter].
      rewrite !Q' by lia. cbn [map List.concat fst]. rewrite <- !app_assoc, app_nil_r. reflexivity.
Qed.

(** ** One test *)
Section walk.
Context (b : board) (validate : bool) (c : config) (special : Z -> Z) (mh mr : nat -> pfmem).
Hypotheses (HB : build_ok b c) (HC : cfg_fits c) (HM : forall t, mem_typed (mh t)).
Definition ctp7s (t : nat) (si so : ctp7) : Prop := b = CTP7 -> ctp7_at t si /\ ctp7_at t so.
Lemma body_pair t pho ne runs si so text r : Z.of_nat t < 2 ^ 20 -> length pho = NEMCALO c -> length ne = NSELCALO c -> region_ok c r -> ctp7s t si so ->
  (exists run si' so' u code, pf_body b validate c mh mr (S t) (pho, ne, runs) r = Ok ((o_pho (pr_hw run), o_ne (pr_hw run), runs ++ [run]), code) /\
     pf_body_say b validate c mh mr (S t) (pho, ne, runs, si, so, text) r = Ok ((o_pho (pr_hw run), o_ne (pr_hw run), runs ++ [run], si', so', text ++ u), code) /\
     (code = None \/ code = Some 1) /\ says u (test_rows b validate (S t) run) /\ ctp7s (S t) si' so' /\ length (o_pho (pr_hw run)) = NEMCALO c /\ length (o_ne (pr_hw run)) = NSELCALO c) \/
  (exists k, pf_body b validate c mh mr (S t) (pho, ne, runs) r = UB k /\ pf_body_say b validate c mh mr (S t) (pho, ne, runs, si, so, text) r = UB k).
Proof.
  intros Ht Lp Ln HR HS. destruct (defined_or_not b c (mh (S t)) (mr (S t)) r) as [(o & q & D1 & D2)|(k & HU)].
  2:{ right. exists k. unfold pf_body, pf_body_say. rewrite (run_undefined b c (mh (S t)) (mr (S t)) pho ne r k HB (HM (S t)) Lp Ln HR HU). split; reflexivity. }
  left. destruct (run_lemma b c (mh (S t)) (mr (S t)) pho ne r o q HB (HM (S t)) Lp Ln HR D1 D2) as (run & E & OK & Sr & Sh). exists run.
  destruct (run_in_range b c _ _ r run (HM (S t)) HR OK) as (Or & Oh).
  assert (G : exists si' so' t1, match b with CTP7 => do si1 <- ctp7_event si (pr_in run, in_size CTP7); do so1 <- ctp7_event so (pr_out run, out_size CTP7); Ok (si1, so1, ctp7_say si ++ ctp7_say so) | _ => Ok (si, so, []) end = Ok (si', so', t1) /\
     ctp7s (S t) si' so' /\ says t1 (match b with CTP7 => pattern_rows (S t) ++ pattern_rows (S t) | _ => [] end)).
  { destruct b eqn:Eb.
    - exists si, so, []. split; [reflexivity|]. split; [intros X; congruence|apply says_nil].
    - exists si, so, []. split; [reflexivity|]. split; [intros X; congruence|apply says_nil].
    - destruct (HS Eb) as (C1 & C2). destruct (run_words CTP7 c _ _ r run HB ltac:(discriminate) HR OK) as (W1 & W2 & _).
      destruct (ctp7_step si t (pr_in run) (in_size CTP7) C1 ltac:(rewrite W1; apply Nat.le_refl)) as (si' & -> & I1 & ->). destruct (ctp7_step so t (pr_out run) (out_size CTP7) C2 ltac:(rewrite W2; apply Nat.le_refl)) as (so' & -> & I2 & ->).
      exists si', so'. eexists. split; [reflexivity|]. split; [intros _; split; assumption|]. apply says_app; apply lines_say; exact Ht. }
  destruct G as (si' & so' & t1 & G & GS & GT).
  assert (EV : pr_region run = r) by apply OK.
  unfold pf_body, pf_body_say, test_rows. rewrite E. cbn [bind]. rewrite G. cbn [bind]. change (match b with Plain => true | _ => validate end) with (compares b validate).
  destruct (compares b validate).
  - destruct (compare_ok b c _ _ HB Sr Sh) as (e & -> & He). cbn [bind]. rewrite <- (mismatches_agree c _ _ Sr Sh) in He.
    destruct (validate_says b c (S t) run HB HC ltac:(lia) ltac:(rewrite EV; exact HR) Sr Sh Or Oh) as (t2 & V & ST). rewrite V. cbn [bind].
    exists si', so', (t1 ++ t2). eexists. split; [reflexivity|]. split; [do 2 f_equal; destruct (Z.eqb_spec e 0) as [Z|Z]; [rewrite (proj1 He Z); reflexivity|destruct (test_mismatches (pr_ref run) (pr_hw run)); [tauto|reflexivity]]|].
    split; [destruct (e =? 0); auto|]. split; [apply says_app; assumption|]. split; [exact GS|]. destruct Sh as (_ & S2 & S3 & _). auto.
  - exists si', so', t1. eexists. split; [reflexivity|]. split; [reflexivity|]. split; [auto|]. split; [rewrite app_nil_r; exact GT|]. split; [exact GS|]. destruct Sh as (_ & S2 & S3 & _). auto.
Qed.

(** ** The loop *)
Lemma lead_says l : Forall news_ok l -> says (announce (fst (lead l))) (map (fun e => news_row (Begin e)) (fst (lead l))) /\ Forall news_ok (snd (lead l)).
Proof.
  induction l as [|[e|e i r] l IH]; intros H; cbn [lead].
  - split; [apply says_nil|constructor].
  - inversion H as [|? ? H1 H2]; subst. destruct (lead l) as [bs rest]. cbn [fst snd] in *. destruct (IH H2) as (A & B). split; [|exact B]. unfold announce in *. cbn [map List.concat].
    change (news_row (Begin e) :: map (fun e => news_row (Begin e)) bs) with ([news_row (Begin e)] ++ map (fun e => news_row (Begin e)) bs). apply says_app; [apply begin_says; exact H1|exact A].
  - split; [apply says_nil|exact H].
Qed.
Lemma lead_story code test l runs : story b validate code test l runs = map (fun e => news_row (Begin e)) (fst (lead l)) ++ story b validate code test (snd (lead l)) runs.
Proof. induction l as [|[e|e i r] l IH]; cbn [lead]; try reflexivity. destruct (lead l) as [bs rest]. cbn [fst snd story map app] in *. rewrite IH. reflexivity. Qed.
Lemma lead_founds l : founds l = founds (snd (lead l)).
Proof. induction l as [|[e|e i r] l IH]; cbn [lead]; try reflexivity. destruct (lead l) as [bs rest]. cbn [fst snd founds] in *. exact IH. Qed.
Lemma lead_head l : match snd (lead l) with Begin _ :: _ => False | _ => True end.
Proof. induction l as [|[e|e i r] l IH]; cbn [lead]; try exact I. destruct (lead l) as [bs rest]. exact IH. Qed.

Lemma walk_say_S {S} (hear : S -> list ascii -> S) body n test st l : walk_say c special hear body (Datatypes.S n) test st l =
  match snd (lead l) with
  | Found e i r :: rest => do (st1, ex) <- body test (hear st (announce (fst (lead l)) ++ read_text i r)) (show c special (e, r));
        match ex with Some code => Ok (st1, Some code) | None => walk_say c special hear body n (Datatypes.S test) st1 rest end
  | _ => Ok (hear st (announce (fst (lead l))), None)
  end.
Proof. reflexivity. Qed.
Lemma walk_cons {S} (body : nat -> S -> fwregion -> res (S * option Z)) test st r l : walk body test st (r :: l) = do (st1, ex) <- body test st r; match ex with Some code => Ok (st1, Some code) | None => walk body (Datatypes.S test) st1 l end.
Proof. reflexivity. Qed.
Definition code_of (code : option Z) : Z := match code with Some x => x | None => 0 end.
Ltac rewrite_say P := match type of P with _ = ?r => match goal with |- context [@bind ?A ?B (pf_body_say ?a ?b ?c ?d ?e ?f ?g ?h) ?k] => change (@bind A B (pf_body_say a b c d e f g h) k) with (@bind A B (@id (res A) (pf_body_say a b c d e f g h)) k); replace (@id (res A) (pf_body_say a b c d e f g h)) with r by (symmetry; exact P) end end.
Lemma walk_pair n : forall t l pho ne runs0 si so text, (t + S n = NTEST)%nat -> length pho = NEMCALO c -> length ne = NSELCALO c -> Forall news_ok l -> ctp7s t si so ->
  (exists pho' ne' runs si' so' u code, walk (pf_body b validate c mh mr) (S t) (pho, ne, runs0) (firstn (S n) (map (show c special) (founds l))) = Ok ((pho', ne', runs0 ++ runs), code) /\
     walk_say c special (fun '(st, si, so, text) say => (st, si, so, text ++ say)) (pf_body_say b validate c mh mr) (S n) (S t) (pho, ne, runs0, si, so, text) l = Ok ((pho', ne', runs0 ++ runs, si', so', text ++ u), code) /\
     (code = None \/ code = Some 1 /\ runs <> []) /\ says u (story b validate (code_of code) (S t) l runs)) \/
  (exists k, walk (pf_body b validate c mh mr) (S t) (pho, ne, runs0) (firstn (S n) (map (show c special) (founds l))) = UB k /\
     walk_say c special (fun '(st, si, so, text) say => (st, si, so, text ++ say)) (pf_body_say b validate c mh mr) (S n) (S t) (pho, ne, runs0, si, so, text) l = UB k).
Proof.
  induction n as [|n IH]; intros t l pho ne runs0 si so text HT Lp Ln HN HS.
  all: assert (B20 : Z.of_nat t < 2 ^ 20) by (unfold NTEST in HT; lia).
  all: destruct (lead_says l HN) as (SA & HN').
  all: rewrite lead_founds. all: setoid_rewrite lead_story. all: pose proof (lead_head l) as LH. all: destruct (lead l) as [bs rest] eqn:EL; cbn [fst snd] in *.
  all: rewrite walk_say_S, EL; cbn [fst snd].
  all: destruct rest as [|[e|e i r] rest]; [|destruct LH|].
  all: try (left; exists pho, ne, [], si, so, (announce bs), None; rewrite app_nil_r; split; [reflexivity|]; split; [reflexivity|]; split; [auto|]; cbn [story]; rewrite app_nil_r; exact SA).
  all: inversion HN' as [|? ? N1 N2]; subst; pose proof (found_says e i r N1) as SF; cbn [founds map]; rewrite firstn_cons, walk_cons.
  all: destruct (body_pair t pho ne runs0 si so (text ++ announce bs ++ read_text i r) (show c special (e, r)) B20 Lp Ln (show_ok c special (e, r)) HS) as [(run & si' & so' & u & code & P1 & P2 & P3 & P4 & P5 & P6 & P7)|(k & P1 & P2)];
    [|right; exists k; rewrite P1; cbv beta iota; rewrite_say P2; split; reflexivity].
  - left. eexists _, _, [run], si', so', (announce bs ++ read_text i r ++ u), code. rewrite P1. cbv beta iota. rewrite_say P2. cbn [bind].
    assert (T : text ++ announce bs ++ read_text i r ++ u = (text ++ announce bs ++ read_text i r) ++ u) by (rewrite <- !app_assoc; reflexivity). rewrite T.
    split; [destruct code; reflexivity|]. split; [destruct code; reflexivity|]. split; [destruct P3 as [->| ->]; [auto|right; split; [reflexivity|discriminate]]|].
    apply says_app; [exact SA|]. cbn [story]. replace (S t =? NTEST)%nat with true by (symmetry; apply Nat.eqb_eq; lia). rewrite orb_true_r, app_nil_r.
    change (?x :: test_rows b validate (S t) run) with ([x] ++ test_rows b validate (S t) run). apply says_app; [exact SF|exact P4].
  - destruct P3 as [-> | ->].
    + destruct (IH (S t) rest (o_pho (pr_hw run)) (o_ne (pr_hw run)) (runs0 ++ [run]) si' so' ((text ++ announce bs ++ read_text i r) ++ u) ltac:(lia) P6 P7 N2 P5)
        as [(p' & n' & runs & si2 & so2 & v & code & W1 & W2 & W3 & W4)|(k & W1 & W2)].
      * left. exists p', n', (run :: runs), si2, so2, (announce bs ++ read_text i r ++ u ++ v), code. rewrite P1. cbv beta iota. rewrite_say P2. cbn [bind].
        rewrite W1. change (run :: runs) with ([run] ++ runs). rewrite (app_assoc runs0). split; [reflexivity|]. split; [|split].
        -- replace (text ++ announce bs ++ read_text i r ++ u ++ v) with (((text ++ announce bs ++ read_text i r) ++ u) ++ v) by (rewrite <- !app_assoc; reflexivity). exact W2.
        -- destruct W3 as [->|(-> & _)]; [auto|right; split; [reflexivity|discriminate]].
        -- apply says_app; [exact SA|]. cbn [app story]. replace (S t =? NTEST)%nat with false by (symmetry; apply Nat.eqb_neq; lia).
           change (?x :: test_rows b validate (S t) run ++ ?y) with ([x] ++ test_rows b validate (S t) run ++ y). apply says_app; [exact SF|]. apply says_app; [exact P4|].
           replace (match runs with [] => code_of code =? 1 | _ :: _ => false end || false) with false; [exact W4|]. rewrite orb_false_r. destruct W3 as [->|(-> & NE)]; destruct runs; try reflexivity. congruence.
      * right. exists k. rewrite P1. cbv beta iota. rewrite_say P2. cbn [bind]. split; [exact W1|exact W2].
    + left. eexists _, _, [run], si', so', (announce bs ++ read_text i r ++ u), (Some 1). rewrite P1. cbv beta iota. rewrite_say P2. cbn [bind].
      assert (T : text ++ announce bs ++ read_text i r ++ u = (text ++ announce bs ++ read_text i r) ++ u) by (rewrite <- !app_assoc; reflexivity). rewrite T.
      split; [reflexivity|]. split; [reflexivity|]. split; [right; split; [reflexivity|discriminate]|].
      apply says_app; [exact SA|]. cbn [story code_of]. change (1 =? 1) with true. cbn [orb]. rewrite app_nil_r.
      change (?x :: test_rows b validate (S t) run) with ([x] ++ test_rows b validate (S t) run). apply says_app; [exact SF|exact P4].
Qed.
End walk.

(** ** The destructors *)
Lemma l_saved a : small a -> let s := printf "Saved %u" [a] in nonl s /\ read_row (map tidy s) = (["Saved"], [a]).
Proof. intros Ha. cbv zeta. split; [line_nonl|console_row]. Qed.
Lemma saved_blank a : printf "Saved %u " [a] = printf "Saved %u" [a] ++ [" "%char].
Proof. repeat expand_printf. cbn [app]. repeat first [rewrite <- app_assoc; cbn [app] | f_equal]. Qed.
Lemma saved_says n kind fname l : small n -> one_line kind -> one_line fname -> read_row (map tidy (chars kind ++ chars " patterns to " ++ chars fname ++ chars ".")) = (l, []) -> says (saved n kind fname) [("Saved" :: l, [n])].
Proof.
  intros Hn HK HF HR. destruct (l_saved n Hn) as (A & B). unfold saved. rewrite saved_blank. set (p := printf _ _) in *. clearbody p.
  replace ((p ++ [" "%char]) ++ chars kind ++ chars " patterns to " ++ chars fname ++ chars "." ++ [newline]) with ((p ++ " "%char :: (chars kind ++ chars " patterns to " ++ chars fname ++ chars ".")) ++ [newline]) by (rewrite <- !app_assoc; cbn [app]; rewrite <- !app_assoc; reflexivity).
  assert (O : forall s, one_line s -> nonl (chars s)) by (intros s H; apply Forall_forall; intros c Hc ->; exact (H Hc)).
  apply says_line.
  - apply nonl_app; [exact A|]. constructor; [discriminate|]. apply nonl_app; [apply O; exact HK|]. apply nonl_app; [repeat constructor; discriminate|]. apply nonl_app; [apply O; exact HF|repeat constructor; discriminate].
  - rewrite map_app. change (map tidy (" "%char :: ?r)) with (" "%char :: map tidy r). rewrite (row_mid _ _ _ _ HR), B. reflexivity.
Qed.
Lemma mp7_counts_links nlinks ii nempty words : mux_ok ii nempty nlinks -> Z.abs nempty = Z.of_nat ii - 1 -> Forall event_ok words -> Z.of_nat (length words) <= 20000 ->
  mp7_count_links nlinks ii nempty words = Ok (Z.of_nat (ii * length words)).
Proof.
  intros M Ha HE HL. pose proof M as (H1 & H2 & _). pose proof (mux_range ii H2 H1) as H3.
  destruct (open_ok ii nempty nlinks M true) as (s & E & I1 & I2 & I3 & I4). unfold mp7_count_links. rewrite E. cbn [bind].
  assert (HE' : Forall (fun e => length e = MP7_NCHANN) words) by (eapply Forall_impl; [|exact HE]; intros e (He & _); exact He).
  destruct (events_inv ii nempty nlinks M words HE' (few_small nempty words HL ltac:(lia)) (length words) s (Nat.le_refl _)) as (s' & E' & (_ & J & _)).
  - split; [exact I1|]. split; [exact I2|]. split; [rewrite I3; unfold frames; cbn [p_nmux]; rewrite Nat.div_0_l by lia; rewrite Nat.mul_0_r; reflexivity|].
    cbn [p_nmux]. intros M2. rewrite I4 by lia. apply buf_ext. intros t w Ht Hw. unfold pending. cbn [p_nmux p_nchann]. rewrite Nat.mod_0_l by lia. destruct (Nat.ltb_spec (w / (MP7_NCHANN / ii)) 0) as [X|X]; [destruct (Nat.nlt_0_r _ X)|reflexivity].
  - rewrite firstn_all in E'. rewrite E'. cbn [bind]. rewrite J. do 2 f_equal. lia.
Qed.
Lemma mp7_counts ii nempty words : (1 <= ii)%nat -> (MP7_NCHANN mod ii = 0)%nat -> Z.abs nempty = Z.of_nat ii - 1 -> Forall event_ok words -> Z.of_nat (length words) <= 20000 ->
  mp7_count ii nempty words = Ok (Z.of_nat (ii * length words)).
Proof.
  intros H1 H2 Ha HE HL. pose proof (mux_range ii H2 H1) as H3. apply mp7_counts_links; [|exact Ha|exact HE|exact HL].
  split; [exact H1|]. split; [exact H2|]. split; [unfold links; cbn [Nat.eqb]; apply Nat.div_le_upper_bound; [lia|]; destruct ii; lia|lia].
Qed.
Lemma ctp7_counts n words : Forall (fun w => length w = n) words -> ctp7_count n words = Ok (Z.of_nat (Nat.min 1024 (6 * length words))).
Proof.
  intros HW. unfold ctp7_count, ctp7_open. cbn [Nat.eqb bind].
  assert (G : forall ws t s, Forall (fun w => length w = n) ws -> ctp7_at t s -> exists s', foldM ctp7_event (map (fun w => (w, n)) ws) s = Ok s' /\ ctp7_at (t + length ws) s').
  { induction ws as [|w ws IH]; intros t s H A; [exists s; rewrite Nat.add_0_r; split; [reflexivity|exact A]|]. inversion H; subst. cbn [map foldM].
    destruct (ctp7_step s t w (length w) A (Nat.le_refl _)) as (s1 & -> & A1 & _). cbn [bind length]. rewrite <- Nat.add_succ_comm. apply IH; assumption. }
  destruct (G words 0%nat (mkCtp7 true 1 0 []) HW) as (s' & -> & (_ & _ & A)); [repeat split|]. cbn [bind]. rewrite A. reflexivity.
Qed.
Lemma hr_counts events : Z.of_nat (length events) < 2 ^ 32 -> hr_count events = Ok (Z.of_nat (length events)).
Proof.
  intros H. unfold hr_count, hr_new.
  assert (G : exists t, foldM hr_call events (mkHr true 0 []) = Ok (mkHr true (Z.of_nat (length events)) t)).
  { revert H. induction events as [|e events IH] using rev_ind; [intros; eexists; reflexivity|]. rewrite app_length. cbn [length]. intros H.
    destruct IH as (t & E); [lia|]. rewrite foldM_app, E. cbn [bind foldM]. rewrite call_text. cbn [bind]. eexists. do 2 f_equal. unfold wrapU. rewrite Z.mod_small by lia. lia. }
  destruct G as (t & ->). reflexivity.
Qed.
Lemma pf_saved_says b validate c special mh mr evs runs code ii : build_ok b c -> outcome b validate c mh mr 1 (tested c special NTEST evs) runs code -> (1 <= ii)%nat -> (MP7_NCHANN mod ii = 0)%nat ->
  exists t, pf_saved b ii runs = Ok t /\ says t (saved_rows b ii (length runs)).
Proof.
  intros HB HO H1 H2. pose proof (runs_500 validate c special mh mr evs runs code b HO) as L5. pose proof (mux_range ii H2 H1) as H3. unfold pf_saved. cbv zeta. rewrite hr_counts by (rewrite map_length; lia). cbn [bind]. rewrite map_length.
  assert (SH : says (saved (Z.of_nat (length runs)) "human readable" "human_readable_patterns.txt") [saved_row ["human"; "readable"] "human_readable_patterns.txt." (length runs)]).
  { apply saved_says; [unfold small; lia|no_newline|no_newline|reflexivity]. }
  assert (W : b <> Plain -> forall run, In run runs -> length (pr_in run) = in_size b /\ length (pr_out run) = out_size b /\ Forall (inU 32) (pr_in run) /\ Forall (inU 32) (pr_out run)).
  { intros Hb run Hr. destruct (run_region validate c special mh mr evs runs code b run HO Hr) as (i & RO & OK). exact (run_words _ _ _ _ _ _ HB Hb RO OK). }
  destruct b.
  - eexists. split; [reflexivity|exact SH].
  - assert (EI : Forall event_ok (map pr_in runs)) by (apply Forall_forall; intros w Hw; apply in_map_iff in Hw as (run & <- & Hr); destruct (W ltac:(discriminate) run Hr) as (W1 & W2 & W3 & W4); split; assumption).
    assert (EO : Forall event_ok (map pr_out runs)) by (apply Forall_forall; intros w Hw; apply in_map_iff in Hw as (run & <- & Hr); destruct (W ltac:(discriminate) run Hr) as (W1 & W2 & W3 & W4); split; assumption).
    assert (M1 : (MP7_NCHANN mod 1 = 0)%nat) by apply Nat.mod_1_r.
    rewrite !(mp7_counts 1) by (assumption || (rewrite map_length; lia) || lia). rewrite !(mp7_counts ii) by (assumption || (rewrite map_length; lia) || lia). cbn [bind]. rewrite !map_length, Nat.mul_1_l.
    eexists. split; [reflexivity|]. unfold saved_rows. change (?x :: [?a; ?b; ?c; ?d; ?e; ?f]) with ([x] ++ [a] ++ [b] ++ [c] ++ [d] ++ [e] ++ [f]).
    set (m := (ii * length runs)%nat). assert (Hm : (m <= 144 * 500)%nat) by (unfold m; nia). clearbody m.
    apply says_app; [exact SH|]. repeat (apply says_app; [|]); apply saved_says; try (unfold small; lia); try no_newline; reflexivity.
  - rewrite !ctp7_counts.
    2,3: apply Forall_forall; intros w Hw; apply in_map_iff in Hw as (run & <- & Hr); destruct (W ltac:(discriminate) run Hr) as (W1 & W2 & W3 & W4); assumption.
    cbn [bind]. rewrite !map_length. eexists. split; [reflexivity|]. unfold saved_rows. change (?x :: [?a; ?b]) with ([x] ++ [a] ++ [b]).
    set (m := Nat.min 1024 (6 * length runs)). assert (Hm : (m <= 1024)%nat) by (unfold m; lia). clearbody m.
    apply says_app; [exact SH|]. repeat (apply says_app; [|]); apply saved_says; try (unfold small; lia); try no_newline; reflexivity.
Qed.

(** ** What is kept of an event *)
Definition news_kept (x : news) : news := match x with Begin e => Begin (event_kept e) | Found e i r => Found (event_kept e) i (region_kept r) end.
Lemma found_kept e l : forall k, found (event_kept e) k (map region_kept l) = map news_kept (found e k l).
Proof. induction l as [|r l IH]; intros k; [reflexivity|]. cbn [map found]. rewrite map_app, IH. f_equal. change (barrel (region_kept r)) with (barrel r). destruct (barrel r); reflexivity. Qed.
Lemma event_news_kept e : event_news (event_kept e) = map news_kept (event_news e).
Proof.
  rewrite !event_news_found. cbn [map news_kept]. f_equal. cbn [event_kept ev_event ev_regions]. rewrite <- found_kept. f_equal. destruct (_ =? 0); [|reflexivity]. destruct (ev_regions e); reflexivity.
Qed.
Lemma all_news_kept evs : flat_map event_news (map event_kept evs) = map news_kept (flat_map event_news evs).
Proof. induction evs as [|e evs IH]; [reflexivity|]. cbn [map flat_map]. rewrite map_app, IH, event_news_kept. reflexivity. Qed.
Lemma news_row_kept x : news_row (news_kept x) = news_row x.
Proof. destruct x as [e|e i r]; [reflexivity|]. cbn [news_kept news_row]. unfold region_kept. cbn [rg_track rg_emcalo rg_calo rg_muon]. rewrite !map_length. reflexivity. Qed.
Lemma story_kept b validate code l : forall test runs, story b validate code test (map news_kept l) runs = story b validate code test l runs.
Proof.
  induction l as [|x l IH]; intros test runs; [reflexivity|]. destruct x as [e|e i r]; cbn [map news_kept story].
  - rewrite IH. rewrite <- (news_row_kept (Begin e)). reflexivity.
  - destruct runs as [|run runs]; [reflexivity|]. rewrite IH, <- (news_row_kept (Found e i r)). reflexivity.
Qed.
Lemma found_ok e l : forall k, Z.of_nat (k + length l) < 2 ^ 32 -> Forall region_wf l -> Forall news_ok (found e k l).
Proof.
  induction l as [|r l IH]; intros k HK HF; [constructor|]. inversion HF as [|? ? R1 R2]; subst. cbn [found length] in *. apply Forall_app. split; [|apply IH; [lia|exact R2]].
  destruct (barrel r); [|constructor]. constructor; [|constructor]. destruct R1 as (_ & (_ & F1) & (_ & F2) & (_ & F3) & (_ & F4)). unfold fits in *. cbn [news_ok]. repeat (apply Forall_cons; [assumption || lia|]). constructor.
Qed.
Lemma kept_ok x : news_ok x -> news_ok (news_kept x).
Proof. destruct x as [e|e i r]; [auto|]. cbn [news_kept news_ok]. unfold region_kept. cbn [rg_track rg_emcalo rg_calo rg_muon]. rewrite !map_length. auto. Qed.
Lemma news_all_ok evs : Forall good_event evs -> Forall news_ok (flat_map event_news (map event_kept evs)).
Proof.
  intros H. rewrite all_news_kept. apply Forall_map. induction H as [|e evs HE _ IH]; [constructor|]. cbn [flat_map]. apply Forall_app. split; [|exact IH].
  destruct HE as ((W1 & W2 & W3 & _ & W4 & W5) & _ & _). rewrite event_news_found. constructor; [apply kept_ok; repeat split; assumption || apply W1 || apply W2 || apply W3|].
  unfold fits in W5. assert (G : Forall news_ok (found e 0 (if ev_event e =? 0 then firstn 1 (ev_regions e) else ev_regions e))).
  { apply found_ok; [destruct (_ =? 0); rewrite ?firstn_length; lia|]. destruct (_ =? 0); [|exact W4]. apply Forall_forall. intros x Hx. apply in_firstn in Hx. exact (proj1 (Forall_forall _ _) W4 x Hx). }
  eapply Forall_impl; [|exact G]. exact kept_ok.
Qed.

(** ** The program *)
Lemma main_says b validate c ii special mh mr g arr pho ne evs : build_ok b c -> cfg_fits c -> (forall t, mem_typed (mh t)) -> arrays_ok c arr -> length pho = NEMCALO c -> length ne = NSELCALO c ->
  Forall good_event evs -> (1 <= ii)%nat -> (MP7_NCHANN mod ii = 0)%nat ->
  exists N,
   (exists code runs text, (forall fuel, (N <= fuel)%nat -> pf_main b validate c special (Ok true) fuel mh mr g arr pho ne (Some (dump evs)) = Some (Ok (code, runs)) /\
       pf_main_say b validate c ii special (Ok true) fuel mh mr g arr pho ne (Some (dump evs)) = Some (Ok (code, runs, text))) /\
      outcome b validate c mh mr 1 (tested c special NTEST evs) runs code /\ read_console text = console_rows b validate ii evs code runs) \/
   (exists k, (forall fuel, (N <= fuel)%nat -> pf_main b validate c special (Ok true) fuel mh mr g arr pho ne (Some (dump evs)) = Some (UB k) /\
       pf_main_say b validate c ii special (Ok true) fuel mh mr g arr pho ne (Some (dump evs)) = Some (UB k)) /\
      reaches_undefined b validate c mh mr 1 (tested c special NTEST evs) k).
Proof.
  intros HB HC HM HA Lp Ln HG H1 H2. unfold pf_main, pf_main_say. destruct (inputs_open g (Some (dump evs))) as [s|k] eqn:EO; [|discriminate EO].
  destruct (loop_dump c special clear_arrays (pf_body b validate c mh mr) (clear_ok c) NTEST g evs s HG EO) as (N1 & HW).
  destruct (loop_say_dump c special clear_arrays (fun '(st, si, so, text) say => (st, si, so, text ++ say)) (pf_body_say b validate c mh mr) (clear_ok c) NTEST g evs s HG EO) as (N2 & HS).
  exists (Nat.max N1 N2).
  assert (ET : tested c special NTEST evs = firstn NTEST (map (show c special) (founds (flat_map event_news (map event_kept evs))))) by (rewrite founds_kept, shown_outk; reflexivity).
  assert (EN : NTEST = S 499) by reflexivity.
  pose proof (walk_pair b validate c special mh mr HB HC HM 499 0 (flat_map event_news (map event_kept evs)) pho ne [] (mkCtp7 true 1 0 []) (mkCtp7 true 1 0 []) [] ltac:(rewrite EN; lia) Lp Ln (news_all_ok evs HG) ltac:(intros _; repeat split)) as WP.
  rewrite <- EN, <- ET in WP.
  destruct (walk_total b validate c mh mr HB HM (tested c special NTEST evs) 1 pho ne [] Lp Ln (tested_ok _ _ _ _)) as [(p' & n' & runs & code & W & O)|(k & W & O)].
  - left. destruct WP as [(p2 & n2 & runs2 & si' & so' & u & code2 & V1 & V2 & V3 & V4)|(k & V1 & _)]; [|rewrite W in V1; discriminate V1].
    cbn [app] in W, V1. rewrite W in V1. injection V1 as <- <- <- <-. destruct (pf_saved_says b validate c special mh mr evs runs _ ii HB O H1 H2) as (t & PS & ST).
    exists (match code with Some x => x | None => 0 end), runs, (u ++ t). split; [|split; [exact O|]].
    + intros fuel Hf. rewrite (HW fuel 1%nat (pho, ne, []) arr ltac:(lia) HA), W. split; [reflexivity|]. rewrite (HS fuel 1%nat (pho, ne, [], mkCtp7 true 1 0 [], mkCtp7 true 1 0 [], []) arr ltac:(lia) HA), V2. cbn [app]. rewrite PS. reflexivity.
    + apply says_read. unfold console_rows. apply says_app; [|exact ST]. rewrite all_news_kept, story_kept in V4. exact V4.
  - right. exists k. destruct WP as [(p2 & n2 & runs2 & si' & so' & u & code2 & V1 & _)|(k2 & V1 & V2)]; [rewrite W in V1; discriminate V1|]. rewrite W in V1. injection V1 as <-. split; [|exact O].
    intros fuel Hf. rewrite (HW fuel 1%nat (pho, ne, []) arr ltac:(lia) HA), W. split; [reflexivity|]. rewrite (HS fuel 1%nat (pho, ne, [], mkCtp7 true 1 0 [], mkCtp7 true 1 0 [], []) arr ltac:(lia) HA), V2. reflexivity.
Qed.

(** ** C74 *)
Lemma message_nil (e : bool) (text : list ascii) : text <> [] -> (if negb e then text else []) = [] <-> e = true.
Proof. intros H. destruct e; cbn; split; congruence. Qed.
Lemma at_slot_nonempty what rest : at_slot what rest <> [].
Proof. discriminate. Qed.
Lemma messages_say what idx : one_line what -> small idx ->
  (forall r o, had_ok r -> had_ok o -> had_equals r o = same_object (had_fields r) (had_fields o) /\
     (had_message what idx r o = [] <-> had_equals r o = true) /\ read_console (had_message what idx r o) = compare_rows what had_names idx (had_fields r) (had_fields o)) /\
  (forall r o, em_ok r -> em_ok o -> em_equals r o = same_object (em_fields r) (em_fields o) /\
     (em_message what idx r o = [] <-> em_equals r o = true) /\ read_console (em_message what idx r o) = compare_rows what em_names idx (em_fields r) (em_fields o)) /\
  (forall r o, tk_ok r -> tk_ok o -> track_equals r o = same_object (tk_fields r) (tk_fields o) /\
     (track_message what idx r o = [] <-> track_equals r o = true) /\ read_console (track_message what idx r o) = compare_rows what tk_names idx (tk_fields r) (tk_fields o)) /\
  (forall r o, mu_ok r -> mu_ok o -> mu_equals r o = same_object (mu_fields r) (mu_fields o) /\
     (mu_message what idx r o = [] <-> mu_equals r o = true) /\ read_console (mu_message what idx r o) = compare_rows what em_names idx (mu_fields r) (mu_fields o)) /\
  (forall r o, ch_ok r -> ch_ok o -> pf_equals_ch r o = same_object (ch_fields r) (ch_fields o) /\
     (ch_message what idx r o = [] <-> pf_equals_ch r o = true) /\ read_console (ch_message what idx r o) = compare_rows what ch_names idx (ch_fields r) (ch_fields o)) /\
  (forall r o, ne_ok r -> ne_ok o -> pf_equals_ne r o = same_object (ne_fields r) (ne_fields o) /\
     (ne_message what idx r o = [] <-> pf_equals_ne r o = true) /\ read_console (ne_message what idx r o) = compare_rows what ne_names idx (ne_fields r) (ne_fields o)).
Proof.
  intros HW HI. repeat match goal with |- _ /\ _ => split end; intros r o Hr Ho.
  - split; [apply had_same|]. split; [apply message_nil, at_slot_nonempty|]. apply says_read, had_says; assumption.
  - split; [apply em_same|]. split; [apply message_nil, at_slot_nonempty|]. apply says_read, em_says; assumption.
  - split; [apply track_same|]. split; [apply message_nil, at_slot_nonempty|]. apply says_read, track_says; assumption.
  - split; [apply mu_same|]. split; [apply message_nil, at_slot_nonempty|]. apply says_read, mu_says; assumption.
  - split; [apply ch_same|]. split; [apply message_nil, at_slot_nonempty|]. apply says_read, ch_says; assumption.
  - split; [apply ne_same|]. split; [apply message_nil, at_slot_nonempty|]. apply says_read, ne_says; assumption.
Qed.
