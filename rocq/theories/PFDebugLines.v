(** Reading the lines of the debugging printout. *)
From Coq Require Import Ascii String QArith Qabs Lqa Lia.
From Verif Require Import Base BaseFacts MapiFacts Data SerText SerTextFacts Printf Fill FloatFacts SpecHR HRFacts HRProofs SpecConsole ConsoleFacts PFDebug SpecPFDebug.
Local Open Scope string_scope.
Local Open Scope list_scope.
Local Open Scope Z_scope.

(** ** Texts made of lines *)
Definition tells (text : list ascii) (rows : list trow) : Prop := forall rest, read_trace (text ++ rest) = rows ++ read_trace rest.
Lemma tells_nil : tells [] [].
Proof. intros rest. reflexivity. Qed.
Lemma tells_app t r t' r' : tells t r -> tells t' r' -> tells (t ++ t') (r ++ r').
Proof. intros H H' rest. rewrite <- !app_assoc, H, H'. reflexivity. Qed.
Lemma untab_nonl s : nonl s -> nonl (map untab s).
Proof.
  unfold nonl. rewrite Forall_map. intros H. eapply Forall_impl; [|exact H]. intros c Hc. unfold untab. destruct (_ =? _)%char; [discriminate|].
  unfold tidy. destruct (existsb _ _); [discriminate|exact Hc].
Qed.
Lemma tells_line s rw : nonl s -> read_trow (map untab s) = rw -> tells (s ++ [newline]) [rw].
Proof.
  intros H <- rest. unfold read_trace. rewrite <- app_assoc. cbn [app]. rewrite map_app. cbn [map]. change (untab newline) with newline.
  rewrite split_line by (apply untab_nonl; exact H). reflexivity.
Qed.
Lemma tells_read t r : tells t r -> read_trace t = r.
Proof. intros H. specialize (H []). rewrite app_nil_r in H. rewrite H. apply app_nil_r. Qed.
Lemma tells_lines {A} (text : nat -> A -> list ascii) (rws : nat -> A -> list trow) l :
  (forall i x, nth_error l i = Some x -> tells (text i x) (rws i x)) -> tells (List.concat (mapi text l)) (lines rws l).
Proof.
  unfold lines. induction l as [|x l IH] using rev_ind; intros H; [apply tells_nil|]. rewrite !mapi_snoc, !concat_app. cbn [List.concat]. rewrite !app_nil_r. apply tells_app.
  - apply IH. intros i y Hy. apply H. rewrite nth_error_app1; [exact Hy|apply nth_error_Some; congruence].
  - apply H. rewrite nth_error_app2, Nat.sub_diag; [reflexivity|lia].
Qed.

(** ** Decimals *)
Definition hundred (x : Q) : Z := rneQ ((100 # 1) * Qabs x).
Definition fine (x : Q) : Prop := 0 <= hundred x < 10 ^ 12.
Definition shown (x : Q) : Z := if Qle_bool 0 x then hundred x else - hundred x.
Definition digs (x : Q) : list ascii := dec 10 (hundred x / 100) ++ ["."%char; digit (hundred x / 10 mod 10); digit (hundred x mod 10)].
Definition word_f (fl : flag) (x : Q) : list ascii :=
  (if negb (Qle_bool 0 x) then ["-"%char] else match fl with PlusFlag => ["+"%char] | _ => [] end) ++ digs x.

Lemma isdig_digit d : 0 <= d < 10 -> isdig (digit d).
Proof. intros H. exists d. apply dig_facts. exact H. Qed.
Lemma digs_parts x : fine x -> let p := dec 10 (hundred x / 100) in p <> [] /\ Forall isdig p /\ number p = Some (hundred x / 100).
Proof.
  intros H. unfold fine in H. change (10 ^ 12) with 1000000000000 in H. cbv zeta.
  destruct (dec_natural 10 (hundred x / 100)) as [E F]; [lia|change (10 ^ Z.of_nat 10) with 10000000000; lia|].
  assert (N : dec 10 (hundred x / 100) <> []) by (apply dec_nonempty; lia). repeat split; [exact N|exact F|].
  rewrite <- (app_nil_r (dec 10 _)). rewrite number_digits by assumption. rewrite app_nil_r. exact E.
Qed.
Lemma digs_decimal x : fine x -> decimal (digs x) = Some (hundred x).
Proof.
  intros H. destruct (digs_parts x H) as (_ & _ & E). unfold decimal, digs. rewrite rev_app_distr. cbn [rev app]. rewrite rev_involutive, E.
  change (("." =? ".")%char) with true. cbn iota. rewrite !dig_facts by (apply Z.mod_pos_bound; lia). f_equal. unfold fine in H. lia.
Qed.
Lemma natural_point s a b : forall acc, Forall isdig s -> natural acc (s ++ ["."%char; a; b]) = None.
Proof.
  induction s as [|c s IH]; intros acc H; [reflexivity|]. inversion H as [|? ? (v & Hv) Hs]; subst. cbn [app].
  assert (E : natural acc (c :: s ++ ["."%char; a; b]) = match decimal_digit c with Some v => natural (acc * 10 + v) (s ++ ["."%char; a; b]) | None => None end).
  { destruct (s ++ ["."%char; a; b]) eqn:E; [apply app_eq_nil in E as [_ E]; discriminate|reflexivity]. }
  rewrite E, Hv. apply IH. exact Hs.
Qed.
Lemma digs_number x : fine x -> number (digs x) = None /\ integer (digs x) = None.
Proof.
  intros H. destruct (digs_parts x H) as (N & F & _). unfold digs. rewrite number_digits, integer_digits by assumption. split; apply natural_point; exact F.
Qed.
Lemma digs_chars x : fine x -> digs x <> [] /\ Forall (fun c => isdig c \/ c = "."%char) (digs x).
Proof.
  intros H. destruct (digs_parts x H) as (N & F & _). unfold digs. split; [intros E; apply app_eq_nil in E; tauto|]. apply Forall_app. split.
  - eapply Forall_impl; [|exact F]. auto.
  - apply Forall_cons; [right; reflexivity|]. apply Forall_cons; [|apply Forall_cons; [|apply Forall_nil]]; left; apply isdig_digit; apply Z.mod_pos_bound; lia.
Qed.
Lemma digs_head x : fine x -> exists c r, digs x = c :: r /\ isdig c.
Proof. intros H. destruct (digs_parts x H) as (N & F & _). unfold digs. destruct (dec 10 _) as [|c r]; [congruence|]. inversion F; subst. cbn [app]. eauto. Qed.
Lemma digs_hundredths x : fine x -> hundredths (digs x) = Some (hundred x).
Proof.
  intros H. pose proof (digs_decimal x H) as E. destruct (digs_head x H) as (c & r & D & I). rewrite D in *. destruct (dig_not_sep c I) as (_ & _ & A & B).
  unfold hundredths. apply Ascii.eqb_neq in A, B. rewrite A, B. exact E.
Qed.
Lemma word_f_value fl x : fine x -> hundredths (word_f fl x) = Some (shown x) /\ integer (word_f fl x) = None.
Proof.
  intros H. destruct (digs_number x H) as (N1 & N2). unfold word_f, shown. destruct (Qle_bool 0 x); cbn [negb].
  - destruct fl; cbn [app]; try (split; [apply digs_hundredths; exact H|exact N2]).
    split; [unfold hundredths; change (("+" =? "-")%char) with false; change (("+" =? "+")%char) with true; cbn iota; apply digs_decimal; exact H|].
    unfold integer. change (("+" =? "-")%char) with false. change (("+" =? "+")%char) with true. cbn iota. exact N1.
  - cbn [app]. split.
    + unfold hundredths. change (("-" =? "-")%char) with true. cbn iota. rewrite digs_decimal by exact H. reflexivity.
    + unfold integer. change (("-" =? "-")%char) with true. cbn iota. rewrite N1. reflexivity.
Qed.
(** with a sign written before *)
Lemma signed_value x : fine x -> (0 <= x)%Q -> (hundredths ("-"%char :: word_f NoFlag x) = Some (- shown x) /\ integer ("-"%char :: word_f NoFlag x) = None) /\
  (hundredths ("+"%char :: word_f NoFlag x) = Some (shown x) /\ integer ("+"%char :: word_f NoFlag x) = None).
Proof.
  intros H P. destruct (digs_number x H) as (N1 & N2). apply Qle_bool_iff in P. unfold word_f, shown. rewrite P. cbn [negb app].
  unfold hundredths, integer. change (("-" =? "-")%char) with true. change (("+" =? "-")%char) with false. change (("+" =? "+")%char) with true. cbn iota.
  rewrite digs_decimal, N1 by exact H. auto.
Qed.
Lemma untab_digit c : isdig c \/ c = "."%char -> untab c = c.
Proof.
  intros [I| ->]; [|reflexivity]. unfold untab. rewrite clean_dig by exact I. destruct (Ascii.eqb_spec c "009"%char) as [E|E]; [|reflexivity].
  subst c. destruct I as (v & Hv). discriminate Hv.
Qed.
Lemma untab_digits s : Forall (fun c => isdig c \/ c = "."%char) s -> map untab s = s.
Proof. induction 1 as [|c s H _ IH]; [reflexivity|]. cbn [map]. rewrite IH, untab_digit by exact H. reflexivity. Qed.
Lemma word_f_plain fl x : fine x -> word_f fl x <> [] /\ Forall (fun c => c <> " "%char /\ c <> newline) (word_f fl x) /\ map untab (word_f fl x) = word_f fl x.
Proof.
  intros H. destruct (digs_chars x H) as (N & F). unfold word_f. split; [intros E; apply app_eq_nil in E; tauto|]. split.
  - apply Forall_app. split; [destruct (negb _); [repeat constructor; discriminate|destruct fl; repeat constructor; discriminate]|].
    eapply Forall_impl; [|exact F]. intros c [I| ->]; [destruct (dig_not_sep c I) as (A & B & _); auto|split; discriminate].
  - rewrite map_app. f_equal; [destruct (negb _); [reflexivity|destruct fl; reflexivity]|].
    apply untab_digits. exact F.
Qed.
Lemma conv_f_word fl w x : fl = NoFlag \/ fl = PlusFlag -> exists k, conv_f fl w (Fin x) = repeat " "%char k ++ word_f fl x.
Proof.
  intros HF. unfold conv_f, fixed2, word_f, digs. cbv zeta. fold (hundred x). eexists. f_equal. destruct (negb (Qle_bool 0 x)); [reflexivity|]. destruct HF as [->| ->]; reflexivity.
Qed.
Lemma conv_f_word0 x : fine x -> conv_f NoFlag 0 (Fin x) = word_f NoFlag x.
Proof. intros _. unfold conv_f, fixed2, word_f, digs. cbv zeta. fold (hundred x). destruct (negb (Qle_bool 0 x)); reflexivity. Qed.
Lemma untab_repeat k : map untab (repeat " "%char k) = repeat " "%char k.
Proof. induction k as [|k IH]; [reflexivity|]. cbn [repeat map]. rewrite IH. reflexivity. Qed.
Lemma untab_conv_f fl w x : fl = NoFlag \/ fl = PlusFlag -> fine x -> map untab (conv_f fl w (Fin x)) = conv_f fl w (Fin x).
Proof. intros HF H. destruct (conv_f_word fl w x HF) as (k & ->). rewrite map_app, untab_repeat. destruct (word_f_plain fl x H) as (_ & _ & ->). reflexivity. Qed.
Lemma untab_conv fl w x : small x -> map untab (conv fl w x) = conv fl w x.
Proof.
  intros H. destruct (conv_word fl w x H) as (k & ->). rewrite map_app, untab_repeat. f_equal. unfold word_of. cbv zeta. set (sg := if x <? 0 then _ else _).
  destruct (digs_of fl (w - length (sg ++ dec 10 (Z.abs x))) x H) as (_ & F & _). rewrite map_app. f_equal; [unfold sg; destruct (x <? 0); [reflexivity|destruct fl; reflexivity]|].
  apply untab_digits. eapply Forall_impl; [|exact F]. auto.
Qed.
Lemma conv_f_nonl fl w x : fl = NoFlag \/ fl = PlusFlag -> fine x -> nonl (conv_f fl w (Fin x)).
Proof.
  intros HF H. destruct (conv_f_word fl w x HF) as (k & ->). apply nonl_app.
  - apply Forall_forall. intros c Hc. apply repeat_spec in Hc. subst. discriminate.
  - eapply Forall_impl; [|apply (word_f_plain fl x H)]. intros c [_ A]. exact A.
Qed.

(** ** Words *)
Lemma words_f fl w x s : fl = NoFlag \/ fl = PlusFlag -> fine x -> split_words [] (conv_f fl w (Fin x) ++ " "%char :: s) = word_f fl x :: split_words [] s.
Proof.
  intros HF H. destruct (conv_f_word fl w x HF) as (k & ->). destruct (word_f_plain fl x H) as (N & P & _). rewrite <- app_assoc, words_blank, words_word by exact P.
  cbn [app split_words]. change ((" " =? " ")%char) with true. cbn iota. destruct (word_f fl x); [congruence|reflexivity].
Qed.
Lemma words_f_signed c x s : fine x -> split_words [c] (conv_f NoFlag 0 (Fin x) ++ " "%char :: s) = (c :: word_f NoFlag x) :: split_words [] s.
Proof.
  intros H. rewrite conv_f_word0 by exact H. destruct (word_f_plain NoFlag x H) as (N & P & _). rewrite words_word by exact P.
  cbn [app split_words]. change ((" " =? " ")%char) with true. cbn iota. reflexivity.
Qed.
Lemma words_colon fl w x s : small x -> split_words [] (conv fl w x ++ ":"%char :: " "%char :: s) = (word_of fl w x ++ [":"%char]) :: split_words [] s.
Proof.
  intros H. destruct (conv_word fl w x H) as (k & ->). destruct (word_plain fl w x H) as (N & P). rewrite <- app_assoc, words_blank, words_word by exact P.
  cbn [app split_words]. change ((":" =? " ")%char) with false. change ((" " =? " ")%char) with true. cbn iota. destruct (word_of fl w x); [congruence|reflexivity].
Qed.
Lemma sort_int fl w x ws l v d : small x -> sort_words ws = (l, v, d) -> sort_words (word_of fl w x :: ws) = (l, x :: v, d).
Proof. intros H E. cbn [sort_words]. rewrite E. destruct (word_integer fl w x H) as (-> & _). reflexivity. Qed.
Lemma sort_int_comma fl w x ws l v d : small x -> sort_words ws = (l, v, d) -> sort_words ((word_of fl w x ++ [","%char]) :: ws) = (l, x :: v, d).
Proof. intros H E. cbn [sort_words]. rewrite E. destruct (word_integer fl w x H) as (_ & -> & _). reflexivity. Qed.
Lemma sort_int_colon fl w x ws l v d : small x -> sort_words ws = (l, v, d) -> sort_words ((word_of fl w x ++ [":"%char]) :: ws) = (l, x :: v, d).
Proof. intros H E. cbn [sort_words]. rewrite E. destruct (word_integer fl w x H) as (_ & _ & ->). reflexivity. Qed.
Lemma sort_label s ws l v d : integer s = None -> hundredths s = None -> sort_words ws = (l, v, d) -> sort_words (s :: ws) = (string_of_list_ascii s :: l, v, d).
Proof. intros H H' E. cbn [sort_words]. rewrite E, H, H'. reflexivity. Qed.
Lemma sort_f fl x ws l v d : fine x -> sort_words ws = (l, v, d) -> sort_words (word_f fl x :: ws) = (l, v, shown x :: d).
Proof. intros H E. cbn [sort_words]. rewrite E. destruct (word_f_value fl x H) as (-> & ->). reflexivity. Qed.
Lemma sort_minus x ws l v d : fine x -> (0 <= x)%Q -> sort_words ws = (l, v, d) -> sort_words (("-"%char :: word_f NoFlag x) :: ws) = (l, v, - shown x :: d).
Proof. intros H P E. cbn [sort_words]. rewrite E. destruct (signed_value x H P) as ((-> & ->) & _). reflexivity. Qed.
Lemma sort_plus x ws l v d : fine x -> (0 <= x)%Q -> sort_words ws = (l, v, d) -> sort_words (("+"%char :: word_f NoFlag x) :: ws) = (l, v, shown x :: d).
Proof. intros H P E. cbn [sort_words]. rewrite E. destruct (signed_value x H P) as (_ & (-> & ->)). reflexivity. Qed.

(** ** The lines *)
Ltac expand_fw :=
  match goal with |- context [printg_aux None ?f ?a] => let t := eval lazy -[conv conv_f app Z.of_nat] in (printg_aux None f a) in change (printg_aux None f a) with t end.
Ltac fw_nonl := rewrite ?app_nil_r; repeat first [apply Forall_nil | apply conv_nonl; assumption | apply conv_f_nonl; [auto|assumption] | apply Forall_cons; [discriminate|]
  | apply nonl_app; [first [apply conv_nonl; assumption|apply conv_f_nonl; [auto|assumption]]|]].
Ltac fw_words :=
  repeat (cbn [split_words Ascii.eqb Bool.eqb app];
          first [rewrite words_conv_comma by assumption | rewrite words_colon by assumption | rewrite words_conv by assumption | rewrite words_f by (auto; assumption)
                | rewrite words_f_signed by assumption | rewrite app_nil_r, words_conv_end by assumption]);
  cbn [split_words Ascii.eqb Bool.eqb app].
Ltac fw_sort := repeat first [apply sort_int; [assumption|] | apply sort_int_comma; [assumption|] | apply sort_int_colon; [assumption|] | apply sort_f; [assumption|]
  | apply sort_minus; [assumption|assumption|] | apply sort_plus; [assumption|assumption|] | apply sort_label; [reflexivity|reflexivity|] | reflexivity].
Ltac fw_row := repeat (rewrite ?map_app; cbn [map]); rewrite ?untab_conv by assumption; rewrite ?untab_conv_f by (auto; assumption);
  repeat match goal with |- context [untab ?c] => let t := eval vm_compute in (untab c) in change (untab c) with t end;
  unfold read_trow; fw_words; fw_sort.
Lemma fw_tells s rw : nonl s -> read_trow (map untab ("F"%char :: "W"%char :: " "%char :: " "%char :: "009"%char :: s)) = rw -> tells (chars "FW  " ++ tab :: s ++ [newline]) [rw].
Proof.
  intros H E. replace (chars "FW  " ++ tab :: s ++ [newline]) with ((chars "FW  " ++ tab :: s) ++ [newline]) by (rewrite <- app_assoc; reflexivity).
  apply tells_line; [|exact E]. apply nonl_app; [repeat constructor; discriminate|]. constructor; [discriminate|exact H].
Qed.
Ltac fw_line := unfold fw; expand_fw; apply fw_tells; [fw_nonl|fw_row].

Section lines.
Variables (a b c d e f g : Z) (p q r s : Q).
Hypothesis (Ha : small a) (Hb : small b) (Hc : small c) (Hd : small d) (He : small e) (Hf : small f) (Hg : small g) (Hp : fine p) (Hq : fine q) (Hr : fine r) (Hs : fine s).
Hypothesis (Pp : (0 <= p)%Q) (Pq : (0 <= q)%Q).
Lemma f_track : tells (fw " track %3d: pt %8d [ %7.2f ]  calo eta %+7d [ %+5.2f ]  calo phi %+7d [ %+5.2f ]  calo ptErr %6d [ %7.2f ] " [I a; I b; F (Fin p); I c; F (Fin q); I d; F (Fin r); I e; F (Fin s)])
  (line ["track"; "pt"; "calo"; "eta"; "calo"; "phi"; "calo"; "ptErr"] [a; b; c; d; e] [shown p; shown q; shown r; shown s]).
Proof. fw_line. Qed.
Lemma f_em : tells (fw " EM    %3d: pt %8d [ %7.2f ]  calo eta %+7d [ %+5.2f ]  calo phi %+7d [ %+5.2f ]  calo ptErr %6d [ %7.2f ] " [I a; I b; F (Fin p); I c; F (Fin q); I d; F (Fin r); I e; F (Fin s)])
  (line ["EM"; "pt"; "calo"; "eta"; "calo"; "phi"; "calo"; "ptErr"] [a; b; c; d; e] [shown p; shown q; shown r; shown s]).
Proof. fw_line. Qed.
Lemma f_had : tells (fw " calo  %3d: pt %8d [ %7.2f ]  calo eta %+7d [ %+5.2f ]  calo phi %+7d [ %+5.2f ]  calo emPt %7d [ %7.2f ]   isEM %d " [I a; I b; F (Fin p); I c; F (Fin q); I d; F (Fin r); I e; F (Fin s); I f])
  (line ["calo"; "pt"; "calo"; "eta"; "calo"; "phi"; "calo"; "emPt"; "isEM"] [a; b; c; d; e; f] [shown p; shown q; shown r; shown s]).
Proof. fw_line. Qed.
Lemma f_mu : tells (fw " muon  %3d: pt %8d [ %7.2f ]  muon eta %+7d [ %+5.2f ]  muon phi %+7d [ %+5.2f ]   " [I a; I b; F (Fin p); I c; F (Fin q); I d; F (Fin r)])
  (line ["muon"; "pt"; "muon"; "eta"; "muon"; "phi"] [a; b; c; d] [shown p; shown q; shown r]).
Proof. fw_line. Qed.
Lemma f_mu1 : tells (fw " muon %3d linked to track %3d " [I a; I b])
  (line ["muon"; "linked"; "to"; "track"] [a; b] []).
Proof. fw_line. Qed.
Lemma f_mu0 : tells (fw " muon %3d not linked to any track" [I a])
  (line ["muon"; "not"; "linked"; "to"; "any"; "track"] [a] []).
Proof. fw_line. Qed.
Lemma f_tkem : tells (fw " track  %3d pt %7d matched to em calo %3d pt %7d" [I a; I b; I c; I d])
  (line ["track"; "pt"; "matched"; "to"; "em"; "calo"; "pt"] [a; b; c; d] []).
Proof. fw_line. Qed.
Lemma f_sum : tells (fw " emcalo %3d pt %7d has sumtk %7d" [I a; I b; I c])
  (line ["emcalo"; "pt"; "has"; "sumtk"] [a; b; c] []).
Proof. fw_line. Qed.
Lemma f_ele : tells (fw " emcalo %3d pt %7d ptdiff %7d [match window: -%.2f / +%.2f] flagged as electron" [I a; I b; I c; F (Fin p); F (Fin q)])
  (line ["emcalo"; "pt"; "ptdiff"; "match"; "window:"; "flagged"; "as"; "electron"] [a; b; c] [- shown p; shown q]).
Proof. fw_line. Qed.
Lemma f_elepho : tells (fw " emcalo %3d pt %7d ptdiff %7d [match window: -%.2f / +%.2f] flagged as electron + photon of pt %7d" [I a; I b; I c; F (Fin p); F (Fin q); I d])
  (line ["emcalo"; "pt"; "ptdiff"; "match"; "window:"; "flagged"; "as"; "electron"; "+"; "photon"; "of"; "pt"] [a; b; c; d] [- shown p; shown q]).
Proof. fw_line. Qed.
Lemma f_pion : tells (fw " emcalo %3d pt %7d ptdiff %7d [match window: -%.2f / +%.2f] flagged as pion" [I a; I b; I c; F (Fin p); F (Fin q)])
  (line ["emcalo"; "pt"; "ptdiff"; "match"; "window:"; "flagged"; "as"; "pion"] [a; b; c] [- shown p; shown q]).
Proof. fw_line. Qed.
Lemma f_pho : tells (fw " emcalo %3d pt %7d flagged as photon" [I a; I b])
  (line ["emcalo"; "pt"; "flagged"; "as"; "photon"] [a; b] []).
Proof. fw_line. Qed.
Lemma f_trkele : tells (fw " track  %3d pt %7d flagged as electron." [I a; I b])
  (line ["track"; "pt"; "flagged"; "as"; "electron."] [a; b] []).
Proof. fw_line. Qed.
Lemma f_emhad : tells (fw " emcalo %3d pt %7d isEM %d matched to hadcalo %7d pt %7d emPt %7d isEM %d" [I a; I b; I c; I d; I e; I f; I g])
  (line ["emcalo"; "pt"; "isEM"; "matched"; "to"; "hadcalo"; "pt"; "emPt"; "isEM"] [a; b; c; d; e; f; g] []).
Proof. fw_line. Qed.
Lemma f_sub : tells (fw " calo   %3d pt %7d has a subtracted pt of %7d, empt %7d -> %7d   isem %d keep %d " [I a; I b; I c; I d; I e; I f; I g])
  (line ["calo"; "pt"; "has"; "a"; "subtracted"; "pt"; "of"; "empt"; "->"; "isem"; "keep"] [a; b; c; d; e; f; g] []).
Proof. fw_line. Qed.
Lemma f_zpt : tells (fw " calo   %3d pt %7d --> discarded (zero pt)" [I a; I b])
  (line ["calo"; "pt"; "-->"; "discarded"; "zero"; "pt"] [a; b] []).
Proof. fw_line. Qed.
Lemma f_zem : tells (fw " calo   %3d pt %7d --> discarded (zero em)" [I a; I b])
  (line ["calo"; "pt"; "-->"; "discarded"; "zero"; "em"] [a; b] []).
Proof. fw_line. Qed.
Lemma f_tkhad : tells (fw " track  %3d pt %7d matched to calo' %3d pt %7d" [I a; I b; I c; I d])
  (line ["track"; "pt"; "matched"; "to"; "calo'"; "pt"] [a; b; c; d] []).
Proof. fw_line. Qed.
Lemma f_diff : tells (fw " calo'  %3d pt %7d [ %7.2f ] eta %+7d [ %+5.2f ] has a sum track pt %7d, difference %7d +- %.2f " [I a; I b; F (Fin p); I c; F (Fin q); I d; I e; F (Fin r)])
  (line ["calo'"; "pt"; "eta"; "has"; "a"; "sum"; "track"; "pt"; "difference"; "+-"] [a; b; c; d; e] [shown p; shown q; shown r]).
Proof. fw_line. Qed.
Lemma f_ne : tells (fw " calo'  %3d pt %7d ---> %7d " [I a; I b; I c])
  (line ["calo'"; "pt"; "--->"] [a; b; c] []).
Proof. fw_line. Qed.
End lines.

(** ** The values shown as decimals *)
Definition root_shown (n : Z) : Z := shown (sqrt_float n).
Definition angle_shown (n : Z) : Z := match float_angle n with Fin q => shown q | _ => 0 end.
Definition fineb (x : Q) : bool := (0 <=? hundred x) && (hundred x <? 10 ^ 12).
Lemma fineb_ok x : fineb x = true -> fine x.
Proof. unfold fineb, fine. lia. Qed.
(** a check of [n] consecutive integers *)
Fixpoint check_from (f : Z -> bool) (z : Z) (n : nat) : bool := match n with O => true | S m => f z && check_from f (z + 1) m end.
Lemma check_from_ok f n : forall z, check_from f z n = true -> forall x, z <= x < z + Z.of_nat n -> f x = true.
Proof.
  induction n as [|n IH]; intros z H x Hx; [lia|]. cbn [check_from] in H. apply andb_true_iff in H as [H0 H].
  destruct (Z.eq_dec x z) as [->|N]; [exact H0|]. apply (IH (z + 1)); [exact H|lia].
Qed.
Definition pt_good (n : Z) : bool := match float_pt n with Fin q => fineb q && (shown q =? 25 * n) | _ => false end.
Lemma pt_all : check_from pt_good 0 (Z.to_nat 32768) = true.
Proof. vm_compute. reflexivity. Qed.
Lemma pt_decimal n : 0 <= n <= 32767 -> exists q, float_pt n = Fin q /\ fine q /\ shown q = 25 * n.
Proof.
  intros H. pose proof (check_from_ok _ _ _ pt_all n) as G. rewrite Z2Nat.id in G by lia. specialize (G ltac:(lia)). unfold pt_good in G.
  destruct (float_pt n) as [q| |]; try discriminate. apply andb_true_iff in G as [G1 G2]. exists q. split; [reflexivity|]. split; [apply fineb_ok; exact G1|lia].
Qed.
Definition angle_good (n : Z) : bool := match float_angle n with Fin q => fineb q && (Z.abs (100000000 * shown q - 43633231 * n) <=? 51000000) | _ => false end.
Lemma angle_all : check_from angle_good (-512) (Z.to_nat 1024) = true.
Proof. vm_compute. reflexivity. Qed.
Lemma angle_decimal n : inS 10 n -> exists q, float_angle n = Fin q /\ fine q /\ shown q = angle_shown n.
Proof.
  intros H. unfold inS in H. change (2 ^ (10 - 1)) with 512 in H. pose proof (check_from_ok _ _ _ angle_all n) as G. rewrite Z2Nat.id in G by lia. specialize (G ltac:(lia)). unfold angle_good in G. unfold angle_shown.
  destruct (float_angle n) as [q| |]; try discriminate. apply andb_true_iff in G as [G1 G2]. exists q. split; [reflexivity|]. split; [apply fineb_ok; exact G1|reflexivity].
Qed.
Lemma angles_ok : angles_shown angle_shown.
Proof.
  intros n H. unfold inS in H. change (2 ^ (10 - 1)) with 512 in H. pose proof (check_from_ok _ _ _ angle_all n) as G. rewrite Z2Nat.id in G by lia. specialize (G ltac:(lia)). unfold angle_good in G. unfold angle_shown.
  destruct (float_angle n) as [q| |]; try discriminate. lia.
Qed.
(** ** Square roots *)
Lemma float_int n : 0 <= n < 2 ^ 31 -> let m := rneQ (rnd 24 (-149) (inject_Z n)) in 16777216 * Z.abs (m - n) <= n + 8388609.
Proof.
  intros H. cbv zeta. set (y := rnd 24 (-149) (inject_Z n)). set (m := rneQ y).
  pose proof (rnd_error 24 (-149) (inject_Z n)) as E. fold y in E. rewrite (Qabs_pos (inject_Z n)) in E by (change 0%Q with (inject_Z 0); apply injZ_le; lia).
  pose proof (rne_near y) as R. fold m in R. apply Qabs_Qle_condition in E, R.
  pose proof (p2_le (-149 - 1) (-24) ltac:(lia)) as P. change (p2 (- (24))) with (1 # 16777216)%Q in E. change (p2 (-24)) with (1 # 16777216)%Q in P.
  assert (A : (inject_Z (16777216 * (m - n)) <= inject_Z (n + 8388609))%Q /\ (inject_Z (16777216 * (n - m)) <= inject_Z (n + 8388609))%Q).
  { rewrite !inject_Z_mult, !inject_Z_plus. unfold Z.sub. rewrite !inject_Z_plus, !inject_Z_opp.
    change (inject_Z 16777216) with (16777216 # 1)%Q. change (inject_Z 8388609) with (8388609 # 1)%Q.
    set (N := inject_Z n) in *. set (M := inject_Z m) in *. clearbody N M y. set (e := p2 _) in *. clearbody e. lra. }
  rewrite <- !Zle_Qle in A. lia.
Qed.
Lemma root_near n : 0 < n < 2 ^ 31 -> let r := root_shown n in 0 <= r /\ (r - 1) * (r - 1) < 10000 * n < (r + 1) * (r + 1) /\ fine (sqrt_float n) /\ (0 <= sqrt_float n)%Q.
Proof.
  intros H. cbv zeta. pose proof (float_int n ltac:(lia)) as HM. cbv zeta in HM. unfold root_shown, sqrt_float. set (m := rneQ _) in *. cbv zeta.
  change (2 ^ 31) with 2147483648 in H.
  assert (Mpos : 0 < m) by lia. assert (Mlt : m < 2 ^ 32) by (change (2 ^ 32) with 4294967296; lia).
  pose proof (Z.log2_lt_pow2 m 32 Mpos) as L1. pose proof (Z.log2_nonneg m) as L0.
  set (k := 23 - Z.log2 m / 2). assert (Hk : 8 <= k <= 23) by (unfold k; lia).
  set (M := m * 4 ^ k). set (t := Z.sqrt M). set (s := if M - t * t <=? t then t else t + 1). set (K := 2 ^ k).
  assert (HK : 256 <= K <= 8388608) by (unfold K; split; [change 256 with (2 ^ 8)|change 8388608 with (2 ^ 23)]; apply Z.pow_le_mono_r; lia).
  assert (EM : M = m * (K * K)) by (unfold M, K; change 4 with (2 * 2); rewrite Z.pow_mul_l; reflexivity).
  assert (M1 : 0 < M) by nia. destruct (Z.sqrt_spec M ltac:(lia)) as [S1 S2]. fold t in S1, S2. unfold Z.succ in S2. assert (T0 : 0 <= t) by apply Z.sqrt_nonneg.
  assert (S : 1 <= s /\ (2 * s - 1) * (2 * s - 1) < 4 * M < (2 * s + 1) * (2 * s + 1)).
  { unfold s. destruct (Z.leb_spec (M - t * t) t); nia. }
  clearbody s. clear S1 S2 T0. clear t. destruct S as (Sp & SL & SU).
  set (x := (inject_Z s / inject_Z K)%Q). assert (KQ : (0 < inject_Z K)%Q) by (change 0%Q with (inject_Z 0); apply injZ_lt; lia).
  assert (X0 : (0 <= x)%Q) by (unfold x; apply Qle_shift_div_l; [exact KQ|]; rewrite Qmult_0_l; change 0%Q with (inject_Z 0); apply injZ_le; lia).
  assert (XK : (x * inject_Z K == inject_Z s)%Q) by (unfold x; field; intros C; rewrite C in KQ; discriminate).
  unfold shown, fine. rewrite (proj2 (Qle_bool_iff 0 x) X0). set (r := hundred x).
  assert (R : Z.abs (2 * r * K - 200 * s) <= K).
  { pose proof (rne_near ((100 # 1) * Qabs x)) as R. fold (hundred x) in R. fold r in R. rewrite (Qabs_pos x X0) in R. apply Qabs_Qle_condition in R as [R1 R2].
    assert (A : (inject_Z (2 * r * K - 200 * s) <= inject_Z K)%Q /\ (inject_Z (200 * s - 2 * r * K) <= inject_Z K)%Q).
    { unfold Z.sub. rewrite !inject_Z_plus, !inject_Z_opp, !inject_Z_mult. change (inject_Z 2) with (2 # 1)%Q. change (inject_Z 200) with (200 # 1)%Q.
      set (rq := inject_Z r) in *. set (kq := inject_Z K) in *. rewrite <- XK. clearbody rq kq. clear XK. clearbody x.
      pose proof (Qmult_le_compat_r _ _ kq R1 ltac:(lra)) as B1. pose proof (Qmult_le_compat_r _ _ kq R2 ltac:(lra)) as B2.
      assert (E1 : ((rq - (100 # 1) * x) * kq == rq * kq - (100 # 1) * (x * kq))%Q) by ring.
      rewrite E1 in B1, B2. assert (E2 : ((2 # 1) * rq * kq == (2 # 1) * (rq * kq))%Q) by ring. rewrite E2. set (u := (rq * kq)%Q) in *. set (v := (x * kq)%Q) in *. clearbody u v. split; lra. }
    rewrite <- !Zle_Qle in A. lia. }
  clearbody r. clear XK X0 KQ. 
  assert (R0 : 0 <= r) by nia.
  assert (HL : (10 * r - 7) < 0 \/ (10 * r - 7) * (10 * r - 7) < 1000000 * m).
  { destruct (Z.lt_ge_cases (10 * r - 7) 0) as [N|P]; [left; exact N|right].
    assert (A : 2 * K * (10 * r - 7) <= 1000 * (2 * s - 1)) by lia.
    assert (B : (2 * K * (10 * r - 7)) * (2 * K * (10 * r - 7)) <= (1000 * (2 * s - 1)) * (1000 * (2 * s - 1))) by (apply Z.mul_le_mono_nonneg; nia).
    assert (C : (4 * (K * K)) * ((10 * r - 7) * (10 * r - 7)) < (4 * (K * K)) * (1000000 * m)) by nia.
    apply Z.mul_lt_mono_pos_l in C; [exact C|nia]. }
  assert (HU : 1000000 * m < (10 * r + 7) * (10 * r + 7)).
  { assert (A : 1000 * (2 * s + 1) <= 2 * K * (10 * r + 7)) by lia.
    assert (B : (1000 * (2 * s + 1)) * (1000 * (2 * s + 1)) <= (2 * K * (10 * r + 7)) * (2 * K * (10 * r + 7))) by (apply Z.mul_le_mono_nonneg; nia).
    assert (C : (4 * (K * K)) * (1000000 * m) < (4 * (K * K)) * ((10 * r + 7) * (10 * r + 7))) by nia.
    apply Z.mul_lt_mono_pos_l in C; [exact C|nia]. }
  assert (RB : r < 10 ^ 12).
  { change (10 ^ 12) with 1000000000000. destruct (Z.lt_ge_cases r 1000000000000) as [N|P]; [exact N|]. destruct HL as [HL|HL]; [lia|]. nia. }
  split; [exact R0|]. split; [|split; [split; [exact R0|exact RB]|]].
  2:{ unfold x. apply Qle_shift_div_l; [change 0%Q with (inject_Z 0); apply injZ_lt; lia|]. rewrite Qmult_0_l. change 0%Q with (inject_Z 0). apply injZ_le. lia. }
  set (D := Z.abs (m - n)) in *. assert (DD : m - D <= n <= m + D) by lia. assert (D0 : 0 <= D) by lia.
  clearbody D. clear R SL SU EM M1 HK Hk. clearbody m.
  destruct (Z.eq_dec D 0) as [->|ND].
  - assert (n = m) by lia. subst m. destruct HL as [HL|HL]; nia.
  - assert (D129 : D <= 129) by lia.
    assert (W : 1000000 * D <= 6 * (10 * r + 7) - 93).
    { destruct (Z.le_gt_cases (1000000 * D) (6 * (10 * r + 7) - 93)) as [G|G]; [exact G|]. exfalso.
      assert (A : (6 * (10 * r + 7)) * (6 * (10 * r + 7)) <= (1000000 * D + 93) * (1000000 * D + 93)) by (apply Z.mul_le_mono_nonneg; lia).
      assert (B : 36 * m * 1000000 < (1000000 * D + 93) * (1000000 * D + 93)) by lia.
      assert (Q : D * D <= 129 * D) by nia. assert (Q2 : (1000000 * D + 93) * (1000000 * D + 93) <= 1000000 * (1000000 * (129 * D) + 186 * D + 1)) by lia.
      lia. }
    destruct HL as [HL|HL]; [lia|]. split; nia.
Qed.
Lemma root_zero : sqrt_float 0 = (inject_Z 0 / inject_Z (2 ^ 23))%Q.
Proof. reflexivity. Qed.
Lemma roots_ok : roots_shown root_shown.
Proof.
  intros n Hn. destruct (Z.eq_dec n 0) as [->|N]; [vm_compute; intuition discriminate|].
  destruct (root_near n ltac:(lia)) as (A & B & _). split; [exact A|]. split; [lia|intros _; exact B].
Qed.
Lemma root_fine n : 0 <= n < 2 ^ 31 -> fine (sqrt_float n) /\ (0 <= sqrt_float n)%Q.
Proof.
  intros Hn. destruct (Z.eq_dec n 0) as [->|N]; [split; [split; vm_compute; [discriminate|reflexivity]|discriminate]|].
  destruct (root_near n ltac:(lia)) as (_ & _ & A & B). auto.
Qed.
