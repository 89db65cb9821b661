(** Reading the console: pieces of lines. *)
From Coq Require Import Ascii String.
From Verif Require Import Base BaseFacts Data PFHw PFRef TestUtils SerText SerTextFacts Printf HumanRead SpecHR HRFacts HRProofs Discrete DiscreteIO SpecIO RegionLoop PFTest SpecTest Console SpecConsole.
Local Open Scope string_scope.
Local Open Scope list_scope.
Local Open Scope Z_scope.

(** ** Tidied text *)
Definition clean (s : list ascii) : Prop := map tidy s = s.
Lemma clean_app s t : clean s -> clean t -> clean (s ++ t).
Proof. unfold clean. intros H H'. rewrite map_app, H, H'. reflexivity. Qed.
Lemma clean_all s : Forall (fun c => tidy c = c) s -> clean s.
Proof. unfold clean. induction 1 as [|c s H _ IH]; [reflexivity|]. cbn [map]. rewrite H, IH. reflexivity. Qed.
Lemma clean_dig c : isdig c -> tidy c = c.
Proof.
  intros (v & Hv). unfold tidy. cbn [list_ascii_of_string existsb].
  repeat match goal with |- context [(c =? ?x)%char] => destruct (Ascii.eqb_spec c x); [subst; discriminate Hv|] end. reflexivity.
Qed.
Lemma clean_word fl w x : small x -> clean (word_of fl w x).
Proof.
  intros H. unfold word_of. cbv zeta. set (sg := if x <? 0 then _ else _). destruct (digs_of fl (w - length (sg ++ dec 10 (Z.abs x))) x H) as (_ & F & _).
  apply clean_app; [unfold sg; destruct (x <? 0); [reflexivity|destruct fl; reflexivity]|]. apply clean_all. eapply Forall_impl; [|exact F]. exact clean_dig.
Qed.
Lemma tidy_conv fl w x : small x -> map tidy (conv fl w x) = conv fl w x.
Proof.
  intros H. destruct (conv_word fl w x H) as (k & ->). apply clean_app; [|apply clean_word; exact H]. apply clean_all. apply Forall_forall. intros c Hc. apply repeat_spec in Hc. subst. reflexivity.
Qed.
Lemma tidy_nonl s : nonl s -> nonl (map tidy s).
Proof.
  unfold nonl. rewrite Forall_map. intros H. eapply Forall_impl; [|exact H]. intros c Hc. unfold tidy. destruct (existsb _ _); [discriminate|exact Hc].
Qed.

(** a text made of lines that read as given rows *)
Definition says (text : list ascii) (rows : list row) : Prop := reads (map tidy text) rows.
Lemma says_nil : says [] [].
Proof. apply reads_nil. Qed.
Lemma says_app t r t' r' : says t r -> says t' r' -> says (t ++ t') (r ++ r').
Proof. unfold says. rewrite map_app. apply reads_app. Qed.
Lemma says_line s rw : nonl s -> read_row (map tidy s) = rw -> says (s ++ [newline]) [rw].
Proof. intros H E. unfold says. rewrite map_app. apply reads_line; [apply tidy_nonl; exact H|exact E]. Qed.
Lemma says_clean t r : clean t -> reads t r -> says t r.
Proof. unfold clean, says. intros ->. auto. Qed.
Lemma says_read t r : says t r -> read_console t = r.
Proof. intros H. unfold read_console. specialize (H []). rewrite app_nil_r in H. rewrite H. apply app_nil_r. Qed.

(** ** Words *)
Lemma words_mid t : forall cur s, split_words cur (t ++ " "%char :: s) = split_words cur t ++ split_words [] s.
Proof.
  induction t as [|c t IH]; intros cur s.
  - cbn [app split_words Ascii.eqb Bool.eqb]. destruct cur; reflexivity.
  - cbn [app split_words]. destruct (c =? " ")%char; [destruct cur; rewrite IH; reflexivity|apply IH].
Qed.
Lemma labels_app ws ws' : labels (ws ++ ws') = labels ws ++ labels ws'.
Proof. induction ws as [|w ws IH]; [reflexivity|]. cbn [app labels]. destruct (integer w); rewrite IH; reflexivity. Qed.
Lemma integers_app ws ws' : integers (ws ++ ws') = integers ws ++ integers ws'.
Proof. induction ws as [|w ws IH]; [reflexivity|]. cbn [app integers]. destruct (integer w); rewrite IH; reflexivity. Qed.
Lemma row_mid t s l v : read_row s = (l, v) -> read_row (t ++ " "%char :: s) = (fst (read_row t) ++ l, snd (read_row t) ++ v).
Proof. unfold read_row. cbv zeta. intros E. injection E as <- <-. rewrite words_mid, labels_app, integers_app. reflexivity. Qed.

(** ** The messages *)
Lemma message_says what tail l v : one_line what -> nonl tail -> read_row (map tidy tail) = (l, v) ->
  says (at_slot what ("["%char :: tail ++ [newline])) [(["Mismatch"; "at"] ++ fst (read_row (map tidy (chars what))) ++ l, snd (read_row (map tidy (chars what))) ++ v)].
Proof.
  intros HW HN HR. unfold at_slot.
  replace (chars "Mismatch at " ++ chars what ++ "["%char :: tail ++ [newline]) with ((chars "Mismatch at " ++ chars what ++ "["%char :: tail) ++ [newline]) by (rewrite <- !app_assoc; reflexivity).
  apply says_line.
  - apply nonl_app; [repeat constructor; discriminate|]. apply nonl_app; [|constructor; [discriminate|exact HN]]. apply Forall_forall. intros c Hc ->. exact (HW Hc).
  - rewrite !map_app. cbn [map]. change (map tidy (chars "Mismatch at ")) with (chars "Mismatch" ++ " "%char :: chars "at" ++ [" "%char]).
    change (tidy "[") with " "%char. rewrite <- app_assoc. cbn [app].
    rewrite (row_mid (chars "Mismatch") _ (["at"] ++ fst (read_row (map tidy (chars what))) ++ l) (snd (read_row (map tidy (chars what))) ++ v)); [reflexivity|].
    rewrite <- app_assoc. cbn [app]. rewrite (row_mid (chars "at") _ (fst (read_row (map tidy (chars what))) ++ l) (snd (read_row (map tidy (chars what))) ++ v)); [reflexivity|].
    apply row_mid. exact HR.
Qed.

(** the tail of a message after its opening bracket, tidied *)
Ltac tidy_line := rewrite ?map_app; cbn [map]; rewrite ?tidy_conv by assumption;
  repeat match goal with |- context [tidy ?c] => let t := eval vm_compute in (tidy c) in change (tidy c) with t end.
Ltac expand_printf :=
  match goal with |- context [printf ?f ?a] => let t := eval lazy -[conv app Z.of_nat h_pt h_empt h_eta h_phi h_isem b2z e_pt e_pterr e_eta e_phi t_pt t_pterr t_eta t_phi t_z0 m_pt m_pterr m_eta m_phi c_pt c_eta c_phi c_id c_z0 n_pt n_eta n_phi n_id] in (printf f a) in change (printf f a) with t end.
Ltac console_row := expand_printf; repeat (rewrite ?map_app; cbn [map]); rewrite ?tidy_conv by assumption;
  repeat match goal with |- context [tidy ?c] => let t := eval vm_compute in (tidy c) in change (tidy c) with t end;
  unfold read_row; match goal with |- context [split_words [] ?s] => change (row_words (split_words [] s) = _) || idtac end; read_words; fold (row_words); read_ints.

Section lines.
Variables (a b c d e f g h i j k : Z).
Hypothesis (Ha : small a) (Hb : small b) (Hc : small c) (Hd : small d) (He : small e) (Hf : small f) (Hg : small g) (Hh : small h) (Hi : small i) (Hj : small j) (Hk : small k).
Lemma m_had : let s := printf "%d] ref vs test, hwPt % 7d % 7d   hwEmPt % 7d % 7d   hwEta %+7d %+7d   hwPhi %+7d %+7d   hwId %1d %1d" [a; b; c; d; e; f; g; h; i; j; k] in
  nonl s /\ read_row (map tidy s) = (["ref"; "vs"; "test,"] ++ had_names, [a; b; c; d; e; f; g; h; i; j; k]).
Proof. cbv zeta. split; [line_nonl|console_row]. Qed.
Lemma m_em : let s := printf "%d] ref vs test, hwPt % 7d % 7d   hwPtErr % 7d % 7d   hwEta %+7d %+7d   hwPhi %+7d %+7d" [a; b; c; d; e; f; g; h; i] in
  nonl s /\ read_row (map tidy s) = (["ref"; "vs"; "test,"] ++ em_names, [a; b; c; d; e; f; g; h; i]).
Proof. cbv zeta. split; [line_nonl|console_row]. Qed.
Lemma m_tk : let s := printf "%d] ref vs test, hwPt % 7d % 7d   hwPtErr % 7d % 7d   hwEta %+7d %+7d   hwPhi %+7d %+7d   hwZ0 %+7d %+7d" [a; b; c; d; e; f; g; h; i; j; k] in
  nonl s /\ read_row (map tidy s) = (["ref"; "vs"; "test,"] ++ tk_names, [a; b; c; d; e; f; g; h; i; j; k]).
Proof. cbv zeta. split; [line_nonl|console_row]. Qed.
Lemma m_ch : let s := printf "%d] ref vs test, hwPt % 7d % 7d   hwEta %+7d %+7d   hwPhi %+7d %+7d   hwId %1d %1d      hwZ0 %+7d %+7d   " [a; b; c; d; e; f; g; h; i; j; k] in
  nonl s /\ read_row (map tidy s) = (["ref"; "vs"; "test,"] ++ ch_names, [a; b; c; d; e; f; g; h; i; j; k]).
Proof. cbv zeta. split; [line_nonl|console_row]. Qed.
Lemma m_ne : let s := printf "%d] ref vs test, hwPt % 7d % 7d   hwEta %+7d %+7d   hwPhi %+7d %+7d   hwId %1d %1d " [a; b; c; d; e; f; g; h; i] in
  nonl s /\ read_row (map tidy s) = (["ref"; "vs"; "test,"] ++ ne_names, [a; b; c; d; e; f; g; h; i]).
Proof. cbv zeta. split; [line_nonl|console_row]. Qed.
(** the lines of the test program *)
Lemma l_passed : let s := printf "Passed test %d (%d, %d, %d, %d)" [a; b; c; d; e] in nonl s /\ read_row (map tidy s) = (["Passed"; "test"], [a; b; c; d; e]).
Proof. cbv zeta. split; [line_nonl|console_row]. Qed.
Lemma l_error : let s := printf "Error in computing test %d (%d)" [a; b] in nonl s /\ read_row (map tidy s) = (["Error"; "in"; "computing"; "test"], [a; b]).
Proof. cbv zeta. split; [line_nonl|console_row]. Qed.
Lemma l_read : let s := printf "Read region %u with %lu tracks, %lu em calo, %lu had calo, %lu muons" [a; b; c; d; e] in
  nonl s /\ read_row (map tidy s) = (["Read"; "region"; "with"; "tracks,"; "em"; "calo,"; "had"; "calo,"; "muons"], [a; b; c; d; e]).
Proof. cbv zeta. split; [line_nonl|console_row]. Qed.
Lemma l_ipattern : let s := printf "ipattern = %u" [a] in nonl s /\ read_row (map tidy s) = (["ipattern"; "="], [a]).
Proof. cbv zeta. split; [line_nonl|console_row]. Qed.
End lines.

(** ** Equality of the compared fields *)
Lemma fields_cons (x y : Z) l l' : x :: l = y :: l' <-> x = y /\ l = l'.
Proof. split; [intros [= -> ->]; auto|intros [-> ->]; reflexivity]. Qed.
Lemma fields_nil : (@nil Z = []) <-> True.
Proof. tauto. Qed.
Lemma bool_fields (x y : bool) : (if x then 1 else 0) = (if y then 1 else 0) <-> x = y.
Proof. destruct x, y; split; intros; congruence || discriminate. Qed.
Lemma same_object_iff r o : same_object r o = true <-> r = o \/ (hd 0 r = 0 /\ hd 0 o = 0).
Proof. unfold same_object. rewrite orb_true_iff, andb_true_iff, !Z.eqb_eq. destruct (list_eq_dec Z.eq_dec r o); intuition (congruence || discriminate). Qed.
Ltac same_fields := apply eq_true_iff_eq; rewrite same_object_iff; cbn [hd];
  match goal with |- (if ?x =? 0 then _ else _) = true <-> _ => destruct (Z.eqb_spec x 0) end;
  rewrite ?fields_cons, ?fields_nil, ?bool_fields, ?andb_true_iff, ?Z.eqb_eq, ?eqb_true_iff; [split; [intros; right; auto|intros [?|?]; lia]|tauto].
Lemma had_same r o : had_equals r o = same_object (had_fields r) (had_fields o).
Proof. unfold had_equals, had_fields. same_fields. Qed.
Lemma em_same r o : em_equals r o = same_object (em_fields r) (em_fields o).
Proof. unfold em_equals, em_fields. same_fields. Qed.
Lemma track_same r o : track_equals r o = same_object (tk_fields r) (tk_fields o).
Proof. unfold track_equals, tk_fields. same_fields. Qed.
Lemma mu_same r o : mu_equals r o = same_object (mu_fields r) (mu_fields o).
Proof. unfold mu_equals, mu_fields. same_fields. Qed.
Lemma ch_same r o : pf_equals_ch r o = same_object (ch_fields r) (ch_fields o).
Proof. unfold pf_equals_ch, ch_fields. same_fields. Qed.
Lemma ne_same r o : pf_equals_ne r o = same_object (ne_fields r) (ne_fields o).
Proof. unfold pf_equals_ne, ne_fields. same_fields. Qed.

Lemma compare_says (equal : bool) what names idx rv ov text : equal = same_object rv ov -> says text [mismatch_row what names idx rv ov] ->
  says (if negb equal then text else []) (compare_rows what names idx rv ov).
Proof. intros -> H. unfold compare_rows. destruct (same_object rv ov); [apply says_nil|exact H]. Qed.
Lemma bracket f a : printf_nl (String "[" f) a = "["%char :: printf f a ++ [newline].
Proof. reflexivity. Qed.
Lemma slot_says what names idx r o f a : one_line what -> nonl (printf f a) -> read_row (map tidy (printf f a)) = (["ref"; "vs"; "test,"] ++ names, idx :: side_by_side r o) ->
  says (at_slot what (printf_nl (String "[" f) a)) [mismatch_row what names idx r o].
Proof. intros HW HN HR. rewrite bracket. exact (message_says what _ _ _ HW HN HR). Qed.
Section messages.
Variables (what : string) (idx : Z).
Hypothesis (HW : one_line what) (HI : small idx).
Lemma had_says r o : had_ok r -> had_ok o -> says (had_message what idx r o) (compare_rows what had_names idx (had_fields r) (had_fields o)).
Proof.
  intros (R1 & R2 & R3 & R4) (O1 & O2 & O3 & O4). apply compare_says; [apply had_same|].
  destruct (m_had idx (h_pt r) (h_pt o) (h_empt r) (h_empt o) (h_eta r) (h_eta o) (h_phi r) (h_phi o) (b2z (h_isem r)) (b2z (h_isem o))) as (A & B); try smalls. apply slot_says; [exact HW|exact A|rewrite B; reflexivity].
Qed.
Lemma em_says r o : em_ok r -> em_ok o -> says (em_message what idx r o) (compare_rows what em_names idx (em_fields r) (em_fields o)).
Proof.
  intros (R1 & R2 & R3 & R4) (O1 & O2 & O3 & O4). apply compare_says; [apply em_same|].
  destruct (m_em idx (e_pt r) (e_pt o) (e_pterr r) (e_pterr o) (e_eta r) (e_eta o) (e_phi r) (e_phi o)) as (A & B); try smalls. apply slot_says; [exact HW|exact A|rewrite B; reflexivity].
Qed.
Lemma track_says r o : tk_ok r -> tk_ok o -> says (track_message what idx r o) (compare_rows what tk_names idx (tk_fields r) (tk_fields o)).
Proof.
  intros (R1 & R2 & R3 & R4 & R5) (O1 & O2 & O3 & O4 & O5). apply compare_says; [apply track_same|].
  destruct (m_tk idx (t_pt r) (t_pt o) (t_pterr r) (t_pterr o) (t_eta r) (t_eta o) (t_phi r) (t_phi o) (t_z0 r) (t_z0 o)) as (A & B); try smalls. apply slot_says; [exact HW|exact A|rewrite B; reflexivity].
Qed.
Lemma mu_says r o : mu_ok r -> mu_ok o -> says (mu_message what idx r o) (compare_rows what em_names idx (mu_fields r) (mu_fields o)).
Proof.
  intros (R1 & R2 & R3 & R4) (O1 & O2 & O3 & O4). apply compare_says; [apply mu_same|].
  destruct (m_em idx (m_pt r) (m_pt o) (m_pterr r) (m_pterr o) (m_eta r) (m_eta o) (m_phi r) (m_phi o)) as (A & B); try smalls. apply slot_says; [exact HW|exact A|rewrite B; reflexivity].
Qed.
Lemma ch_says r o : ch_ok r -> ch_ok o -> says (ch_message what idx r o) (compare_rows what ch_names idx (ch_fields r) (ch_fields o)).
Proof.
  intros (R1 & R2 & R3 & R4 & R5) (O1 & O2 & O3 & O4 & O5). apply compare_says; [apply ch_same|].
  destruct (m_ch idx (c_pt r) (c_pt o) (c_eta r) (c_eta o) (c_phi r) (c_phi o) (c_id r) (c_id o) (c_z0 r) (c_z0 o)) as (A & B); try smalls. apply slot_says; [exact HW|exact A|rewrite B; reflexivity].
Qed.
Lemma ne_says r o : ne_ok r -> ne_ok o -> says (ne_message what idx r o) (compare_rows what ne_names idx (ne_fields r) (ne_fields o)).
Proof.
  intros (R1 & R2 & R3 & R4) (O1 & O2 & O3 & O4). apply compare_says; [apply ne_same|].
  destruct (m_ne idx (n_pt r) (n_pt o) (n_eta r) (n_eta o) (n_phi r) (n_phi o) (n_id r) (n_id o)) as (A & B); try smalls. apply slot_says; [exact HW|exact A|rewrite B; reflexivity].
Qed.
End messages.
