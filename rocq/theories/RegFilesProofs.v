(** The text files of the regionizer test program read back. *)
From Coq Require Import Ascii String.
From Verif Require Import Base BaseFacts TabFacts MapiFacts Data PFHw SerText SerTextFacts Printf SpecHR HRFacts HRProofs SpecRegion Regionizer
  EncFacts RegTest RegFiles RegTestProofs RegTestRun SpecRegFiles.
Local Open Scope string_scope.
Local Open Scope list_scope.
Local Open Scope Z_scope.

(** ** Blank-separated integers *)
Definition blank_start (s : list ascii) : Prop := s = [] \/ exists r, s = " "%char :: r.
(** [s] is empty or starts with a blank, and reads as the integers [vs] *)
Definition ints (s : list ascii) (vs : list Z) : Prop :=
  blank_start s /\ nonl s /\ exists ws, all_integers ws = Some vs /\ forall rest, blank_start rest -> split_words [] (s ++ rest) = ws ++ split_words [] rest.

Lemma all_integers_app ws ws' vs vs' : all_integers ws = Some vs -> all_integers ws' = Some vs' -> all_integers (ws ++ ws') = Some (vs ++ vs').
Proof.
  revert vs. induction ws as [|w ws IH]; intros vs H H'; [injection H as <-; exact H'|]. cbn [all_integers app] in *. destruct (integer w); [|discriminate]. destruct (all_integers ws) as [v|]; [|discriminate].
  injection H as <-. rewrite (IH v eq_refl H'). reflexivity.
Qed.
Lemma blank_app s t : blank_start s -> blank_start t -> blank_start (s ++ t).
Proof. intros [->|[r ->]] H; [exact H|]. right. eexists. reflexivity. Qed.
Lemma ints_nil : ints [] [].
Proof. split; [now left|]. split; [constructor|]. exists []. split; [reflexivity|]. reflexivity. Qed.
Lemma ints_app s t vs ws : ints s vs -> ints t ws -> ints (s ++ t) (vs ++ ws).
Proof.
  intros (B1 & N1 & w1 & I1 & R1) (B2 & N2 & w2 & I2 & R2). split; [apply blank_app; assumption|]. split; [apply nonl_app; assumption|]. exists (w1 ++ w2).
  split; [apply all_integers_app; assumption|]. intros rest HR. rewrite <- !app_assoc. rewrite R1 by (apply blank_app; assumption). rewrite R2 by exact HR. reflexivity.
Qed.
Lemma ints_blank s vs : ints s vs -> ints (" "%char :: s) vs.
Proof.
  intros (B & N & w & I & R). split; [right; eexists; reflexivity|]. split; [constructor; [discriminate|exact N]|]. exists w. split; [exact I|]. intros rest HR. cbn [app split_words Ascii.eqb Bool.eqb]. apply R. exact HR.
Qed.
Lemma ints_conv fl w x s vs : small x -> ints s vs -> ints (" "%char :: conv fl w x ++ s) (x :: vs).
Proof.
  intros Hx (B & N & ws & I & R). split; [right; eexists; reflexivity|]. split; [constructor; [discriminate|apply nonl_app; [apply conv_nonl; exact Hx|exact N]]|].
  exists (word_of fl w x :: ws). destruct (word_integer fl w x Hx) as (W & _). split; [cbn [all_integers]; rewrite W, I; reflexivity|].
  intros rest HR. cbn [app split_words Ascii.eqb Bool.eqb]. rewrite <- app_assoc. cbn [app]. rewrite <- R by exact HR.
  destruct (blank_app s rest B HR) as [E|[r E]].
  - rewrite E, app_nil_r, words_conv_end by exact Hx. reflexivity.
  - rewrite E, words_conv by exact Hx. reflexivity.
Qed.
Lemma ints_conv_end fl w x : small x -> ints (" "%char :: conv fl w x) [x].
Proof. intros H. rewrite <- (app_nil_r (conv fl w x)). apply ints_conv; [exact H|apply ints_nil]. Qed.
Lemma ints_flat {T} (f : T -> list ascii) (g : T -> list Z) l : (forall x, In x l -> ints (f x) (g x)) -> ints (List.concat (map f l)) (flat_map g l).
Proof. induction l as [|x l IH]; intros H; [apply ints_nil|]. cbn [map List.concat flat_map]. apply ints_app; [apply H; now left|apply IH; intros; apply H; now right]. Qed.

Ltac read_ints' := expand_printf; rewrite ?app_nil_r; repeat first [apply ints_conv_end; smalls | apply ints_conv; [smalls|] | apply ints_blank].
Lemma ints_had o : had_ok o -> ints (dump_had o) (had_vals o).
Proof. intros (? & ? & ? & ?). unfold dump_had, had_vals. change (if h_isem o then 1 else 0) with (b2z (h_isem o)). read_ints'. Qed.
Lemma ints_em o : em_ok o -> ints (dump_em o) (em_vals o).
Proof. intros (? & ? & ? & ?). unfold dump_em, em_vals. read_ints'. Qed.
Lemma ints_tk o : tk_ok o -> ints (dump_tk o) (tk_vals o).
Proof. intros (? & ? & ? & ? & ?). unfold dump_tk, tk_vals. read_ints'. Qed.
Lemma ints_mu o : mu_ok o -> ints (dump_mu o) (mu_vals o).
Proof. intros (? & ? & ? & ?). unfold dump_mu, mu_vals. read_ints'. Qed.
Lemma clear_ok : had_ok had0 /\ em_ok em0 /\ tk_ok tk0 /\ mu_ok mu0.
Proof. unfold had_ok, em_ok, tk_ok, mu_ok, inS. cbn. lia. Qed.

(** ** Lines *)
Lemma frame_head n s vs : small n -> ints s vs -> let l := chars "Frame " ++ conv ZeroFlag 4 n ++ chars " :" ++ s in nonl l /\ read_frame l = Some (n, vs).
Proof.
  intros Hn (B & N & ws & I & R). cbv zeta. split.
  { apply nonl_app; [lit|]. apply nonl_app; [apply conv_nonl; exact Hn|]. apply nonl_app; [lit|exact N]. }
  unfold read_frame. change (chars "Frame " ++ conv ZeroFlag 4 n ++ chars " :" ++ s) with (chars "Frame" ++ " "%char :: (conv ZeroFlag 4 n ++ " "%char :: (":"%char :: s))).
  cbn [chars list_ascii_of_string app split_words Ascii.eqb Bool.eqb]. rewrite words_conv by exact Hn. cbn [split_words Ascii.eqb Bool.eqb app].
  assert (E : split_words [":"%char] s = [":"%char] :: ws).
  { specialize (R [] (or_introl eq_refl)). rewrite !app_nil_r in R. destruct B as [->|[r ->]]; cbn [split_words Ascii.eqb Bool.eqb] in *; congruence. }
  rewrite E. cbn [string_of_list_ascii String.eqb Ascii.eqb Bool.eqb andb]. destruct (word_integer ZeroFlag 4 n Hn) as (W & _). rewrite W, I. reflexivity.
Qed.
Definition good_line (r : res (list ascii)) (n : Z) (vs : list Z) : Prop := exists l, r = Ok (l ++ [newline]) /\ nonl l /\ read_frame l = Some (n, vs).
Definition reads_f (text : list ascii) (rows : list (option (Z * list Z))) : Prop := forall rest, read_frames (text ++ rest) = rows ++ read_frames rest.
Lemma mapM_row {S T} (f : S -> T) (row : list S) n : length row = n -> mapM (fun i => do o <- rd row i; Ok (f o)) (seq 0 n) = Ok (map f row).
Proof.
  intros <-. apply mapM_nth; [rewrite seq_length, map_length; reflexivity|]. intros i x y Hx Hy. pose proof (proj1 (nth_error_Some (seq 0 (length row)) i) ltac:(congruence)) as L. rewrite seq_length in L.
  rewrite (nth_error_nth' _ 0%nat), seq_nth in Hx by (rewrite ?seq_length; lia). injection Hx as <-. rewrite nth_error_map in Hy. unfold rd. cbn [Nat.add]. destruct (nth_error row i); [|discriminate]. cbn in *. congruence.
Qed.
Lemma rd_nth {T} n m (l : list (list T)) i : dims2 n m l -> (i < n)%nat -> rd l i = Ok (nth i l []) /\ length (nth i l []) = m.
Proof. intros D Hi. destruct (rd_dims n m l i D Hi) as (a & E & L). unfold rd in *. destruct (nth_error l i) eqn:F; [|discriminate]. injection E as ->. rewrite (nth_error_nth _ _ _ F). auto. Qed.
Lemma region_dump {T} (dump : T -> list ascii) clr n ir (regions : list (list T)) : dims2 18 n regions -> (ir < 18)%nat -> dump_region dump clr n ir regions = Ok (List.concat (map dump (nth ir regions []))).
Proof.
  intros D Hi. destruct (rd_nth _ _ _ ir D Hi) as (E & L). unfold dump_region. change N_OUT_REGIONS with 18%nat. rewrite (proj2 (Nat.ltb_lt ir 18) Hi).
  rewrite (mapM_ext _ (fun i => do o <- rd (nth ir regions []) i; Ok (dump o))) by (intros; rewrite E; reflexivity). rewrite mapM_row by exact L. reflexivity.
Qed.
Lemma ok_nth {T} (P : T -> Prop) (l : list (list T)) i x : Forall (Forall P) l -> In x (nth i l []) -> P x.
Proof. intros H Hx. destruct (nth_in_or_default i l []) as [Hin|E]; [|rewrite E in Hx; destruct Hx]. rewrite Forall_forall in H. specialize (H _ Hin). rewrite Forall_forall in H. auto. Qed.

Lemma out_line c t n ic : test_sized c t -> test_ok t -> small n -> (ic < 36)%nat -> good_line (dump_out_line c t n ic) n (region_vals t (ic / 2)).
Proof.
  intros (_ & _ & _ & _ & _ & D1 & D2 & D3 & D4) (_ & _ & _ & _ & O1 & O2 & O3 & O4) Hn Hic. assert (Hi : (ic / 2 < 18)%nat) by lia. unfold dump_out_line.
  rewrite (region_dump _ _ _ _ _ D1 Hi), (region_dump _ _ _ _ _ D2 Hi), (region_dump _ _ _ _ _ D3 Hi), (region_dump _ _ _ _ _ D4 Hi). cbn [bind].
  set (i := (ic / 2)%nat) in *.
  destruct (frame_head n (List.concat (map dump_had (nth i (rt_calo t) [])) ++ List.concat (map dump_em (nth i (rt_em t) [])) ++ List.concat (map dump_tk (nth i (rt_tk t) [])) ++ List.concat (map dump_mu (nth i (rt_mu t) [])) ++ printf "       %d" [1]) (region_vals t i) Hn) as (N & R).
  { unfold region_vals. repeat apply ints_app.
    - apply ints_flat. intros x Hx. apply ints_had. exact (ok_nth _ _ _ _ O1 Hx).
    - apply ints_flat. intros x Hx. apply ints_em. exact (ok_nth _ _ _ _ O2 Hx).
    - apply ints_flat. intros x Hx. apply ints_tk. exact (ok_nth _ _ _ _ O3 Hx).
    - apply ints_flat. intros x Hx. apply ints_mu. exact (ok_nth _ _ _ _ O4 Hx).
    - assert (small 1) by (unfold small; lia). read_ints'. }
  eexists. split; [|split; [exact N|exact R]]. unfold printf_nl. rewrite <- !app_assoc. f_equal.
  change (printf "Frame %04d :" [n]) with (chars "Frame " ++ conv ZeroFlag 4 n ++ chars " :"). rewrite <- !app_assoc. reflexivity.
Qed.
Lemma mapM_sectors {S T} (f : S -> res T) (g : S -> T) (arr : list S) n : length arr = n -> (forall row, In row arr -> f row = Ok (g row)) -> mapM (fun is => do row <- rd arr is; f row) (seq 0 n) = Ok (map g arr).
Proof.
  intros <- H. apply mapM_nth; [rewrite seq_length, map_length; reflexivity|]. intros i x y Hx Hy. pose proof (proj1 (nth_error_Some (seq 0 (length arr)) i) ltac:(congruence)) as L. rewrite seq_length in L.
  rewrite (nth_error_nth' _ 0%nat), seq_nth in Hx by (rewrite ?seq_length; lia). injection Hx as <-. rewrite nth_error_map in Hy. unfold rd. cbn [Nat.add]. destruct (nth_error arr i) eqn:E; [|discriminate]. cbn in *. rewrite H by (eapply nth_error_In; exact E). congruence.
Qed.
Lemma dump_slot {T} (dump : T -> list ascii) clr ic n i (row : list T) : (n <= length row)%nat -> dump_if dump clr (ic mod 2 =? 0)%nat n i row = Ok (dump (slot clr ic n i row)).
Proof.
  intros HL. unfold dump_if, slot. rewrite andb_comm. destruct (ic mod 2 =? 0)%nat; cbn [andb]; [|reflexivity]. destruct (Nat.ltb_spec i n); [|reflexivity].
  unfold rd. rewrite (nth_error_nth' row clr) by lia. reflexivity.
Qed.
Lemma slot_ok {T} (P : T -> Prop) clr ic n i (row : list T) : P clr -> Forall P row -> P (slot clr ic n i row).
Proof. intros H0 H. unfold slot. destruct ((ic mod 2 =? 0)%nat && (i <? n)%nat); [|exact H0]. rewrite Forall_forall in H. destruct (nth_in_or_default i row clr) as [Hin| ->]; auto. Qed.

Lemma in_line c test t n ic : test_sized c t -> test_ok t -> small n -> small (Z.of_nat test) -> (ic < 36)%nat -> good_line (dump_in_line c test (rt_ins t) n ic) n (in_vals c test t ic).
Proof.
  intros (D1 & D2 & D3 & _ & D4 & _) (O1 & O2 & O3 & O4 & _) Hn Ht Hic. destruct clear_ok as (Z1 & Z2 & Z3 & Z4). unfold dump_in_line. cbv zeta.
  change N_IN_SECTORS with 12%nat. change N_MUON_SECTORS with 4%nat. change NCALO_PER_SECTOR with 15%nat. change NEMCALO_PER_SECTOR with 12%nat. change (NTRACK_PER_SECTOR / 2)%nat with 10%nat.
  set (i := rt_ins t) in *. destruct D1 as [L1 M1], D2 as [L2 M2], D3 as [L3 M3], D4 as [L4 M4].
  rewrite (mapM_sectors _ (fun row => dump_had (slot had0 ic 15 (ic / 2) row)) _ _ L1) by (intros row Hr; apply dump_slot; rewrite (M1 row Hr); lia). cbn [bind].
  rewrite (mapM_sectors _ (fun row => dump_em (slot em0 ic 12 (ic / 2) row)) _ _ L2) by (intros row Hr; apply dump_slot; rewrite (M2 row Hr); lia). cbn [bind].
  rewrite (mapM_sectors _ (fun row => dump_tk (slot tk0 ic 10 (ic + 0) row) ++ dump_tk (slot tk0 ic 10 (ic + 1) row)) _ _ L3) by (intros row Hr; rewrite !dump_slot by (rewrite (M3 row Hr); lia); reflexivity). cbn [bind].
  rewrite (mapM_sectors _ (fun row => dump_mu (slot mu0 ic (NMU c) (ic / 2) row)) _ _ L4) by (intros row Hr; apply dump_slot; rewrite (M4 row Hr); lia). cbn [bind].
  match goal with |- good_line (Ok (_ ++ ?s1 ++ ?s2 ++ ?s3 ++ ?s4 ++ _)) _ _ =>
    destruct (frame_head n ((" "%char :: conv NoFlag 2 (Z.of_nat test) ++ " "%char :: conv NoFlag 2 (Z.of_nat (ic / 2))) ++ s1 ++ s2 ++ s3 ++ s4) (in_vals c test t ic) Hn) as (N & R) end.
  { unfold in_vals. cbv zeta. fold i. repeat apply ints_app.
    - apply ints_conv; [exact Ht|]. apply ints_conv_end. unfold small. lia.
    - apply ints_flat. intros x Hx. apply ints_had. apply slot_ok; [exact Z1|]. rewrite Forall_forall in O1. auto.
    - apply ints_flat. intros x Hx. apply ints_em. apply slot_ok; [exact Z2|]. rewrite Forall_forall in O2. auto.
    - apply (ints_flat (fun row => dump_tk (slot tk0 ic 10 (ic + 0) row) ++ dump_tk (slot tk0 ic 10 (ic + 1) row))). intros x Hx. rewrite Nat.add_0_r. apply ints_app; apply ints_tk; (apply slot_ok; [exact Z3|]; rewrite Forall_forall in O3; auto).
    - apply ints_flat. intros x Hx. apply ints_mu. apply slot_ok; [exact Z4|]. rewrite Forall_forall in O4. auto. }
  eexists. split; [|split; [exact N|exact R]].
  change (printf "Frame %04d : %2d %2d" [n; Z.of_nat test; Z.of_nat (ic / 2)]) with (chars "Frame " ++ conv ZeroFlag 4 n ++ chars " :" ++ " "%char :: conv NoFlag 2 (Z.of_nat test) ++ " "%char :: conv NoFlag 2 (Z.of_nat (ic / 2)) ++ []).
  rewrite app_nil_r. f_equal. rewrite <- !app_assoc. cbn [app]. rewrite <- !app_assoc. cbn [app]. reflexivity.
Qed.

(** ** Files *)
Lemma reads_f_line l r : nonl l -> read_frame l = r -> reads_f (l ++ [newline]) [r].
Proof. intros H <- rest. unfold read_frames. rewrite <- app_assoc. cbn [app]. rewrite split_line by exact H. reflexivity. Qed.
Lemma reads_f_app t r t' r' : reads_f t r -> reads_f t' r' -> reads_f (t ++ t') (r ++ r').
Proof. intros H H' rest. rewrite <- !app_assoc, H, H'. reflexivity. Qed.

Definition test_frames {T} (vals : nat -> T -> nat -> list Z) (k : nat) (t : T) (n : nat) : list (option (Z * list Z)) := map (fun ic => Some (Z.of_nat (36 * k + ic + 1), vals (S k) t ic)) (seq 0 n).
Lemma test_lines (line : nat -> rtest -> Z -> nat -> res (list ascii)) vals k t : Z.of_nat (36 * (k + 1)) < 2 ^ 31 ->
  (forall ic, (ic < 36)%nat -> good_line (line (S k) t (Z.of_nat (36 * k + ic + 1)) ic) (Z.of_nat (36 * k + ic + 1)) (vals (S k) t ic)) ->
  forall text, exists more, foldM (fun '(frame, text) ic => do frame <- i32 (frame + 1); do l <- line (S k) t frame ic; Ok (frame, text ++ l)) (seq 0 36) (Z.of_nat (36 * k), text) = Ok (Z.of_nat (36 * (k + 1)), text ++ more) /\
    reads_f more (test_frames vals k t 36).
Proof.
  intros HK HL text.
  assert (G : forall n, (n <= 36)%nat -> exists more, foldM (fun '(frame, text) ic => do frame <- i32 (frame + 1); do l <- line (S k) t frame ic; Ok (frame, text ++ l)) (seq 0 n) (Z.of_nat (36 * k), text) = Ok (Z.of_nat (36 * k + n), text ++ more) /\ reads_f more (test_frames vals k t n)).
  { induction n as [|n IH]; intros Hn; [exists []; rewrite app_nil_r, Nat.add_0_r; split; [reflexivity|intros rest; reflexivity]|].
    destruct IH as (more & E & R); [lia|]. destruct (HL n ltac:(lia)) as (l & EL & NL & RL). exists (more ++ l ++ [newline]).
    rewrite seq_S, foldM_app, E. cbn [bind foldM Nat.add]. replace (Z.of_nat (36 * k + n) + 1) with (Z.of_nat (36 * k + n + 1)) by lia.
    rewrite i32_Ok by (change (2 ^ 31) with 2147483648 in HK; lia). cbn [bind]. rewrite EL. cbn [bind]. split; [rewrite (app_assoc text more); f_equal; f_equal; lia|]. unfold test_frames. rewrite seq_S, map_app. apply reads_f_app; [exact R|]. cbn [map Nat.add]. apply reads_f_line; assumption. }
  destruct (G 36%nat (le_n _)) as (more & E & R). exists more. split; [|exact R]. rewrite E. do 3 f_equal. lia.
Qed.
Lemma file_lines (line : nat -> rtest -> Z -> nat -> res (list ascii)) vals tests : Z.of_nat (36 * length tests) < 2 ^ 31 ->
  (forall k t ic, nth_error tests k = Some t -> (ic < 36)%nat -> good_line (line (S k) t (Z.of_nat (36 * k + ic + 1)) ic) (Z.of_nat (36 * k + ic + 1)) (vals (S k) t ic)) ->
  exists text, dump_file line tests = Ok text /\ read_frames text = frames vals tests.
Proof.
  intros HK HL. unfold dump_file. change N_CLOCKS with 36%nat.
  assert (G : exists text, foldM (fun st p => foldM (fun '(frame, text) ic => do frame <- i32 (frame + 1); do l <- line (S (fst p)) (snd p) frame ic; Ok (frame, text ++ l)) (seq 0 36) st) (indexed tests) (0, []) = Ok (Z.of_nat (36 * length tests), text) /\ reads_f text (frames vals tests)).
  { induction tests as [|t tests IH] using rev_ind; [exists []; split; [reflexivity|intros rest; reflexivity]|].
    rewrite app_length in *. cbn [length] in *. destruct IH as (text & E & R); [lia|intros k t' ic Hk; apply HL; rewrite nth_error_app1; [exact Hk|apply nth_error_Some; congruence]|].
    destruct (test_lines line vals (length tests) t ltac:(lia)) with (text := text) as (more & E2 & R2); [intros ic Hic; apply HL; [rewrite nth_error_app2, Nat.sub_diag by lia; reflexivity|exact Hic]|].
    exists (text ++ more). rewrite indexed_snoc, foldM_app, E. cbn [bind foldM fst snd Nat.add]. rewrite E2. cbn [bind].
    split; [do 3 f_equal; lia|]. unfold frames. rewrite mapi_snoc, concat_app. cbn [List.concat]. rewrite app_nil_r. apply reads_f_app; [exact R|exact R2]. }
  destruct G as (text & E & R). rewrite E. cbn [bind]. exists text. split; [reflexivity|]. specialize (R []). rewrite !app_nil_r in R. exact R.
Qed.
Definition few_tests (tests : list rtest) : Prop := Z.of_nat (36 * length tests) < 2 ^ 31.
Lemma frame_small tests k t ic : few_tests tests -> nth_error tests k = Some t -> (ic < 36)%nat -> small (Z.of_nat (36 * k + ic + 1)) /\ small (Z.of_nat (S k)).
Proof. unfold few_tests, small. intros F H Hi. pose proof (proj1 (nth_error_Some tests k) ltac:(congruence)). lia. Qed.
Lemma c59_out c tests : few_tests tests -> Forall (test_sized c) tests -> Forall test_ok tests -> exists text, dump_out_file c tests = Ok text /\ read_frames text = out_table tests.
Proof.
  intros F S O. unfold dump_out_file, out_table. apply (file_lines _ (fun _ t ic => region_vals t (ic / 2))); [exact F|]. intros k t ic Hk Hic. destruct (frame_small tests k t ic F Hk Hic).
  assert (In t tests) by (eapply nth_error_In; exact Hk). rewrite Forall_forall in S, O. apply out_line; auto.
Qed.
Lemma c59_in c tests : few_tests tests -> Forall (test_sized c) tests -> Forall test_ok tests -> exists text, dump_in_file c tests = Ok text /\ read_frames text = in_table c tests.
Proof.
  intros F S O. unfold dump_in_file, in_table. apply file_lines; [exact F|]. intros k t ic Hk Hic. destruct (frame_small tests k t ic F Hk Hic).
  assert (In t tests) by (eapply nth_error_In; exact Hk). rewrite Forall_forall in S, O. apply in_line; auto.
Qed.
