(** Symmetries of the particle-flow specification in 16-bit arithmetic. *)
From Coq Require Import Permutation Sorting.Sorted.
From Verif Require Import Base BaseFacts Data PFHw PFRef SpecLink LinkFacts SpecSort RankFacts SortProofs MapiFacts SpecPF SpecPFWrap SpecPFRef SpecSym SymFacts PFWrap PFWrapFacts PFRefWrap PFRefAgree.

Lemma got {A} (f : A -> A) p l l' j y : rearranged f p l l' -> nth_error l' j = Some y -> exists x, nth_error l (p j) = Some x /\ y = f x /\ (j < length l)%nat.
Proof.
  intros (_ & L & H) Y. assert (J : (j < length l)%nat) by (rewrite <- L; apply nth_error_Some; congruence). rewrite H in Y by exact J. destruct (nth_error l (p j)) as [x|]; [|discriminate]. injection Y as <-. exists x. auto.
Qed.
Lemma cand_corr {A} (f : A -> A) p l l' (g g' : A -> option Z) : rearranged f p l l' -> (forall x, g' (f x) = g x) -> forall j, (j < length l)%nat -> nth_error (map g' l') j = nth_error (map g l) (p j).
Proof. intros (_ & L & H) E j J. rewrite !nth_error_map', H by exact J. destruct (nth_error l (p j)); cbn; [rewrite E|]; reflexivity. Qed.
Lemma choose {A} (f : A -> A) p l l' (g g' : A -> option Z) : rearranged f p l l' -> (forall x, g' (f x) = g x) -> winner_first p (map g l) -> chosen p (length l) (best (map g l)) (best (map g' l')).
Proof. intros R E U. apply best_chosen; [apply R|apply map_length|rewrite map_length; apply R|apply (cand_corr f); assumption|exact U]. Qed.
Lemma existsb_corr {A} (f : A -> A) p l l' (g g' : A -> bool) : rearranged f p l l' -> (forall x, In x l -> g' (f x) = g x) -> existsb g' l' = existsb g l.
Proof.
  intros R E. apply eq_true_iff_eq. rewrite !existsb_exists. split; intros (y & I & G).
  - apply In_nth_error in I as (j & J). destruct (got _ _ _ _ _ _ R J) as (x & X & -> & _). apply nth_error_In in X. rewrite E in G by exact X. exists x. auto.
  - apply In_nth_error in I as (i & X). destruct R as (P & L & H). destruct (p_onto _ _ P i) as (j & Hj & Ej); [apply nth_error_Some; congruence|]. exists (f y). specialize (H j Hj). rewrite Ej, X in H. cbn in H. split; [eapply nth_error_In; exact H|]. rewrite E; [exact G|]. eapply nth_error_In; exact X.
Qed.
Lemma existsb_indexed {A} (f : A -> A) p l l' (g g' : nat -> A -> bool) : rearranged f p l l' -> (forall j x, (j < length l)%nat -> nth_error l (p j) = Some x -> g' j (f x) = g (p j) x) ->
  existsb (fun '(k, e) => g' k e) (indexed l') = existsb (fun '(k, e) => g k e) (indexed l).
Proof.
  intros R E. apply eq_true_iff_eq. rewrite !existsb_exists. split; intros ((i & y) & I & G); apply in_indexed in I.
  - destruct (got _ _ _ _ _ _ R I) as (x & X & -> & J). exists (p i, x). split; [apply in_indexed; exact X|]. rewrite E in G; assumption.
  - destruct R as (P & L & H). destruct (p_onto _ _ P i) as (j & Hj & Ej); [apply nth_error_Some; congruence|]. specialize (H j Hj). rewrite Ej, I in H. cbn in H. exists (j, f y). split; [apply in_indexed; exact H|]. rewrite E; rewrite ?Ej; assumption.
Qed.

Section sim.
Variables (mv : motion) (pe ph pt pm : nat -> nat).
Variables (em em' : list EmCalo) (had had' : list HadCalo) (track track' : list Tk) (mu mu' : list Mu).
Hypothesis ISO : isometry mv.
Hypothesis RE : rearranged (move_em mv) pe em em'.
Hypothesis RH : rearranged (move_had mv) ph had had'.
Hypothesis RT : rearranged (move_tk mv) pt track track'.
Hypothesis RM : rearranged (move_mu mv) pm mu mu'.
Hypothesis TE : Forall (fun tk => winner_first pe (cand_tk_em em tk)) track.
Hypothesis TEH : Forall (fun e => winner_first ph (cand_em_had had e)) em.
Hypothesis TM : Forall (fun m => winner_first pt (cand_mu_tk track m)) mu.

Lemma pick_tie {A} (P : A -> Prop) l x : Forall P l -> In x l -> P x.
Proof. rewrite Forall_forall. auto. Qed.
Lemma mu_chosen m : In m mu -> chosen pt (length track) (mu_match track m) (mu_match track' (move_mu mv m)).
Proof.
  intros I. unfold mu_match. cbn [move_mu m_pt]. destruct (0 <? m_pt m); [|exact Logic.I]. apply (choose (move_tk mv)); [exact RT| |exact (pick_tie _ _ _ TM I)].
  intros t. cbn [move_mu move_tk m_eta m_phi t_eta t_phi t_pt m_pt]. rewrite ISO. reflexivity.
Qed.
Lemma is_mu_same j : (j < length track)%nat -> is_mu track' mu' j = is_mu track mu (pt j).
Proof. intros J. unfold is_mu. apply (existsb_corr (move_mu mv) pm); [exact RM|]. intros m I. apply chosen_is with (n := length track); [apply RT|apply mu_chosen; exact I|exact J]. Qed.
Lemma em_chosen j tk : nth_error track (pt j) = Some tk -> (j < length track)%nat -> chosen pe (length em) (em_match em track mu (pt j) tk) (em_match em' track' mu' j (move_tk mv tk)).
Proof.
  intros T J. unfold em_match. rewrite is_mu_same by exact J. destruct (is_mu track mu (pt j)); [exact Logic.I|].
  apply (choose (move_em mv)); [exact RE| |exact (pick_tie _ _ _ TE (nth_error_In _ _ T))].
  intros e. cbn [move_em move_tk e_eta e_phi t_eta t_phi]. rewrite ISO. reflexivity.
Qed.
Lemma tksum_same k : (k < length em)%nat -> em_tksum em' track' mu' k = em_tksum em track mu (pe k).
Proof.
  intros K. unfold em_tksum. destruct RT as (PT & LT & _). apply (sum_corr pt (length track)); [exact PT|reflexivity|exact LT|].
  intros j y Y. destruct (got _ _ _ _ _ _ RT Y) as (x & X & -> & J). exists x. split; [exact X|]. split; [|reflexivity]. apply chosen_is with (n := length em); [apply RE|apply em_chosen; assumption|exact K].
Qed.
Lemma em_had_chosen e : In e em -> chosen ph (length had) (best (cand_em_had had e)) (best (cand_em_had had' (move_em mv e))).
Proof.
  intros I. apply (choose (move_had mv)); [exact RH| |exact (pick_tie _ _ _ TEH I)].
  intros h. cbn [move_em move_had e_eta e_phi h_eta h_phi e_pt h_empt]. rewrite ISO. reflexivity.
Qed.
Lemma sp_mu_same m : In m mu -> ch_moved mv (sp_mu track m) (sp_mu track' (move_mu mv m)).
Proof.
  intros I. unfold sp_mu. pose proof (mu_chosen m I) as C. destruct (mu_match track m) as [i|], (mu_match track' (move_mu mv m)) as [j|]; cbn in C; try tauto; [|unfold ch_moved; cbn; auto; repeat split; congruence].
  destruct C as (<- & J). destruct RT as (PT & LT & HT). rewrite HT by exact J. destruct (nth_error track (pt j)) as [t|]; cbn; unfold ch_moved; cbn; [|repeat split; congruence]. repeat split. intros _. symmetry. apply surjective_pairing.
Qed.
Lemma mu_out : corresponds (ch_moved mv) pm (map (sp_mu track) mu) (map (sp_mu track') mu').
Proof.
  split; [rewrite !map_length; apply RM|]. intros j y Y. rewrite nth_error_map' in Y. destruct (nth_error mu' j) as [m'|] eqn:M; [|discriminate]. injection Y as <-.
  destruct (got _ _ _ _ _ _ RM M) as (m & X & -> & _). exists (sp_mu track m). rewrite nth_error_map', X. split; [reflexivity|]. apply sp_mu_same. eapply nth_error_In; exact X.
Qed.
Lemma ne_obj_moved P eta phi id pup pup' : ne_moved mv (ne_obj P eta phi id pup) (ne_obj P (fst (mv eta phi)) (snd (mv eta phi)) id pup').
Proof. unfold ne_obj, ne_moved. destruct (Z.eqb_spec P 0); cbn; repeat split; try congruence. intros _. symmetry. apply surjective_pairing. Qed.
Lemma mapi_out {A B} (R : B -> B -> Prop) (f : A -> A) p l l' (g g' : nat -> A -> B) : rearranged f p l l' -> (forall j x, (j < length l)%nat -> nth_error l (p j) = Some x -> R (g (p j) x) (g' j (f x))) ->
  corresponds R p (mapi g l) (mapi g' l').
Proof.
  intros RR H. split; [rewrite !length_mapi; apply RR|]. intros j y Y. rewrite nth_error_mapi in Y. destruct (nth_error l' j) as [x'|] eqn:X'; [|discriminate]. injection Y as <-.
  destruct (got _ _ _ _ _ _ RR X') as (x & X & -> & J). exists (g (p j) x). rewrite nth_error_mapi, X. split; [reflexivity|apply H; assumption].
Qed.

(** ** The firmware *)
Section fw.
Hypothesis TH : Forall (fun tk => winner_first ph (cand_tk_had (Some 131071) (had_left_w em had track mu) tk)) track.
Lemma tksum_w_same k : (k < length em)%nat -> em_tksum_w em' track' mu' k = em_tksum_w em track mu (pe k).
Proof. intros K. unfold em_tksum_w. rewrite tksum_same by exact K. reflexivity. Qed.
Lemma is_em_w_same k e : (k < length em)%nat -> is_em_w em' track' mu' k (move_em mv e) = is_em_w em track mu (pe k) e.
Proof. intros K. unfold is_em_w. rewrite tksum_w_same by exact K. reflexivity. Qed.
Lemma is_ele_w_same j tk : nth_error track (pt j) = Some tk -> (j < length track)%nat -> is_ele_w em' track' mu' j (move_tk mv tk) = is_ele_w em track mu (pt j) tk.
Proof.
  intros T J. unfold is_ele_w. pose proof (em_chosen j tk T J) as C. destruct (em_match em track mu (pt j) tk) as [i|], (em_match em' track' mu' j (move_tk mv tk)) as [k|]; cbn in C; try tauto.
  destruct C as (<- & K). destruct RE as (_ & _ & HE). rewrite HE by exact K. destruct (nth_error em (pe k)) as [e|]; [|reflexivity]. cbn [option_map]. apply is_em_w_same; exact K.
Qed.
Lemma emsum_w_same h : (h < length had)%nat -> had_emsum_w em' had' track' mu' h = had_emsum_w em had track mu (ph h).
Proof.
  intros Hh. unfold had_emsum_w. f_equal. destruct RE as (PE & LE & _). apply (sum_corr pe (length em)); [exact PE|reflexivity|exact LE|].
  intros k y Y. destruct (got _ _ _ _ _ _ RE Y) as (x & X & -> & K). exists x. split; [exact X|]. split; [|reflexivity]. rewrite is_em_w_same by exact K. f_equal.
  apply chosen_is with (n := length had); [apply RH|apply em_had_chosen; eapply nth_error_In; exact X|exact Hh].
Qed.
Lemma left_pt_w_same h c : (h < length had)%nat -> had_left_pt_w em' had' track' mu' h (move_had mv c) = had_left_pt_w em had track mu (ph h) c.
Proof. intros Hh. unfold had_left_pt_w. rewrite emsum_w_same by exact Hh. reflexivity. Qed.
Lemma left_w_rearranged : rearranged (move_had mv) ph (had_left_w em had track mu) (had_left_w em' had' track' mu').
Proof.
  destruct RH as (PH & LH & HH). unfold had_left_w. split; [rewrite length_mapi; exact PH|]. split; [rewrite !length_mapi; exact LH|]. rewrite length_mapi. intros h Hh. rewrite !nth_error_mapi, HH by exact Hh.
  destruct (nth_error had (ph h)) as [c|]; [|reflexivity]. cbn [option_map]. rewrite left_pt_w_same by exact Hh. reflexivity.
Qed.
Lemma had_w_chosen tk : In tk track -> chosen ph (length had) (had_match_w em had track mu tk) (had_match_w em' had' track' mu' (move_tk mv tk)).
Proof.
  intros I. unfold had_match_w. assert (L : length (had_left_w em had track mu) = length had) by apply length_mapi. rewrite <- L. apply (choose (move_had mv)); [exact left_w_rearranged| |exact (pick_tie _ _ _ TH I)].
  intros h. unfold metric. cbn [move_tk move_had t_eta t_phi t_pt t_pterr h_eta h_phi h_pt]. rewrite ISO. reflexivity.
Qed.
Lemma in_had_w_same h j tk : (h < length had)%nat -> nth_error track (pt j) = Some tk -> (j < length track)%nat -> in_had_w em' had' track' mu' h j (move_tk mv tk) = in_had_w em had track mu (ph h) (pt j) tk.
Proof.
  intros Hh T J. unfold in_had_w. rewrite is_ele_w_same, is_mu_same by assumption. f_equal. apply chosen_is with (n := length had); [apply RH|apply had_w_chosen; eapply nth_error_In; exact T|exact Hh].
Qed.
Lemma had_sum_w_same (f : Tk -> Z) h : (forall t, f (move_tk mv t) = f t) -> (h < length had)%nat -> sum_where (in_had_w em' had' track' mu' h) f track' = sum_where (in_had_w em had track mu (ph h)) f track.
Proof.
  intros F Hh. destruct RT as (PT & LT & _). apply (sum_corr pt (length track)); [exact PT|reflexivity|exact LT|].
  intros j y Y. destruct (got _ _ _ _ _ _ RT Y) as (x & X & -> & J). exists x. split; [exact X|]. split; [apply in_had_w_same; assumption|apply F].
Qed.
Lemma tksum_h_w_same h : (h < length had)%nat -> had_tksum_w em' had' track' mu' h = had_tksum_w em had track mu (ph h).
Proof. intros Hh. unfold had_tksum_w. f_equal. apply had_sum_w_same; [reflexivity|exact Hh]. Qed.
Lemma err2_w_same h : (h < length had)%nat -> had_err2_w em' had' track' mu' h = had_err2_w em had track mu (ph h).
Proof. intros Hh. unfold had_err2_w. apply had_sum_w_same; [reflexivity|exact Hh]. Qed.
Lemma ne_pt_w_same h c : (h < length had)%nat -> ne_pt_w em' had' track' mu' h (move_had mv c) = ne_pt_w em had track mu (ph h) c.
Proof. intros Hh. unfold ne_pt_w. rewrite left_pt_w_same, tksum_h_w_same, err2_w_same by exact Hh. reflexivity. Qed.
Lemma ch_w_same j tk : nth_error track (pt j) = Some tk -> (j < length track)%nat -> ch_moved mv (sp_ch_w em had track mu (pt j) tk) (sp_ch_w em' had' track' mu' j (move_tk mv tk)).
Proof.
  intros T J. unfold sp_ch_w, ch_kept_w. rewrite is_mu_same, is_ele_w_same by assumption. rewrite (chosen_None _ _ _ _ (had_w_chosen tk (nth_error_In _ _ T))). cbn [move_tk t_pt t_tight t_eta t_phi t_z0].
  match goal with |- context [if ?b then mkCh _ _ _ _ _ else _] => destruct b end; unfold ch_moved; cbn; repeat split; try congruence. intros _. symmetry. apply surjective_pairing.
Qed.
Lemma ints_w_same : ints_fit em had track mu <-> ints_fit em' had' track' mu'.
Proof.
  unfold ints_fit. split; intros (A & B); split.
  - intros k e' E'. destruct (got _ _ _ _ _ _ RE E') as (e & E & -> & K). rewrite tksum_w_same by exact K. exact (A _ _ E).
  - intros h c' C'. destruct (got _ _ _ _ _ _ RH C') as (c & C & -> & K). rewrite err2_w_same, tksum_h_w_same, left_pt_w_same by exact K. exact (B _ _ C).
  - intros i e E. destruct RE as (PE & LE & HE). destruct (p_onto _ _ PE i) as (k & K & <-); [apply nth_error_Some; congruence|]. specialize (HE k K). rewrite E in HE. specialize (A _ _ HE). rewrite tksum_w_same in A by exact K. exact A.
  - intros i c C. destruct RH as (PH & LH & HH). destruct (p_onto _ _ PH i) as (h & K & <-); [apply nth_error_Some; congruence|]. specialize (HH h K). rewrite C in HH. specialize (B _ _ HH). rewrite err2_w_same, tksum_h_w_same, left_pt_w_same in B by exact K. exact B.
Qed.
End fw.
(** ** The reference *)
Section ref.
Hypothesis TH : Forall (fun tk => winner_first ph (cand_tk_had None (had_left_r em had track mu true) tk)) track.
Lemma tksum_r_same k : (k < length em)%nat -> em_tksum_r em' track' mu' k = em_tksum_r em track mu (pe k).
Proof. intros K. unfold em_tksum_r. rewrite tksum_same by exact K. reflexivity. Qed.
Lemma is_em_r_same k e : (k < length em)%nat -> is_em_r em' track' mu' k (move_em mv e) = is_em_r em track mu (pe k) e.
Proof. intros K. unfold is_em_r. rewrite tksum_r_same by exact K. reflexivity. Qed.
Lemma is_ele_r_same j tk : nth_error track (pt j) = Some tk -> (j < length track)%nat -> is_ele_r em' track' mu' j (move_tk mv tk) = is_ele_r em track mu (pt j) tk.
Proof.
  intros T J. unfold is_ele_r. pose proof (em_chosen j tk T J) as C. destruct (em_match em track mu (pt j) tk) as [i|], (em_match em' track' mu' j (move_tk mv tk)) as [k|]; cbn in C; try tauto.
  destruct C as (<- & K). destruct RE as (_ & _ & HE). rewrite HE by exact K. destruct (nth_error em (pe k)) as [e|]; [|reflexivity]. cbn [option_map]. apply is_em_r_same; exact K.
Qed.
Lemma emsum_r_same h : (h < length had)%nat -> had_emsum_r em' had' track' mu' h = had_emsum_r em had track mu (ph h).
Proof.
  intros Hh. unfold had_emsum_r. f_equal. destruct RE as (PE & LE & _). apply (sum_corr pe (length em)); [exact PE|reflexivity|exact LE|].
  intros k y Y. destruct (got _ _ _ _ _ _ RE Y) as (x & X & -> & K). exists x. split; [exact X|]. split; [|reflexivity]. rewrite is_em_r_same by exact K. f_equal.
  apply chosen_is with (n := length had); [apply RH|apply em_had_chosen; eapply nth_error_In; exact X|exact Hh].
Qed.
Lemma keep_r_same h : (h < length had)%nat -> had_keep_r em' had' track' mu' true h = had_keep_r em had track mu true (ph h).
Proof.
  intros Hh. unfold had_keep_r. f_equal. apply (existsb_indexed (move_em mv) pe); [exact RE|]. intros k x K X. rewrite is_em_r_same by exact K. f_equal.
  apply chosen_is with (n := length had); [apply RH|apply em_had_chosen; eapply nth_error_In; exact X|exact Hh].
Qed.
Lemma left_pt_r_same h c : (h < length had)%nat -> had_left_pt_r em' had' track' mu' true h (move_had mv c) = had_left_pt_r em had track mu true (ph h) c.
Proof. intros Hh. unfold had_left_pt_r. rewrite emsum_r_same, keep_r_same by exact Hh. reflexivity. Qed.
Lemma left_r_rearranged : rearranged (move_had mv) ph (had_left_r em had track mu true) (had_left_r em' had' track' mu' true).
Proof.
  destruct RH as (PH & LH & HH). unfold had_left_r. split; [rewrite length_mapi; exact PH|]. split; [rewrite !length_mapi; exact LH|]. rewrite length_mapi. intros h Hh. rewrite !nth_error_mapi, HH by exact Hh.
  destruct (nth_error had (ph h)) as [c|]; [|reflexivity]. cbn [option_map]. rewrite left_pt_r_same by exact Hh. reflexivity.
Qed.
Lemma had_r_chosen tk : In tk track -> chosen ph (length had) (had_match_r em had track mu true tk) (had_match_r em' had' track' mu' true (move_tk mv tk)).
Proof.
  intros I. unfold had_match_r. assert (L : length (had_left_r em had track mu true) = length had) by apply length_mapi. rewrite <- L. apply (choose (move_had mv)); [exact left_r_rearranged| |exact (pick_tie _ _ _ TH I)].
  intros h. unfold metric. cbn [move_tk move_had t_eta t_phi t_pt t_pterr h_eta h_phi h_pt]. rewrite ISO. reflexivity.
Qed.
Lemma in_had_r_same h j tk : (h < length had)%nat -> nth_error track (pt j) = Some tk -> (j < length track)%nat -> in_had_r em' had' track' mu' true h j (move_tk mv tk) = in_had_r em had track mu true (ph h) (pt j) tk.
Proof.
  intros Hh T J. unfold in_had_r. rewrite is_ele_r_same, is_mu_same by assumption. cbn [move_tk t_pt]. f_equal. apply chosen_is with (n := length had); [apply RH|apply had_r_chosen; eapply nth_error_In; exact T|exact Hh].
Qed.
Lemma had_sum_r_same (f : Tk -> Z) h : (forall t, f (move_tk mv t) = f t) -> (h < length had)%nat -> sum_where (in_had_r em' had' track' mu' true h) f track' = sum_where (in_had_r em had track mu true (ph h)) f track.
Proof.
  intros F Hh. destruct RT as (PT & LT & _). apply (sum_corr pt (length track)); [exact PT|reflexivity|exact LT|].
  intros j y Y. destruct (got _ _ _ _ _ _ RT Y) as (x & X & -> & J). exists x. split; [exact X|]. split; [apply in_had_r_same; assumption|apply F].
Qed.
Lemma tksum_h_r_same h : (h < length had)%nat -> had_tksum_r em' had' track' mu' true h = had_tksum_r em had track mu true (ph h).
Proof. intros Hh. unfold had_tksum_r. do 2 f_equal. apply had_sum_r_same; [reflexivity|exact Hh]. Qed.
Lemma err2_r_same h : (h < length had)%nat -> had_err2_r em' had' track' mu' true h = had_err2_r em had track mu true (ph h).
Proof. intros Hh. unfold had_err2_r. apply had_sum_r_same; [reflexivity|exact Hh]. Qed.
Lemma ne_pt_r_same h c : (h < length had)%nat -> ne_pt_r em' had' track' mu' true h (move_had mv c) = ne_pt_r em had track mu true (ph h) c.
Proof. intros Hh. unfold ne_pt_r. rewrite left_pt_r_same, tksum_h_r_same, err2_r_same by exact Hh. reflexivity. Qed.
Lemma ch_r_same j tk : nth_error track (pt j) = Some tk -> (j < length track)%nat -> ch_moved mv (sp_ch_r em had track mu true (pt j) tk) (sp_ch_r em' had' track' mu' true j (move_tk mv tk)).
Proof.
  intros T J. unfold sp_ch_r, ch_kept_r. rewrite is_mu_same, is_ele_r_same by assumption. rewrite (chosen_None _ _ _ _ (had_r_chosen tk (nth_error_In _ _ T))). cbn [move_tk t_pt t_tight t_eta t_phi t_z0].
  match goal with |- context [if ?b then mkCh _ _ _ _ _ else _] => destruct b end; unfold ch_moved; cbn; repeat split; try congruence. intros _. symmetry. apply surjective_pairing.
Qed.
Lemma ints_r_same : ints_fit_r em had track mu true <-> ints_fit_r em' had' track' mu' true.
Proof.
  unfold ints_fit_r. split; intros (A & B); split.
  - intros k e' E'. destruct (got _ _ _ _ _ _ RE E') as (e & E & -> & K). rewrite tksum_r_same by exact K. exact (A _ _ E).
  - intros h c' C'. destruct (got _ _ _ _ _ _ RH C') as (c & C & -> & K). rewrite err2_r_same, tksum_h_r_same by exact K. exact (B _ _ C).
  - intros i e E. destruct RE as (PE & LE & HE). destruct (p_onto _ _ PE i) as (k & K & <-); [apply nth_error_Some; congruence|]. specialize (HE k K). rewrite E in HE. specialize (A _ _ HE). rewrite tksum_r_same in A by exact K. exact A.
  - intros i c C. destruct RH as (PH & LH & HH). destruct (p_onto _ _ PH i) as (h & K & <-); [apply nth_error_Some; congruence|]. specialize (HH h K). rewrite C in HH. specialize (B _ _ HH). rewrite err2_r_same, tksum_h_r_same in B by exact K. exact B.
Qed.
End ref.
End sim.

(** ** The neutral hadrons *)
Lemma desc_unique : forall l l' : list Z, StronglySorted (fun x y => y <= x) l -> StronglySorted (fun x y => y <= x) l' -> Permutation l l' -> l = l'.
Proof.
  intros l l' S. revert l'. induction S as [|a l S IH F]; intros l' S' P; [apply Permutation_nil in P; congruence|].
  destruct l' as [|b l']; [symmetry in P; apply Permutation_nil in P; discriminate|]. inversion S' as [|? ? S1 F1]; subst. rewrite Forall_forall in F, F1.
  assert (a = b).
  { assert (A : In a (b :: l')) by (eapply Permutation_in; [exact P|left; reflexivity]). assert (B : In b (a :: l)) by (eapply Permutation_in; [symmetry; exact P|left; reflexivity]).
    destruct A as [->|A]; [reflexivity|]. destruct B as [->|B]; [reflexivity|]. specialize (F _ B). specialize (F1 _ A). cbn in *. lia. }
  subst b. f_equal. apply IH; [exact S1|]. eapply Permutation_cons_inv. exact P.
Qed.
Lemma top_pts {T} (pt : T -> Z) later n l l' o o' : Permutation (map pt l) (map pt l') -> top_n pt later n l o -> top_n pt later n l' o' -> map pt o = map pt o'.
Proof.
  intros P H H'. apply (top_n_unique _ _ _ _ _ _ (top_n_rsort later pt n l)) in H. apply (top_n_unique _ _ _ _ _ _ (top_n_rsort later pt n l')) in H'. subst o o'. rewrite <- !firstn_map. f_equal.
  apply desc_unique.
  - apply StronglySorted_map with (R := fun x y => pt y <= pt x); [auto|apply rsort_desc].
  - apply StronglySorted_map with (R := fun x y => pt y <= pt x); [auto|apply rsort_desc].
  - rewrite !rsort_perm. exact P.
Qed.
Lemma top_pair {T} (pt : T -> Z) later n (R : T -> T -> Prop) l l' o o' : length l = length l' ->
  (forall i x x', nth_error l i = Some x -> nth_error l' i = Some x' -> R x x' /\ pt x' = pt x) -> top_n pt later n l o -> top_n pt later n l' o' -> Forall2 R o o'.
Proof.
  intros L H (idx & P & S & F) H'.
  assert (I : forall i, In i idx -> exists x x', nth_error l i = Some x /\ nth_error l' i = Some x' /\ R x x' /\ pt x' = pt x).
  { intros i I. assert (J : In i (seq 0 (length l))) by (eapply Permutation_in; [exact P|exact I]). apply in_seq in J. destruct (nth_error_lt l i ltac:(lia)) as (x & X). destruct (nth_error_lt l' i ltac:(lia)) as (x' & X'). exists x, x'. split; [exact X|]. split; [exact X'|]. eapply H; eassumption. }
  assert (G : forall js os, (forall i, In i js -> In i idx) -> Forall2 (fun i x => nth_error l i = Some x) js os -> exists os', Forall2 (fun i x => nth_error l' i = Some x) js os' /\ Forall2 R os os').
  { intros js os IN FF. induction FF as [|i x js os X FF IH]; [exists []; split; constructor|]. destruct IH as (os' & A & B); [intros; apply IN; right; assumption|].
    destruct (I i (IN i (or_introl eq_refl))) as (y & x' & Y & X' & RR & _). exists (x' :: os'). split; constructor; try assumption. congruence. }
  destruct (G (firstn n idx) o) as (os & A & B); [intros i Hi; rewrite <- (firstn_skipn n idx); apply in_or_app; left; exact Hi|exact F|].
  assert (E : o' = os). { eapply top_n_unique; [exact H'|]. exists idx. split; [rewrite <- L; exact P|]. split; [|exact A].
    clear - S I. induction S as [|a js S IH FF]; constructor; [apply IH; intros; apply I; right; assumption|]. rewrite Forall_forall in *. intros b Hb. destruct (FF b Hb) as (x & y & X & Y & C).
    destruct (I a (or_introl eq_refl)) as (x1 & x' & X1 & X' & _ & E1). destruct (I b (or_intror Hb)) as (y1 & y' & Y1 & Y' & _ & E2). exists x', y'. split; [exact X'|]. split; [exact Y'|].
    assert (x1 = x) by congruence. assert (y1 = y) by congruence. subst. rewrite E1, E2. exact C. }
  subst os. exact B.
Qed.
Lemma ne_out (mv : motion) (ph : nat -> nat) (had had' : list HadCalo) (P P' : nat -> HadCalo -> Z) (pup pup' : nat -> Z) n o o' : rearranged (move_had mv) ph had had' ->
  (forall h c, (h < length had)%nat -> P' h (move_had mv c) = P (ph h) c) ->
  top_n n_pt true n (mapi (fun h c => ne_obj (P h c) (h_eta c) (h_phi c) PID_Neutral (pup h)) had) o ->
  top_n n_pt true n (mapi (fun h c => ne_obj (P' h c) (h_eta c) (h_phi c) PID_Neutral (pup' h)) had') o' ->
  map n_pt o' = map n_pt o /\ (neutrals_kept ph had P -> Forall2 (ne_moved mv) o o').
Proof.
  intros RH E T T'. assert (NP : forall a b c d e, n_pt (ne_obj a b c d e) = a) by (intros a *; unfold ne_obj; destruct (Z.eqb_spec a 0); cbn; congruence).
  assert (PTS : map n_pt o = map n_pt o').
  { eapply top_pts; [|exact T|exact T']. rewrite !map_mapi. symmetry. destruct RH as (PH & LH & HH). apply (perm_corr ph (length had) PH); [reflexivity|exact LH|].
    intros j y Y. destruct (got _ _ _ _ _ _ (conj PH (conj LH HH)) Y) as (x & X & -> & J). exists x. split; [exact X|]. rewrite !NP. apply E; exact J. }
  split; [symmetry; exact PTS|]. intros [O|D].
  - eapply top_pair; [|intros i x x' X X'|exact T|exact T']; [rewrite !length_mapi; symmetry; apply RH|].
    rewrite nth_error_mapi in X, X'. destruct (nth_error had i) as [c|] eqn:C; [|discriminate X]. destruct (nth_error had' i) as [c'|] eqn:C'; [|discriminate X']. injection X as <-. injection X' as <-.
    destruct (got _ _ _ _ _ _ RH C') as (c0 & C0 & -> & J). rewrite (O i J) in C0. assert (c0 = c) by congruence. subst c0. rewrite E, (O i J) by exact J. rewrite !NP. split; [|reflexivity]. apply ne_obj_moved.
  - assert (IN : forall l x, top_n n_pt true n l x -> forall y, In y x -> In y l).
    { intros l x Tx y Y. destruct (top_n_meaning _ _ _ _ _ _ Tx) as (_ & dr & PD & _). eapply Permutation_in; [symmetry; exact PD|apply in_or_app; left; exact Y]. }
    pose proof (IN _ _ T) as I. pose proof (IN _ _ T') as I'. clear T T' IN.
    assert (G : forall a a', In a (mapi (fun h c => ne_obj (P h c) (h_eta c) (h_phi c) PID_Neutral (pup h)) had) -> In a' (mapi (fun h c => ne_obj (P' h c) (h_eta c) (h_phi c) PID_Neutral (pup' h)) had') -> n_pt a = n_pt a' -> ne_moved mv a a').
    { intros a a' A A' Q. apply in_mapi in A as (h & c & C & ->). apply in_mapi in A' as (h' & c' & C' & ->). destruct (got _ _ _ _ _ _ RH C') as (c0 & C0 & -> & J). rewrite !NP in Q. rewrite E in Q by exact J.
      destruct (Z.eq_dec (P h c) 0) as [Z0|NZ].
      - rewrite Z0, E, <- Q, Z0 by exact J. unfold ne_moved, ne_obj. cbn. repeat split; congruence.
      - destruct (D _ _ _ _ C C0 Q NZ) as (D1 & D2). rewrite E, <- Q, D1, D2 by exact J. apply ne_obj_moved. }
    clear - PTS I I' G. revert o' PTS I'. induction o as [|a o IH]; intros [|a' o'] PTS I'; try discriminate; [constructor|]. cbn [map] in PTS. injection PTS as Q PTS. constructor.
    + apply G; [apply I; left; reflexivity|apply I'; left; reflexivity|exact Q].
    + apply IH; [intros; apply I; right; assumption|exact PTS|intros; apply I'; right; assumption].
Qed.

(** ** The theorem *)
Lemma fw_symmetry mv pe ph pt pm em had track mu em' had' track' mu' mem mem' nsel : isometry mv -> phys em had track mu -> phys em' had' track' mu' -> (nsel <= length had)%nat ->
  rearranged (move_em mv) pe em em' -> rearranged (move_had mv) ph had had' -> rearranged (move_tk mv) pt track track' -> rearranged (move_mu mv) pm mu mu' ->
  choices_kept pe ph pt em had track mu (Some 131071) (had_left_w em had track mu) ->
  (exists out out', pfalgo3_full mem nsel em had track mu = Ok out /\ pfalgo3_full mem' nsel em' had' track' mu' = Ok out' /\
     corresponds (ch_moved mv) pt (o_ch out) (o_ch out') /\ corresponds (ne_moved mv) pe (o_pho out) (o_pho out') /\ corresponds (ch_moved mv) pm (o_mu out) (o_mu out') /\
     map n_pt (o_ne out') = map n_pt (o_ne out) /\ (neutrals_kept ph had (ne_pt_w em had track mu) -> Forall2 (ne_moved mv) (o_ne out) (o_ne out'))) \/
  (pfalgo3_full mem nsel em had track mu = UB SignedOverflow /\ pfalgo3_full mem' nsel em' had' track' mu' = UB SignedOverflow).
Proof.
  intros ISO HP HP' Hn RE RH RT RM (TE & TEH & TH & TM).
  assert (Hn' : (nsel <= length had')%nat) by (destruct RH as (_ & L & _); lia).
  destruct (wrap_defined_iff em had track mu mem nsel HP Hn) as (D & U). destruct (wrap_defined_iff em' had' track' mu' mem' nsel HP' Hn') as (D' & U').
  pose proof (ints_w_same mv pe ph pt pm em em' had had' track track' mu mu' ISO RE RH RT RM TE TEH TM TH) as I.
  destruct (pfalgo3_full mem nsel em had track mu) as [out|k] eqn:R.
  - left. destruct (proj2 D' (proj1 I (proj1 D (ex_intro _ out eq_refl)))) as (out' & R'). exists out, out'. split; [reflexivity|]. split; [exact R'|].
    destruct (wrap_result em had track mu mem nsel out HP Hn R) as (C & P & N & M). destruct (wrap_result em' had' track' mu' mem' nsel out' HP' Hn' R') as (C' & P' & N' & M'). rewrite C, C', P, P', M, M'.
    split; [|split; [|split]].
    + apply (mapi_out _ (move_tk mv)); [exact RT|]. intros j t J T. eapply ch_w_same; eassumption.
    + apply (mapi_out _ (move_em mv)); [exact RE|]. intros k e K E. assert (Q : em_tksum_w em' track' mu' k = em_tksum_w em track mu (pe k)) by (eapply tksum_w_same; eassumption). unfold sp_pho_w, pho_pt_w. rewrite Q. apply ne_obj_moved.
    + eapply mu_out; eassumption.
    + refine (ne_out mv ph had had' _ _ _ _ nsel _ _ RH _ N N'). intros h c Hh. eapply ne_pt_w_same; eassumption.
  - right. assert (NI : ~ ints_fit em had track mu) by (intros X; destruct (proj2 D X); congruence). split; [exact (U NI)|]. apply U'. tauto.
Qed.
Lemma ref_symmetry mv pe ph pt pm em had track mu em' had' track' mu' mem mem' nsel : isometry mv -> phys em had track mu -> phys em' had' track' mu' -> (nsel <= length had)%nat ->
  rearranged (move_em mv) pe em em' -> rearranged (move_had mv) ph had had' -> rearranged (move_tk mv) pt track track' -> rearranged (move_mu mv) pm mu mu' ->
  choices_kept pe ph pt em had track mu None (had_left_r em had track mu true) ->
  (exists out out', pfalgo3_full_ref mem nsel em had track mu = Ok out /\ pfalgo3_full_ref mem' nsel em' had' track' mu' = Ok out' /\
     corresponds (ch_moved mv) pt (o_ch out) (o_ch out') /\ corresponds (ne_moved mv) pe (o_pho out) (o_pho out') /\ corresponds (ch_moved mv) pm (o_mu out) (o_mu out') /\
     map n_pt (o_ne out') = map n_pt (o_ne out) /\ (neutrals_kept ph had (ne_pt_r em had track mu true) -> Forall2 (ne_moved mv) (o_ne out) (o_ne out'))) \/
  (pfalgo3_full_ref mem nsel em had track mu = UB SignedOverflow /\ pfalgo3_full_ref mem' nsel em' had' track' mu' = UB SignedOverflow).
Proof.
  intros ISO HP HP' Hn RE RH RT RM (TE & TEH & TH & TM).
  assert (Hn' : (nsel <= length had')%nat) by (destruct RH as (_ & L & _); lia).
  destruct (ref_wrap_defined_iff em had track mu mem nsel HP Hn) as (D & U). destruct (ref_wrap_defined_iff em' had' track' mu' mem' nsel HP' Hn') as (D' & U').
  pose proof (ints_r_same mv pe ph pt pm em em' had had' track track' mu mu' ISO RE RH RT RM TE TEH TM TH) as I.
  destruct (pfalgo3_full_ref mem nsel em had track mu) as [out|k] eqn:R.
  - left. destruct (proj2 D' (proj1 I (proj1 D (ex_intro _ out eq_refl)))) as (out' & R'). exists out, out'. split; [reflexivity|]. split; [exact R'|].
    destruct (ref_wrap_result em had track mu mem nsel out HP Hn R) as (C & P & N & M). destruct (ref_wrap_result em' had' track' mu' mem' nsel out' HP' Hn' R') as (C' & P' & N' & M'). rewrite C, C', P, P', M, M'.
    split; [|split; [|split]].
    + apply (mapi_out _ (move_tk mv)); [exact RT|]. intros j t J T. eapply ch_r_same; eassumption.
    + apply (mapi_out _ (move_em mv)); [exact RE|]. intros k e K E. assert (Q : em_tksum_r em' track' mu' k = em_tksum_r em track mu (pe k)) by (eapply tksum_r_same; eassumption). unfold sp_pho_r, pho_pt. rewrite Q. apply ne_obj_moved.
    + eapply mu_out; eassumption.
    + refine (ne_out mv ph had had' _ _ _ _ nsel _ _ RH _ N N'). intros h c Hh. eapply ne_pt_r_same; eassumption.
  - right. assert (NI : ~ ints_fit_r em had track mu true) by (intros X; destruct (proj2 D X); congruence). split; [exact (U NI)|]. apply U'. tauto.
Qed.

(** ** Motions *)
Lemma wrap_diff x y a : wrapS 10 (wrapS 10 (x + a) - wrapS 10 (y + a)) = wrapS 10 (x - y).
Proof. unfold wrapS. cbn. lia. Qed.
Lemma wrap_flip x y : wrapS 10 (wrapS 10 (- x) - wrapS 10 (- y)) * wrapS 10 (wrapS 10 (- x) - wrapS 10 (- y)) = wrapS 10 (x - y) * wrapS 10 (x - y).
Proof.
  assert (E : wrapS 10 (wrapS 10 (- x) - wrapS 10 (- y)) = - wrapS 10 (x - y) \/ wrapS 10 (wrapS 10 (- x) - wrapS 10 (- y)) = wrapS 10 (x - y)) by (unfold wrapS; cbn; lia).
  destruct E as [-> | ->]; [apply Z.mul_opp_opp|reflexivity].
Qed.
Lemma wrap_keep x y : wrapS 10 (wrapS 10 x - wrapS 10 y) = wrapS 10 (x - y).
Proof. unfold wrapS. cbn. lia. Qed.
Lemma shift_isometry a b : isometry (shift a b).
Proof. intros e1 p1 e2 p2. unfold dist2, shift. cbn [fst snd]. rewrite !wrap_diff. reflexivity. Qed.
Lemma mirror_isometry fe fp : isometry (mirror fe fp).
Proof. intros e1 p1 e2 p2. unfold dist2, mirror. cbn [fst snd]. f_equal; [destruct fe|destruct fp]; first [apply wrap_flip|rewrite wrap_keep; reflexivity]. Qed.
Lemma still_isometry : isometry still.
Proof. intros e1 p1 e2 p2. reflexivity. Qed.
Definition bounded (mv : motion) : Prop := forall eta phi, -512 <= fst (mv eta phi) < 512 /\ -512 <= snd (mv eta phi) < 512.
Lemma shift_bounded a b : bounded (shift a b).
Proof. intros eta phi. unfold shift, wrapS. cbn. lia. Qed.
Lemma mirror_bounded fe fp : bounded (mirror fe fp).
Proof. intros eta phi. unfold mirror, wrapS. cbn. destruct fe, fp; lia. Qed.
Lemma moved_phys mv em had track mu : bounded mv -> phys em had track mu -> phys (map (move_em mv) em) (map (move_had mv) had) (map (move_tk mv) track) (map (move_mu mv) mu).
Proof.
  intros B (E & H & T & M). unfold phys. rewrite !Forall_map. repeat split; (eapply Forall_impl; [|eassumption]); intros x X; destruct (B 0 0);
    [pose proof (B (e_eta x) (e_phi x)) as (B1 & B2)|pose proof (B (h_eta x) (h_phi x)) as (B1 & B2)|pose proof (B (t_eta x) (t_phi x)) as (B1 & B2)|pose proof (B (m_eta x) (m_phi x)) as (B1 & B2)].
  all: unfold em_phys, em_ok, had_phys, had_ok, tk_phys, tk_ok, mu_phys, mu_ok, inS in *; cbn [move_em move_had move_tk move_mu e_pt e_pterr e_eta e_phi h_pt h_eta h_phi h_empt t_pt t_pterr t_eta t_phi t_z0 m_pt m_pterr m_eta m_phi] in *; lia.
Qed.
Lemma in_place {A} (f : A -> A) l : rearranged f (fun j => j) l (map f l).
Proof. split; [rewrite map_id; reflexivity|]. split; [apply map_length|]. intros j _. apply nth_error_map'. Qed.
Lemma in_place_still {A} (f : A -> A) l : (forall x, f x = x) -> rearranged f (fun j => j) l l.
Proof. intros E. split; [rewrite map_id; reflexivity|]. split; [reflexivity|]. intros j _. destruct (nth_error l j); cbn; rewrite ?E; reflexivity. Qed.
Lemma corresponds_id {A} (R : A -> A -> Prop) l l' : corresponds R (fun j => j) l l' -> Forall2 R l l'.
Proof.
  intros (L & H). revert l' L H. induction l as [|x l IH]; intros [|y l'] L H; try discriminate; constructor.
  - destruct (H 0%nat y eq_refl) as (x' & X & RR). injection X as <-. exact RR.
  - apply IH; [cbn in L; lia|]. intros j z Z. exact (H (S j) z Z).
Qed.
Lemma fw_moved mv em had track mu mem mem' nsel : isometry mv -> phys em had track mu -> phys (map (move_em mv) em) (map (move_had mv) had) (map (move_tk mv) track) (map (move_mu mv) mu) -> (nsel <= length had)%nat ->
  let run := pfalgo3_full mem nsel em had track mu in let run' := pfalgo3_full mem' nsel (map (move_em mv) em) (map (move_had mv) had) (map (move_tk mv) track) (map (move_mu mv) mu) in
  (exists out out', run = Ok out /\ run' = Ok out' /\ moved_out mv out out') \/ (run = UB SignedOverflow /\ run' = UB SignedOverflow).
Proof.
  intros ISO HP HP' Hn. cbn zeta. destruct (fw_symmetry mv _ _ _ _ em had track mu _ _ _ _ mem mem' nsel ISO HP HP' Hn (in_place _ em) (in_place _ had) (in_place _ track) (in_place _ mu)) as [(out & out' & R & R' & C & P & M & _ & N)|U].
  - split; [|split; [|split]]; apply Forall_forall; intros x _; (eapply in_order_first; [intros j _; reflexivity|apply map_length]).
  - left. exists out, out'. split; [exact R|]. split; [exact R'|]. unfold moved_out. split; [apply corresponds_id; exact C|]. split; [apply corresponds_id; exact P|]. split; [apply N; left; intros j _; reflexivity|apply corresponds_id; exact M].
  - right. exact U.
Qed.
Lemma ref_moved mv em had track mu mem mem' nsel : isometry mv -> phys em had track mu -> phys (map (move_em mv) em) (map (move_had mv) had) (map (move_tk mv) track) (map (move_mu mv) mu) -> (nsel <= length had)%nat ->
  let run := pfalgo3_full_ref mem nsel em had track mu in let run' := pfalgo3_full_ref mem' nsel (map (move_em mv) em) (map (move_had mv) had) (map (move_tk mv) track) (map (move_mu mv) mu) in
  (exists out out', run = Ok out /\ run' = Ok out' /\ moved_out mv out out') \/ (run = UB SignedOverflow /\ run' = UB SignedOverflow).
Proof.
  intros ISO HP HP' Hn. cbn zeta. destruct (ref_symmetry mv _ _ _ _ em had track mu _ _ _ _ mem mem' nsel ISO HP HP' Hn (in_place _ em) (in_place _ had) (in_place _ track) (in_place _ mu)) as [(out & out' & R & R' & C & P & M & _ & N)|U].
  - split; [|split; [|split]]; apply Forall_forall; intros x _; (eapply in_order_first; [intros j _; reflexivity|apply map_length]).
  - left. exists out, out'. split; [exact R|]. split; [exact R'|]. unfold moved_out. split; [apply corresponds_id; exact C|]. split; [apply corresponds_id; exact P|]. split; [apply N; left; intros j _; reflexivity|apply corresponds_id; exact M].
  - right. exact U.
Qed.
