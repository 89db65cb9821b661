(** Particle flow does not depend on the order of its inputs where no ties occur. *)
From Coq Require Import Permutation Sorting.Sorted FinFun.
From Verif Require Import Base BaseFacts Data PFHw PFRef SpecLink LinkFacts SpecSort RankFacts SortProofs MapiFacts SpecPF SpecPFWrap SpecPFRef SpecSym SymFacts PFWrap PFWrapFacts PFRefWrap PFRefAgree SymProofs.

Lemma move_em_still e : move_em still e = e. Proof. destruct e; reflexivity. Qed.
Lemma move_had_still e : move_had still e = e. Proof. destruct e; reflexivity. Qed.
Lemma move_tk_still e : move_tk still e = e. Proof. destruct e; reflexivity. Qed.
Lemma move_mu_still e : move_mu still e = e. Proof. destruct e; reflexivity. Qed.
Lemma perm_rearranged {A} (eqd : forall x y : A, {x = y} + {x <> y}) (f : A -> A) l l' : (forall x, f x = x) -> Permutation l l' -> exists p, rearranged f p l l' /\ stable l p.
Proof.
  intros E P. pose proof (Permutation_length P) as L. destruct (stable_perm eqd _ _ P) as (p & B & INJ & S). exists p. split; [|exact S]. split; [|split].
  - apply NoDup_Permutation_bis; [|rewrite map_length; lia|].
    + assert (G : forall m n, (m + n <= length l)%nat -> NoDup (map p (seq m n))).
      { intros m n. revert m. induction n as [|n IH]; intros m H; [constructor|]. cbn. constructor; [|apply IH; lia]. intros I. apply in_map_iff in I as (j & Q & J). apply in_seq in J. apply INJ in Q; lia. }
      apply G. lia.
    + intros i I. apply in_map_iff in I as (j & <- & J). apply in_seq in J. apply in_seq. destruct (B j ltac:(lia)). lia.
  - symmetry. exact L.
  - intros j J. destruct (B j J) as (_ & ->). destruct (nth_error l (p j)); cbn; rewrite ?E; reflexivity.
Qed.
Lemma em_dec (x y : EmCalo) : {x = y} + {x <> y}. Proof. decide equality; apply Z.eq_dec. Defined.
Lemma had_dec (x y : HadCalo) : {x = y} + {x <> y}. Proof. decide equality; first [apply Z.eq_dec|apply bool_dec]. Defined.
Lemma tk_dec (x y : Tk) : {x = y} + {x <> y}. Proof. decide equality; first [apply Z.eq_dec|apply bool_dec]. Defined.
Lemma mu_dec (x y : Mu) : {x = y} + {x <> y}. Proof. decide equality; apply Z.eq_dec. Defined.
Lemma untied_first {A B} (p : nat -> nat) (l : list A) (f : B -> list (option Z)) xs : stable l p -> (forall x, length (f x) = length l) -> Forall (fun x => untied l (f x)) xs -> Forall (fun x => winner_first p (f x)) xs.
Proof. intros S L. apply Forall_impl. intros x U. eapply stable_first; [exact S|apply L|exact U]. Qed.
Lemma id_first {B} (f : B -> list (option Z)) n xs : (forall x, length (f x) = n) -> Forall (fun x => winner_first (fun j => j) (f x)) xs.
Proof. intros L. apply Forall_forall. intros x _. eapply in_order_first; [intros j _; reflexivity|apply L]. Qed.
Lemma mapi_const_map {A B} (f : A -> B) l : mapi (fun _ x => f x) l = map f l.
Proof. apply nth_error_ext. intros j. rewrite nth_error_mapi, nth_error_map'. reflexivity. Qed.
Lemma mu_still_same pt track track' mu m : rearranged (move_tk still) pt track track' -> Forall (fun m => winner_first pt (cand_mu_tk track m)) mu -> In m mu -> sp_mu track' m = sp_mu track m.
Proof.
  intros RT TM I. pose proof (mu_chosen still pt track track' mu still_isometry RT TM m I) as C. rewrite move_mu_still in C. unfold sp_mu.
  destruct (mu_match track m) as [i|], (mu_match track' m) as [j|]; cbn in C; try tauto. destruct C as (Ej & Hj). subst i. destruct RT as (_ & _ & H). rewrite H by exact Hj. destruct (nth_error track (pt j)); reflexivity.
Qed.

Lemma top_zero (g : nat -> HadCalo -> Z) pup n had o : top_n n_pt true n (mapi (fun h c => ne_obj (g h c) (h_eta c) (h_phi c) PID_Neutral (pup h)) had) o -> Forall (fun n => n_pt n = 0 -> no_puppi n = (0, 0, 0, 0)) o.
Proof.
  intros T. apply Forall_forall. intros y Y. destruct (top_n_meaning _ _ _ _ _ _ T) as (_ & dr & PD & _). assert (I : In y (o ++ dr)) by (apply in_or_app; left; exact Y). eapply Permutation_in in I; [|symmetry; exact PD].
  apply in_mapi in I as (h & c & _ & ->). unfold ne_obj. destruct (Z.eqb_spec (g h c) 0); cbn; [reflexivity|tauto].
Qed.
Lemma still_same ph had f o o' : (neutrals_kept ph had f -> Forall2 (ne_moved still) o o') -> distinct_neutrals had f -> Forall (fun n => n_pt n = 0 -> no_puppi n = (0, 0, 0, 0)) o -> Forall (fun n => n_pt n = 0 -> no_puppi n = (0, 0, 0, 0)) o' -> map no_puppi o' = map no_puppi o.
Proof.
  intros D X Z Z'. specialize (D (or_intror X)). induction D as [|a b o o' (M1 & M2 & M3) D IH]; [reflexivity|]. inversion Z; inversion Z'; subst. cbn. f_equal; [|apply IH; assumption].
  destruct (Z.eq_dec (n_pt a) 0) as [E|E]; [rewrite !H1, H5 by congruence; reflexivity|]. specialize (M3 E). unfold still in M3. injection M3 as E1 E2. unfold no_puppi. congruence.
Qed.
Lemma fw_any_order em had track mu em' had' track' mu' mem mem' nsel : phys em had track mu -> (nsel <= length had)%nat ->
  Permutation em em' -> Permutation had had' -> Permutation track track' -> Permutation mu mu' ->
  no_ties em had track mu (Some 131071) (had_left_w em had track mu) ->
  (exists out out', pfalgo3_full mem nsel em had track mu = Ok out /\ pfalgo3_full mem' nsel em' had' track' mu' = Ok out' /\
     Permutation (o_ch out) (o_ch out') /\ Permutation (map no_puppi (o_pho out)) (map no_puppi (o_pho out')) /\ Permutation (o_mu out) (o_mu out') /\
     map n_pt (o_ne out') = map n_pt (o_ne out) /\ (distinct_neutrals had (ne_pt_w em had track mu) -> map no_puppi (o_ne out') = map no_puppi (o_ne out))) \/
  (pfalgo3_full mem nsel em had track mu = UB SignedOverflow /\ pfalgo3_full mem' nsel em' had' track' mu' = UB SignedOverflow).
Proof.
  pose proof still_isometry as ISO. intros HP Hn PE PH PT PM (U1 & U2 & U3 & U4).
  destruct (perm_rearranged em_dec _ _ _ move_em_still PE) as (pe & RE & SE). destruct (perm_rearranged had_dec _ _ _ move_had_still PH) as (ph & RH & SH). destruct (perm_rearranged tk_dec _ _ _ move_tk_still PT) as (pt & RT & ST). destruct (perm_rearranged mu_dec _ _ _ move_mu_still PM) as (pm & RM & SM).
  assert (HP' : phys em' had' track' mu') by (destruct HP as (A & B & C & D); unfold phys; rewrite <- PE, <- PH, <- PT, <- PM; tauto).
  assert (Hn' : (nsel <= length had')%nat) by (rewrite <- (Permutation_length PH); exact Hn).
  assert (TE : Forall (fun tk => winner_first pe (cand_tk_em em tk)) track) by (apply (untied_first pe em); [exact SE|intros x; apply map_length|exact U1]).
  assert (TEH : Forall (fun e => winner_first ph (cand_em_had had e)) em) by (apply (untied_first ph had); [exact SH|intros x; apply map_length|exact U2]).
  assert (TH : Forall (fun tk => winner_first ph (cand_tk_had (Some 131071) (had_left_w em had track mu) tk)) track) by (apply (untied_first ph had); [exact SH|intros x; unfold cand_tk_had; rewrite map_length; apply length_mapi|exact U3]).
  assert (TM : Forall (fun m => winner_first pt (cand_mu_tk track m)) mu) by (apply (untied_first pt track); [exact ST|intros x; apply map_length|exact U4]).
  destruct (fw_symmetry still pe ph pt pm em had track mu em' had' track' mu' mem mem' nsel still_isometry HP HP' Hn RE RH RT RM) as [(out & out' & R & R' & _ & _ & _ & N & D)|U]; [unfold choices_kept; tauto| |right; exact U].
  left. exists out, out'. split; [exact R|]. split; [exact R'|]. 
  destruct (wrap_result em had track mu mem nsel out HP Hn R) as (C & P & T & M). destruct (wrap_result em' had' track' mu' mem' nsel out' HP' Hn' R') as (C' & P' & T' & M'). rewrite C, C', P, P', M, M', !map_mapi.
  split; [|split; [|split; [|split; [exact N|intros X; exact (still_same _ _ _ _ _ D X (top_zero _ _ _ _ _ T) (top_zero _ _ _ _ _ T'))]]]]; symmetry.
  - pose proof RT as (Q & LT & HT). apply (perm_corr pt (length track) Q); [reflexivity|exact LT|]. intros j y Y. destruct (got _ _ _ _ _ _ RT Y) as (x & X & -> & J). exists x. split; [exact X|].
    assert (E1 : is_mu track' mu' j = is_mu track mu (pt j)) by (eapply is_mu_same; eassumption). assert (E2 : is_ele_w em' track' mu' j (move_tk still x) = is_ele_w em track mu (pt j) x) by (eapply is_ele_w_same; eassumption).
    unfold sp_ch_w, ch_kept_w. rewrite E1, E2, (chosen_None _ _ _ _ (had_w_chosen still pe ph pt pm em em' had had' track track' mu mu' still_isometry RE RH RT RM TE TEH TM TH x (nth_error_In _ _ X))). rewrite move_tk_still. reflexivity.
  - pose proof RE as (Q & LE & HE). apply (perm_corr pe (length em) Q); [reflexivity|exact LE|]. intros j y Y. destruct (got _ _ _ _ _ _ RE Y) as (x & X & -> & J). exists x. split; [exact X|].
    assert (S : em_tksum_w em' track' mu' j = em_tksum_w em track mu (pe j)) by (eapply tksum_w_same; eassumption). unfold sp_pho_w. rewrite S, move_em_still. unfold ne_obj. destruct (pho_pt_w _ _ =? 0); reflexivity.
  - rewrite <- !mapi_const_map. pose proof RM as (Q & LM & HM). apply (perm_corr pm (length mu) Q); [reflexivity|exact LM|]. intros j y Y. destruct (got _ _ _ _ _ _ RM Y) as (x & X & -> & J). exists x. split; [exact X|].
    rewrite move_mu_still. eapply mu_still_same; try eassumption. eapply nth_error_In; exact X.
Qed.
Lemma fw_track_order em had track mu track' mem nsel : phys em had track mu -> (nsel <= length had)%nat -> Permutation track track' -> Forall (fun m => untied track (cand_mu_tk track m)) mu ->
  (exists out out', pfalgo3_full mem nsel em had track mu = Ok out /\ pfalgo3_full mem nsel em had track' mu = Ok out' /\
     Permutation (o_ch out) (o_ch out') /\ o_pho out' = o_pho out /\ o_ne out' = o_ne out /\ o_mu out' = o_mu out) \/
  (pfalgo3_full mem nsel em had track mu = UB SignedOverflow /\ pfalgo3_full mem nsel em had track' mu = UB SignedOverflow).
Proof.
  pose proof still_isometry as ISO. intros HP Hn PT U4. pose proof (in_place_still _ em move_em_still) as RE. pose proof (in_place_still _ had move_had_still) as RH. pose proof (in_place_still _ mu move_mu_still) as RM. destruct (perm_rearranged tk_dec _ _ _ move_tk_still PT) as (pt & RT & ST).
  assert (HP' : phys em had track' mu) by (destruct HP as (A & B & C & D); unfold phys; rewrite <- PT; tauto).
  assert (TE : Forall (fun tk => winner_first (fun j => j) (cand_tk_em em tk)) track) by (eapply id_first; intros x; apply map_length).
  assert (TEH : Forall (fun e => winner_first (fun j => j) (cand_em_had had e)) em) by (eapply id_first; intros x; apply map_length).
  assert (TH : Forall (fun tk => winner_first (fun j => j) (cand_tk_had (Some 131071) (had_left_w em had track mu) tk)) track) by (eapply id_first; intros x; unfold cand_tk_had; rewrite map_length; reflexivity).
  assert (TM : Forall (fun m => winner_first pt (cand_mu_tk track m)) mu) by (apply (untied_first pt track); [exact ST|intros x; apply map_length|exact U4]).
  destruct (fw_symmetry still _ _ pt _ em had track mu em had track' mu mem mem nsel still_isometry HP HP' Hn RE RH RT RM) as [(out & out' & R & R' & _)|U]; [unfold choices_kept; tauto| |right; exact U].
  left. exists out, out'. split; [exact R|]. split; [exact R'|]. 
  destruct (wrap_result em had track mu mem nsel out HP Hn R) as (C & P & N & M). destruct (wrap_result em had track' mu mem nsel out' HP' Hn R') as (C' & P' & N' & M'). rewrite C, C', P, P', M, M'.
  split; [|split; [|split]].
  - symmetry. pose proof RT as (Q & LT & HT). apply (perm_corr pt (length track) Q); [reflexivity|exact LT|]. intros j y Y. destruct (got _ _ _ _ _ _ RT Y) as (x & X & -> & J). exists x. split; [exact X|].
    assert (E1 : is_mu track' mu j = is_mu track mu (pt j)) by (eapply is_mu_same; eassumption). assert (E2 : is_ele_w em track' mu j (move_tk still x) = is_ele_w em track mu (pt j) x) by (eapply is_ele_w_same; eassumption).
    unfold sp_ch_w, ch_kept_w. rewrite E1, E2, (chosen_None _ _ _ _ (had_w_chosen still _ _ pt _ em em had had track track' mu mu still_isometry RE RH RT RM TE TEH TM TH x (nth_error_In _ _ X))). rewrite move_tk_still. reflexivity.
  - apply nth_error_ext. intros k. rewrite !nth_error_mapi. destruct (nth_error em k) as [e|] eqn:E; [|reflexivity]. cbn. do 1 f_equal.
    assert (S : em_tksum_w em track' mu k = em_tksum_w em track mu k). { eapply (tksum_w_same still (fun j => j) pt (fun j => j)); try eassumption. apply nth_error_Some; congruence. }
    unfold sp_pho_w. rewrite S. reflexivity.
  - eapply top_n_unique; [exact N'|]. match goal with |- top_n _ _ _ ?a _ => match type of N with top_n _ _ _ ?b _ => replace a with b; [exact N|] end end.
    apply nth_error_ext. intros h. rewrite !nth_error_mapi. destruct (nth_error had h) as [c|] eqn:E; [|reflexivity]. cbn. do 1 f_equal.
    assert (S : ne_pt_w em had track' mu h (move_had still c) = ne_pt_w em had track mu h c). { eapply (ne_pt_w_same still (fun j => j) (fun j => j) pt (fun j => j)); try eassumption. apply nth_error_Some; congruence. }
    rewrite move_had_still in S. unfold sp_ne_w. rewrite S. reflexivity.
  - apply map_ext_in. intros m I. eapply mu_still_same; try eassumption.
Qed.

Lemma ref_any_order em had track mu em' had' track' mu' mem mem' nsel : phys em had track mu -> (nsel <= length had)%nat ->
  Permutation em em' -> Permutation had had' -> Permutation track track' -> Permutation mu mu' ->
  no_ties em had track mu None (had_left_r em had track mu true) ->
  (exists out out', pfalgo3_full_ref mem nsel em had track mu = Ok out /\ pfalgo3_full_ref mem' nsel em' had' track' mu' = Ok out' /\
     Permutation (o_ch out) (o_ch out') /\ Permutation (map no_puppi (o_pho out)) (map no_puppi (o_pho out')) /\ Permutation (o_mu out) (o_mu out') /\
     map n_pt (o_ne out') = map n_pt (o_ne out) /\ (distinct_neutrals had (ne_pt_r em had track mu true) -> map no_puppi (o_ne out') = map no_puppi (o_ne out))) \/
  (pfalgo3_full_ref mem nsel em had track mu = UB SignedOverflow /\ pfalgo3_full_ref mem' nsel em' had' track' mu' = UB SignedOverflow).
Proof.
  pose proof still_isometry as ISO. intros HP Hn PE PH PT PM (U1 & U2 & U3 & U4).
  destruct (perm_rearranged em_dec _ _ _ move_em_still PE) as (pe & RE & SE). destruct (perm_rearranged had_dec _ _ _ move_had_still PH) as (ph & RH & SH). destruct (perm_rearranged tk_dec _ _ _ move_tk_still PT) as (pt & RT & ST). destruct (perm_rearranged mu_dec _ _ _ move_mu_still PM) as (pm & RM & SM).
  assert (HP' : phys em' had' track' mu') by (destruct HP as (A & B & C & D); unfold phys; rewrite <- PE, <- PH, <- PT, <- PM; tauto).
  assert (Hn' : (nsel <= length had')%nat) by (rewrite <- (Permutation_length PH); exact Hn).
  assert (TE : Forall (fun tk => winner_first pe (cand_tk_em em tk)) track) by (apply (untied_first pe em); [exact SE|intros x; apply map_length|exact U1]).
  assert (TEH : Forall (fun e => winner_first ph (cand_em_had had e)) em) by (apply (untied_first ph had); [exact SH|intros x; apply map_length|exact U2]).
  assert (TH : Forall (fun tk => winner_first ph (cand_tk_had None (had_left_r em had track mu true) tk)) track) by (apply (untied_first ph had); [exact SH|intros x; unfold cand_tk_had; rewrite map_length; apply length_mapi|exact U3]).
  assert (TM : Forall (fun m => winner_first pt (cand_mu_tk track m)) mu) by (apply (untied_first pt track); [exact ST|intros x; apply map_length|exact U4]).
  destruct (ref_symmetry still pe ph pt pm em had track mu em' had' track' mu' mem mem' nsel still_isometry HP HP' Hn RE RH RT RM) as [(out & out' & R & R' & _ & _ & _ & N & D)|U]; [unfold choices_kept; tauto| |right; exact U].
  left. exists out, out'. split; [exact R|]. split; [exact R'|]. 
  destruct (ref_wrap_result em had track mu mem nsel out HP Hn R) as (C & P & T & M). destruct (ref_wrap_result em' had' track' mu' mem' nsel out' HP' Hn' R') as (C' & P' & T' & M'). rewrite C, C', P, P', M, M', !map_mapi.
  split; [|split; [|split; [|split; [exact N|intros X; exact (still_same _ _ _ _ _ D X (top_zero _ _ _ _ _ T) (top_zero _ _ _ _ _ T'))]]]]; symmetry.
  - pose proof RT as (Q & LT & HT). apply (perm_corr pt (length track) Q); [reflexivity|exact LT|]. intros j y Y. destruct (got _ _ _ _ _ _ RT Y) as (x & X & -> & J). exists x. split; [exact X|].
    assert (E1 : is_mu track' mu' j = is_mu track mu (pt j)) by (eapply is_mu_same; eassumption). assert (E2 : is_ele_r em' track' mu' j (move_tk still x) = is_ele_r em track mu (pt j) x) by (eapply is_ele_r_same; eassumption).
    unfold sp_ch_r, ch_kept_r. rewrite E1, E2, (chosen_None _ _ _ _ (had_r_chosen still pe ph pt pm em em' had had' track track' mu mu' still_isometry RE RH RT RM TE TEH TM TH x (nth_error_In _ _ X))). rewrite move_tk_still. reflexivity.
  - pose proof RE as (Q & LE & HE). apply (perm_corr pe (length em) Q); [reflexivity|exact LE|]. intros j y Y. destruct (got _ _ _ _ _ _ RE Y) as (x & X & -> & J). exists x. split; [exact X|].
    assert (S : em_tksum_r em' track' mu' j = em_tksum_r em track mu (pe j)) by (eapply tksum_r_same; eassumption). unfold sp_pho_r. rewrite S, move_em_still. unfold ne_obj. destruct (pho_pt _ _ =? 0); reflexivity.
  - rewrite <- !mapi_const_map. pose proof RM as (Q & LM & HM). apply (perm_corr pm (length mu) Q); [reflexivity|exact LM|]. intros j y Y. destruct (got _ _ _ _ _ _ RM Y) as (x & X & -> & J). exists x. split; [exact X|].
    rewrite move_mu_still. eapply mu_still_same; try eassumption. eapply nth_error_In; exact X.
Qed.
Lemma ref_track_order em had track mu track' mem nsel : phys em had track mu -> (nsel <= length had)%nat -> Permutation track track' -> Forall (fun m => untied track (cand_mu_tk track m)) mu ->
  (exists out out', pfalgo3_full_ref mem nsel em had track mu = Ok out /\ pfalgo3_full_ref mem nsel em had track' mu = Ok out' /\
     Permutation (o_ch out) (o_ch out') /\ o_pho out' = o_pho out /\ o_ne out' = o_ne out /\ o_mu out' = o_mu out) \/
  (pfalgo3_full_ref mem nsel em had track mu = UB SignedOverflow /\ pfalgo3_full_ref mem nsel em had track' mu = UB SignedOverflow).
Proof.
  pose proof still_isometry as ISO. intros HP Hn PT U4. pose proof (in_place_still _ em move_em_still) as RE. pose proof (in_place_still _ had move_had_still) as RH. pose proof (in_place_still _ mu move_mu_still) as RM. destruct (perm_rearranged tk_dec _ _ _ move_tk_still PT) as (pt & RT & ST).
  assert (HP' : phys em had track' mu) by (destruct HP as (A & B & C & D); unfold phys; rewrite <- PT; tauto).
  assert (TE : Forall (fun tk => winner_first (fun j => j) (cand_tk_em em tk)) track) by (eapply id_first; intros x; apply map_length).
  assert (TEH : Forall (fun e => winner_first (fun j => j) (cand_em_had had e)) em) by (eapply id_first; intros x; apply map_length).
  assert (TH : Forall (fun tk => winner_first (fun j => j) (cand_tk_had None (had_left_r em had track mu true) tk)) track) by (eapply id_first; intros x; unfold cand_tk_had; rewrite map_length; reflexivity).
  assert (TM : Forall (fun m => winner_first pt (cand_mu_tk track m)) mu) by (apply (untied_first pt track); [exact ST|intros x; apply map_length|exact U4]).
  destruct (ref_symmetry still _ _ pt _ em had track mu em had track' mu mem mem nsel still_isometry HP HP' Hn RE RH RT RM) as [(out & out' & R & R' & _)|U]; [unfold choices_kept; tauto| |right; exact U].
  left. exists out, out'. split; [exact R|]. split; [exact R'|]. 
  destruct (ref_wrap_result em had track mu mem nsel out HP Hn R) as (C & P & N & M). destruct (ref_wrap_result em had track' mu mem nsel out' HP' Hn R') as (C' & P' & N' & M'). rewrite C, C', P, P', M, M'.
  split; [|split; [|split]].
  - symmetry. pose proof RT as (Q & LT & HT). apply (perm_corr pt (length track) Q); [reflexivity|exact LT|]. intros j y Y. destruct (got _ _ _ _ _ _ RT Y) as (x & X & -> & J). exists x. split; [exact X|].
    assert (E1 : is_mu track' mu j = is_mu track mu (pt j)) by (eapply is_mu_same; eassumption). assert (E2 : is_ele_r em track' mu j (move_tk still x) = is_ele_r em track mu (pt j) x) by (eapply is_ele_r_same; eassumption).
    unfold sp_ch_r, ch_kept_r. rewrite E1, E2, (chosen_None _ _ _ _ (had_r_chosen still _ _ pt _ em em had had track track' mu mu still_isometry RE RH RT RM TE TEH TM TH x (nth_error_In _ _ X))). rewrite move_tk_still. reflexivity.
  - apply nth_error_ext. intros k. rewrite !nth_error_mapi. destruct (nth_error em k) as [e|] eqn:E; [|reflexivity]. cbn. do 1 f_equal.
    assert (S : em_tksum_r em track' mu k = em_tksum_r em track mu k). { eapply (tksum_r_same still (fun j => j) pt (fun j => j)); try eassumption. apply nth_error_Some; congruence. }
    unfold sp_pho_r. rewrite S. reflexivity.
  - eapply top_n_unique; [exact N'|]. match goal with |- top_n _ _ _ ?a _ => match type of N with top_n _ _ _ ?b _ => replace a with b; [exact N|] end end.
    apply nth_error_ext. intros h. rewrite !nth_error_mapi. destruct (nth_error had h) as [c|] eqn:E; [|reflexivity]. cbn. do 1 f_equal.
    assert (S : ne_pt_r em had track' mu true h (move_had still c) = ne_pt_r em had track mu true h c). { eapply (ne_pt_r_same still (fun j => j) (fun j => j) pt (fun j => j)); try eassumption. apply nth_error_Some; congruence. }
    rewrite move_had_still in S. unfold sp_ne_r. rewrite S. reflexivity.
  - apply map_ext_in. intros m I. eapply mu_still_same; try eassumption.
Qed.

(** ** Deciding ties *)
Section dec.
Context {A : Type} (eqb : A -> A -> bool) (eqb_ok : forall x y, eqb x y = true -> x = y).
Definition untiedb (l : list A) (cand : list (option Z)) : bool :=
  (length cand =? length l)%nat &&
  match best cand with
  | None => true
  | Some i => forallb (fun '(j, o) => match o, nth_error cand i with Some v, Some (Some w) => negb (v =? w) || match nth_error l j, nth_error l i with Some x, Some y => eqb x y | _, _ => false end | _, _ => true end) (indexed cand)
  end.
Lemma untiedb_ok l cand : untiedb l cand = true -> untied l cand.
Proof.
  intros H i j B J. apply andb_true_iff in H as (L & H). apply best_spec in B. rewrite B in H. apply best_spec in B. destruct B as (v & V & _). rewrite V in J, H.
  rewrite forallb_forall in H. specialize (H (j, Some v)). cbn in H. rewrite Z.eqb_refl in H. specialize (H (proj2 (in_indexed _ _ _) J)). cbn in H.
  destruct (nth_error l j), (nth_error l i); try discriminate. f_equal. apply eqb_ok. exact H.
Qed.
Lemma untied_all {B} l (f : B -> list (option Z)) xs : forallb (fun x => untiedb l (f x)) xs = true -> Forall (fun x => untied l (f x)) xs.
Proof. rewrite forallb_forall, Forall_forall. intros H x I. apply untiedb_ok, H, I. Qed.
End dec.
Definition decb {A} (d : forall x y : A, {x = y} + {x <> y}) (x y : A) : bool := if d x y then true else false.
Lemma decb_ok {A} (d : forall x y : A, {x = y} + {x <> y}) x y : decb d x y = true -> x = y.
Proof. unfold decb. destruct (d x y); [auto|discriminate]. Qed.
Definition no_tiesb (em : list EmCalo) (had : list HadCalo) (track : list Tk) (mu : list Mu) (cap : option Z) (left : list HadCalo) : bool :=
  forallb (fun tk => untiedb (decb em_dec) em (cand_tk_em em tk)) track && forallb (fun e => untiedb (decb had_dec) had (cand_em_had had e)) em &&
  forallb (fun tk => untiedb (decb had_dec) had (cand_tk_had cap left tk)) track && forallb (fun m => untiedb (decb tk_dec) track (cand_mu_tk track m)) mu.
Lemma no_tiesb_ok em had track mu cap left : no_tiesb em had track mu cap left = true -> no_ties em had track mu cap left.
Proof.
  unfold no_tiesb. rewrite !andb_true_iff. intros (((A & B) & C) & D). unfold no_ties. split; [|split; [|split]]; (eapply untied_all; [|eassumption]); apply decb_ok.
Qed.
