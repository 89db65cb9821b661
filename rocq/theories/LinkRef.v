(** C02 for the table of links of the reference. *)
From Verif Require Import Base BaseFacts Data PFHw PFRef SpecLink SpecPF LinkFacts LinkProofs PFMatch.

Lemma const_seq {CO} (calo : list CO) : forall n, map (fun _ => false) calo = map (fun _ => false) (seq n (length calo)).
Proof. induction calo as [|a l IH]; intros n; [reflexivity|]. cbn [length seq map]. f_equal. apply IH. Qed.
Lemma onehot_wr {CO} (calo : list CO) b : (forall k, b = Some k -> (k < length calo)%nat) ->
  match b with None => Ok (map (fun _ => false) calo) | Some i => wr (map (fun _ => false) calo) i true end = Ok (onehot (length calo) b).
Proof.
  intros H. destruct b as [k|].
  - specialize (H k eq_refl). unfold wr. rewrite map_length. destruct (Nat.ltb_spec k (length calo)) as [_|X]; [|lia]. f_equal. unfold onehot. revert k H. induction calo as [|a l IH]; intros k H; [cbn in H; lia|].
    cbn [length seq map]. rewrite <- seq_shift, map_map. destruct k as [|k]; cbn [upd].
    + f_equal. apply (const_seq l).
    + f_equal. cbn in H. exact (IH k ltac:(lia)).
  - f_equal. apply (const_seq calo).
Qed.
Lemma link_ref_em em track : link_ref e_pt e_eta e_phi DR2MAX_TK_EM false em track = Ok (map (fun t => onehot (length em) (best (cand_tk_em em t))) track).
Proof.
  unfold link_ref. apply mapM_Ok. intros t _. rewrite best_match_ref_em. apply onehot_wr. intros k E. apply best_lt in E. unfold cand_tk_em in E. rewrite map_length in E. exact E.
Qed.
Lemma link_ref_had had track : link_ref h_pt h_eta h_phi DR2MAX_TK_CALO true had track = Ok (tk2calo_link_dronly had track).
Proof.
  rewrite tk2calo_link_dronly_spec. unfold link_ref. apply mapM_Ok. intros t _. rewrite best_match_ref_had. apply onehot_wr. intros k E. apply best_lt in E. unfold cand_tk_had_dr in E. rewrite map_length in E. exact E.
Qed.
Lemma c02_link_ref_em em track : exists rows, link_ref e_pt e_eta e_phi DR2MAX_TK_EM false em track = Ok rows /\ length rows = length track /\
  forall i t, nth_error track i = Some t -> exists row, nth_error rows i = Some row /\ marks_best row (cand_tk_em em t).
Proof.
  eexists. split; [apply link_ref_em|]. split; [apply map_length|]. intros i t Hi. eexists. split; [rewrite nth_error_map', Hi; reflexivity|]. apply onehot_marks. apply map_length.
Qed.
Lemma c02_link_ref_had had track : exists rows, link_ref h_pt h_eta h_phi DR2MAX_TK_CALO true had track = Ok rows /\ rows = tk2calo_link_dronly had track /\ length rows = length track /\
  forall i t, nth_error track i = Some t -> exists row, nth_error rows i = Some row /\ marks_best row (cand_tk_had_dr had t).
Proof.
  eexists. split; [apply link_ref_had|]. split; [reflexivity|]. split; [rewrite tk2calo_link_dronly_spec; apply map_length|]. intros i t Hi. apply c02_dronly. exact Hi.
Qed.
