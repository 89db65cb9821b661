(** PUPPI: exactly when the firmware and the reference are defined. *)
From Verif Require Import Base BaseFacts Data PFHw SpecPF Puppi SpecPuppi PuppiProofs.

Lemma i32_bad x : ~ is_int x -> i32 x = UB SignedOverflow.
Proof. unfold is_int, i32. intros H. destruct (Z.leb_spec (-2147483648) x), (Z.leb_spec x 2147483647); simpl; try reflexivity. lia. Qed.
Lemma i32_good x : is_int x -> i32 x = Ok x.
Proof. unfold is_int. intros H. apply i32_Ok. lia. Qed.
Lemma is_int_dec x : is_int x \/ ~ is_int x.
Proof. unfold is_int. lia. Qed.

Definition hw_step (z : Z) (n : PFNe) (sum : Z) (c : PFCh) : res Z :=
  if (z - c_z0 c >? DZMAX) || (z - c_z0 c <? - DZMAX) then Ok sum
  else let dr2 := dr2_int (c_eta c) (c_phi c) (n_eta n) (n_phi n) in
       if dr2 <=? DR2MAX
       then i32 (sum + lut_shift15_divide (pt2_shift c) (wrapU 9 (Z.shiftr dr2 5)))
       else Ok sum.
Definition ref_step (z : Z) (n : PFNe) (sum : Z) (c : PFCh) : res Z :=
  if (z - c_z0 c >? DZMAX) || (z - c_z0 c <? - DZMAX) then Ok sum
  else let dr2 := dr2_int (c_eta c) (c_phi c) (n_eta n) (n_phi n) in
       if dr2 <=? DR2MAX
       then let dr2short := wrapU 9 (Z.shiftr dr2 5) in
            let pt2 := wrapS 32 (c_pt c * c_pt c) in
            let term := 32768 / (if dr2short >? 0 then dr2short else 1) in
            do term <- i32 (Z.min (Z.shiftr pt2 5) 131071 * term);
            i32 (sum + term)
       else Ok sum.

Lemma hw_step_eq z n s c : is_int s -> hw_step z n s c = i32 (s + to_int (alpha_term z c n)).
Proof.
  intros Hs. unfold hw_step. rewrite cut_eq. cbv zeta. change dr2_int with dist2. unfold DR2MAX, alpha_term.
  set (d := dist2 (c_eta c) (c_phi c) (n_eta n) (n_phi n)) in *. assert (D0 : 0 <= d) by apply dist2_nonneg. clearbody d.
  destruct (Z.abs (z - c_z0 c) <=? 256); cbn [negb andb].
  2: { change (to_int 0) with 0. rewrite Z.add_0_r. symmetry. apply i32_good, Hs. }
  destruct (Z.leb_spec d 8404) as [Hd|Hd].
  2: { change (to_int 0) with 0. rewrite Z.add_0_r. symmetry. apply i32_good, Hs. }
  rewrite pt2_shift_eq, shiftr5, wrapU9 by lia. assert (P0 : 0 <= c_pt c * c_pt c / 32) by (apply Z.div_pos; nia).
  unfold lut_shift15_divide. rewrite wrapU17, wrapU9, invert_eq by lia. reflexivity.
Qed.

Lemma ref_step_eq z n s c : inS 16 (c_pt c) -> 0 <= s -> is_int s -> ref_step z n s c = i32 (s + alpha_term z c n).
Proof.
  intros Hc H0 Hs. unfold ref_step. rewrite cut_eq. cbv zeta. change dr2_int with dist2. unfold DR2MAX.
  pose proof (alpha_term_nonneg z c n) as T0. unfold alpha_term in *.
  set (d := dist2 (c_eta c) (c_phi c) (n_eta n) (n_phi n)) in *. assert (D0 : 0 <= d) by apply dist2_nonneg. clearbody d.
  destruct (Z.abs (z - c_z0 c) <=? 256); cbn [negb andb] in *.
  2: { rewrite Z.add_0_r. symmetry. apply i32_good, Hs. }
  destruct (Z.leb_spec d 8404) as [Hd|Hd].
  2: { rewrite Z.add_0_r. symmetry. apply i32_good, Hs. }
  unfold inS in Hc. change (2 ^ (16 - 1)) with 32768 in Hc.
  rewrite !shiftr5, wrapU9 by lia. rewrite (wrapS32 (c_pt c * c_pt c)) by nia.
  replace (if d / 32 >? 0 then d / 32 else 1) with (Z.max 1 (d / 32)) by (destruct (Z.gtb_spec (d / 32) 0); lia).
  set (t := Z.min _ _ * _) in *. clearbody t.
  destruct (is_int_dec t) as [I|I].
  - rewrite (i32_good t I). reflexivity.
  - rewrite (i32_bad t I). cbn [bind]. symmetry. apply i32_bad. unfold is_int in *. lia.
Qed.

Lemma int_cons z c l n : int_alpha_sum z (c :: l) n = to_int (alpha_term z c n) + int_alpha_sum z l n.
Proof. reflexivity. Qed.

Lemma hw_fold_good z n l : forall s, is_int s -> (forall k, is_int (s + int_alpha_sum z (firstn k l) n)) ->
  foldM (hw_step z n) l s = Ok (s + int_alpha_sum z l n).
Proof.
  induction l as [|c l IH]; intros s Hs H; [cbn; f_equal; lia|]. cbn [foldM]. rewrite hw_step_eq by exact Hs.
  pose proof (H 1%nat) as H1. cbn [firstn] in H1. rewrite int_cons in H1. change (int_alpha_sum z [] n) with 0 in H1. rewrite Z.add_0_r in H1.
  rewrite i32_good by exact H1. cbn [bind]. rewrite IH; [rewrite int_cons; f_equal; lia|exact H1|].
  intros k. specialize (H (S k)). cbn [firstn] in H. rewrite int_cons in H. rewrite <- Z.add_assoc. exact H.
Qed.
Lemma hw_fold_bad z n l : forall s k, is_int s -> ~ is_int (s + int_alpha_sum z (firstn k l) n) -> foldM (hw_step z n) l s = UB SignedOverflow.
Proof.
  induction l as [|c l IH]; intros s k Hs H.
  - rewrite firstn_nil in H. change (int_alpha_sum z [] n) with 0 in H. rewrite Z.add_0_r in H. contradiction.
  - destruct k as [|k]; [change (int_alpha_sum z (firstn 0 (c :: l)) n) with 0 in H; rewrite Z.add_0_r in H; contradiction|].
    cbn [firstn] in H. rewrite int_cons in H. cbn [foldM]. rewrite hw_step_eq by exact Hs.
    destruct (is_int_dec (s + to_int (alpha_term z c n))) as [I|I]; [|rewrite i32_bad by exact I; reflexivity].
    rewrite i32_good by exact I. cbn [bind]. apply (IH _ k I). rewrite <- Z.add_assoc. exact H.
Qed.

Lemma ref_fold_bad z n l : Forall (fun c => inS 16 (c_pt c)) l -> forall s, 0 <= s -> is_int s -> 2147483648 <= s + alpha_sum z l n ->
  foldM (ref_step z n) l s = UB SignedOverflow.
Proof.
  induction 1 as [|c l Hc HF IH]; intros s H0 Hs H; [cbn in H; unfold is_int in Hs; lia|].
  change (alpha_sum z (c :: l) n) with (alpha_term z c n + alpha_sum z l n) in H. pose proof (alpha_term_nonneg z c n) as T0.
  cbn [foldM]. rewrite ref_step_eq by assumption. destruct (is_int_dec (s + alpha_term z c n)) as [I|I].
  - rewrite i32_good by exact I. cbn [bind]. apply IH; [lia|exact I|lia].
  - rewrite i32_bad by exact I. reflexivity.
Qed.

Lemma mapM_bad {A B} (f : A -> res B) l k : (forall x, In x l -> (exists y, f x = Ok y) \/ f x = UB k) -> (exists x, In x l /\ f x = UB k) -> mapM f l = UB k.
Proof.
  induction l as [|a l IH]; intros H (x & Hx & E); [destruct Hx|]. cbn [mapM].
  destruct (H a (or_introl eq_refl)) as [(y & Ea)|Ea]; rewrite Ea; cbn [bind]; [|reflexivity].
  rewrite IH; [reflexivity|intros w Hw; apply H; right; exact Hw|]. destruct Hx as [->|Hx]; [congruence|]. exists x. auto.
Qed.

Lemma int_sum_all z l n : int_alpha_sum z l n = int_alpha_sum z (firstn (length l) l) n.
Proof. rewrite firstn_all. reflexivity. Qed.

Lemma hw_apply_int tab n s : table_ok tab -> inS 16 (n_pt n) -> is_int s ->
  hw_apply tab n (wrapU 32 (Z.shiftr s 10)) = Ok (set_puppi n (int_puppi_pt tab (n_pt n) s)).
Proof.
  intros HT Hp Hs. unfold is_int in Hs. unfold int_puppi_pt. destruct (Z.ltb_spec s 0) as [N|N]; [|apply hw_apply_eq; (assumption || lia)].
  rewrite shiftr10. assert (E : wrapU 32 (s / 1024) = s / 1024 + 4294967296).
  { unfold wrapU. change (2 ^ 32) with 4294967296. symmetry. apply (Z.mod_unique_pos _ _ (-1)); lia. }
  rewrite E. unfold hw_apply, PUPPI_TABLE_SIZE. cbv zeta. destruct (Z.ltb_spec (s / 1024 + 4294967296) 1174); [lia|reflexivity].
Qed.

Definition int_sums (z : Z) (pfch : list PFCh) (n : PFNe) : Prop := forall k, is_int (int_alpha_sum z (firstn k pfch) n).
Lemma hw_sum_good pfch z n : int_sums z pfch n -> hw_sum pfch z n = Ok (int_alpha_sum z pfch n).
Proof. intros H. change (hw_sum pfch z n) with (foldM (hw_step z n) pfch 0). rewrite hw_fold_good; [reflexivity|unfold is_int; lia|exact H]. Qed.
Lemma hw_sum_bad pfch z n k : ~ is_int (int_alpha_sum z (firstn k pfch) n) -> hw_sum pfch z n = UB SignedOverflow.
Proof. intros H. change (hw_sum pfch z n) with (foldM (hw_step z n) pfch 0). apply (hw_fold_bad z n pfch 0 k); [unfold is_int; lia|exact H]. Qed.

Lemma hw_exact_good tab pfch pfne z : table_ok tab -> Forall (fun n => inS 16 (n_pt n)) pfne ->
  (forall n k, In n pfne -> is_int (int_alpha_sum z (firstn k pfch) n)) ->
  simple_puppi_hw tab pfch pfne z = Ok (map (fun n => set_puppi n (int_puppi_pt tab (n_pt n) (int_alpha_sum z pfch n))) pfne).
Proof.
  intros HT HP HS. unfold simple_puppi_hw. rewrite (mapM_map_Ok _ (fun n => wrapU 32 (Z.shiftr (int_alpha_sum z pfch n) 10))).
  - cbn [bind]. rewrite combine_map_self, mapM_map. apply mapM_map_Ok. intros n Hn. apply hw_apply_int; [exact HT|exact (proj1 (Forall_forall _ _) HP n Hn)|].
    rewrite int_sum_all. apply HS, Hn.
  - intros n Hn. rewrite hw_sum_good by (intros k; apply HS, Hn). reflexivity.
Qed.

(** whether all prefixes fit is decided by looking at the first [length] ones *)
Lemma prefixes_dec z pfch n : (forall k, is_int (int_alpha_sum z (firstn k pfch) n)) \/ exists k, ~ is_int (int_alpha_sum z (firstn k pfch) n).
Proof.
  assert (D : forall m, (forall k, (k <= m)%nat -> is_int (int_alpha_sum z (firstn k pfch) n)) \/ exists k, ~ is_int (int_alpha_sum z (firstn k pfch) n)).
  { induction m as [|m [IH|IH]]; [left; intros k Hk; replace k with 0%nat by lia; cbn; unfold is_int; lia| |right; exact IH].
    destruct (is_int_dec (int_alpha_sum z (firstn (S m) pfch) n)) as [I|I]; [|right; eexists; exact I].
    left. intros k Hk. destruct (Nat.eq_dec k (S m)) as [->|N]; [exact I|apply IH; lia]. }
  destruct (D (length pfch)) as [H|H]; [|right; exact H]. left. intros k. destruct (Nat.le_gt_cases k (length pfch)) as [L|L]; [apply H, L|].
  rewrite firstn_all2 by lia. rewrite int_sum_all. apply H. lia.
Qed.

Lemma hw_exact_bad tab pfch pfne z n k : In n pfne -> ~ is_int (int_alpha_sum z (firstn k pfch) n) -> simple_puppi_hw tab pfch pfne z = UB SignedOverflow.
Proof.
  intros Hn H. unfold simple_puppi_hw. rewrite (mapM_bad _ _ SignedOverflow); [reflexivity| |].
  - intros x _. destruct (prefixes_dec z pfch x) as [G|(j & B)].
    + left. rewrite hw_sum_good by exact G. eexists. reflexivity.
    + right. rewrite (hw_sum_bad _ _ _ j B). reflexivity.
  - exists n. split; [exact Hn|]. rewrite (hw_sum_bad _ _ _ k H). reflexivity.
Qed.

Lemma ref_exact_bad tab pfch pfne z n : table_ok tab -> Forall (fun c => inS 16 (c_pt c)) pfch -> Forall (fun n => inS 16 (n_pt n)) pfne ->
  In n pfne -> n_pt n <> 0 -> 2147483648 <= alpha_sum z pfch n -> simple_puppi_ref tab pfch pfne z = UB SignedOverflow.
Proof.
  intros HT HC HP Hn N0 H.
  assert (B : forall x, 2147483648 <= alpha_sum z pfch x -> ref_sum pfch z x = UB SignedOverflow).
  { intros x Hx. change (ref_sum pfch z x) with (foldM (ref_step z x) pfch 0). apply ref_fold_bad; [exact HC|lia|unfold is_int; lia|lia]. }
  unfold simple_puppi_ref. apply mapM_bad.
  - intros x Hx. destruct (Z.eqb_spec (n_pt x) 0) as [E|E]; [left; eexists; reflexivity|].
    destruct (Z_lt_le_dec (alpha_sum z pfch x) 2147483648) as [L|L]; [|right; rewrite B by exact L; reflexivity].
    left. unfold ref_sum. rewrite ref_sum_eq by (assumption || lia). cbn [bind]. rewrite Z.add_0_l.
    pose proof (alpha_sum_nonneg z pfch x). destruct (ref_weight_eq tab (n_pt x) (alpha_sum z pfch x) HT (proj1 (Forall_forall _ _) HP x Hx) ltac:(lia)) as (w & -> & _).
    cbn [bind]. eexists. reflexivity.
  - exists n. split; [exact Hn|]. destruct (Z.eqb_spec (n_pt n) 0) as [E|E]; [contradiction|]. rewrite B by exact H. reflexivity.
Qed.

Lemma hw_exact tab pfch pfne z : table_ok tab -> Forall (fun n => inS 16 (n_pt n)) pfne ->
  ((forall n k, In n pfne -> is_int (int_alpha_sum z (firstn k pfch) n)) ->
    simple_puppi_hw tab pfch pfne z = Ok (map (fun n => set_puppi n (int_puppi_pt tab (n_pt n) (int_alpha_sum z pfch n))) pfne)) /\
  (~ (forall n k, In n pfne -> is_int (int_alpha_sum z (firstn k pfch) n)) -> simple_puppi_hw tab pfch pfne z = UB SignedOverflow).
Proof.
  intros HT HP. split; [apply hw_exact_good; assumption|]. intros H.
  assert (E : Forall (fun n => forall k, is_int (int_alpha_sum z (firstn k pfch) n)) pfne \/ exists n k, In n pfne /\ ~ is_int (int_alpha_sum z (firstn k pfch) n)).
  { clear. induction pfne as [|a l [IH|(n & k & Hn & B)]]; [left; constructor| |right; exists n, k; split; [right; exact Hn|exact B]].
    destruct (prefixes_dec z pfch a) as [G|(k & B)]; [left; constructor; assumption|right; exists a, k; split; [left; reflexivity|exact B]]. }
  destruct E as [E|(n & k & Hn & B)]; [|exact (hw_exact_bad _ _ _ _ n k Hn B)].
  destruct H. intros n k Hn. exact (proj1 (Forall_forall _ _) E n Hn k).
Qed.
Lemma ref_exact tab pfch pfne z : table_ok tab -> Forall (fun c => inS 16 (c_pt c)) pfch -> Forall (fun n => inS 16 (n_pt n)) pfne ->
  ((forall n, In n pfne -> n_pt n <> 0 -> is_int (alpha_sum z pfch n)) ->
    simple_puppi_ref tab pfch pfne z = Ok (map (fun n => if n_pt n =? 0 then n else set_puppi n (puppi_pt tab (n_pt n) (alpha_sum z pfch n))) pfne)) /\
  (~ (forall n, In n pfne -> n_pt n <> 0 -> is_int (alpha_sum z pfch n)) -> simple_puppi_ref tab pfch pfne z = UB SignedOverflow).
Proof.
  intros HT HC HP. split.
  - intros H. apply ref_spec; try assumption. intros n Hn N0. apply (H n Hn N0).
  - intros H. assert (E : Forall (fun n => n_pt n <> 0 -> is_int (alpha_sum z pfch n)) pfne \/ exists n, In n pfne /\ n_pt n <> 0 /\ 2147483648 <= alpha_sum z pfch n).
    { clear. induction pfne as [|a l [IH|(n & Hn & B)]]; [left; constructor| |right; exists n; split; [right; exact Hn|exact B]].
      pose proof (alpha_sum_nonneg z pfch a). destruct (Z.eq_dec (n_pt a) 0); [left; constructor; [contradiction|exact IH]|].
      destruct (Z_lt_le_dec (alpha_sum z pfch a) 2147483648); [left; constructor; [unfold is_int; lia|exact IH]|right; exists a; split; [left; reflexivity|auto]]. }
    destruct E as [E|(n & Hn & N0 & B)]; [|exact (ref_exact_bad _ _ _ _ n HT HC HP Hn N0 B)].
    destruct H. intros n Hn. exact (proj1 (Forall_forall _ _) E n Hn).
Qed.

Lemma to_int_id x : is_int x -> to_int x = x.
Proof. unfold is_int, to_int. intros H. rewrite Z.mod_small by lia. lia. Qed.
Lemma int_sum_eq z l n : alpha_sum z l n < 2147483648 -> int_alpha_sum z l n = alpha_sum z l n.
Proof.
  induction l as [|c l IH]; intros H; [reflexivity|]. rewrite int_cons. change (alpha_sum z (c :: l) n) with (alpha_term z c n + alpha_sum z l n) in *.
  pose proof (alpha_term_nonneg z c n). pose proof (alpha_sum_nonneg z l n). rewrite IH by lia. rewrite to_int_id by (unfold is_int; lia). reflexivity.
Qed.

Lemma agree_when_defined tab pfch pfne z r r' : table_ok tab -> Forall (fun c => inS 16 (c_pt c)) pfch -> Forall (fun n => inS 16 (n_pt n)) pfne ->
  (forall n, In n pfne -> n_pt n = 0 -> n_puppi n = 0) ->
  simple_puppi_hw tab pfch pfne z = Ok r -> simple_puppi_ref tab pfch pfne z = Ok r' -> r = r'.
Proof.
  intros HT HC HP H0 Hh Hr.
  assert (S : forall n, In n pfne -> n_pt n <> 0 -> alpha_sum z pfch n < 2147483648).
  { intros n Hn N0. destruct (Z_lt_le_dec (alpha_sum z pfch n) 2147483648) as [L|L]; [exact L|].
    rewrite (ref_exact_bad tab pfch pfne z n HT HC HP Hn N0 L) in Hr. discriminate. }
  assert (P : forall n k, In n pfne -> is_int (int_alpha_sum z (firstn k pfch) n)).
  { intros n k Hn. destruct (is_int_dec (int_alpha_sum z (firstn k pfch) n)) as [I|I]; [exact I|].
    rewrite (hw_exact_bad tab pfch pfne z n k Hn I) in Hh. discriminate. }
  rewrite (hw_exact_good tab pfch pfne z HT HP P) in Hh. rewrite (ref_spec tab pfch pfne z HT HC HP S) in Hr.
  injection Hh as <-. injection Hr as <-. apply map_ext_in. intros n Hn. destruct (Z.eqb_spec (n_pt n) 0) as [E|E].
  - assert (Q : int_puppi_pt tab (n_pt n) (int_alpha_sum z pfch n) = 0) by (unfold int_puppi_pt; rewrite E, puppi_pt_0; destruct (_ <? _); reflexivity).
    rewrite Q. specialize (H0 n Hn E). destruct n. cbn in *. unfold set_puppi. cbn. congruence.
  - rewrite int_sum_eq by (apply S; assumption). unfold int_puppi_pt. pose proof (alpha_sum_nonneg z pfch n). destruct (Z.ltb_spec (alpha_sum z pfch n) 0); [lia|reflexivity].
Qed.

Lemma divide_int num den : 0 <= num < 131072 -> 0 <= den < 512 -> lut_shift15_divide num den = to_int (num * (32768 / Z.max 1 den)).
Proof. intros Hn Hd. unfold lut_shift15_divide. rewrite wrapU17, wrapU9, invert_eq by lia. reflexivity. Qed.

(** examples: the firmware is defined on a sum that wraps, and it is not on two tracks *)
Lemma wraps_example : (forall n k, In n [neu] -> is_int (int_alpha_sum 0 (firstn k [trk 1500]) n)) /\ ~ (forall n, In n [neu] -> n_pt n <> 0 -> is_int (alpha_sum 0 [trk 1500] n)) /\
  ~ (forall n k, In n [neu] -> is_int (int_alpha_sum 0 (firstn k [trk 1131; trk 1131]) n)).
Proof.
  split; [|split].
  - intros n k [<-|[]]. destruct k as [|[|k]]; cbn [firstn]; rewrite ?firstn_nil; vm_compute; split; congruence.
  - intros H. specialize (H neu (or_introl eq_refl) ltac:(discriminate)). vm_compute in H. destruct H as [_ H]. discriminate H.
  - intros H. specialize (H neu 2%nat (or_introl eq_refl)). vm_compute in H. destruct H as [_ H]. discriminate H.
Qed.
