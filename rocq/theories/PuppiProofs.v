(** Proofs about PUPPI. *)
From Coq Require Import Permutation.
From Verif Require Import Base BaseFacts Data PFHw SpecPF Puppi SpecPuppi.

Lemma shiftr5 x : Z.shiftr x 5 = x / 32.
Proof. rewrite Z.shiftr_div_pow2 by lia. reflexivity. Qed.
Lemma shiftr8 x : Z.shiftr x 8 = x / 256.
Proof. rewrite Z.shiftr_div_pow2 by lia. reflexivity. Qed.
Lemma shiftr10 x : Z.shiftr x 10 = x / 1024.
Proof. rewrite Z.shiftr_div_pow2 by lia. reflexivity. Qed.

Lemma wrapU9 x : 0 <= x < 512 -> wrapU 9 x = x.
Proof. intros H. apply wrapU_id. unfold inU. change (2 ^ 9) with 512. lia. Qed.
Lemma wrapU17 x : 0 <= x < 131072 -> wrapU 17 x = x.
Proof. intros H. apply wrapU_id. unfold inU. change (2 ^ 17) with 131072. lia. Qed.
Lemma wrapU16 x : 0 <= x < 65536 -> wrapU 16 x = x.
Proof. intros H. apply wrapU_id. unfold inU. change (2 ^ 16) with 65536. lia. Qed.
Lemma wrapU32 x : 0 <= x < 4294967296 -> wrapU 32 x = x.
Proof. intros H. apply wrapU_id. unfold inU. change (2 ^ 32) with 4294967296. lia. Qed.
Lemma wrapS32 x : -2147483648 <= x < 2147483648 -> wrapS 32 x = x.
Proof. intros H. apply wrapS_id; [lia|]. unfold inS. change (2 ^ (32 - 1)) with 2147483648. lia. Qed.
Lemma wrapU8 x : 0 <= x < 256 -> wrapU 8 x = x.
Proof. intros H. apply wrapU_id. unfold inU. change (2 ^ 8) with 256. lia. Qed.

Lemma dist2_nonneg a b c d : 0 <= dist2 a b c d.
Proof. unfold dist2. cbv zeta. nia. Qed.

Lemma recip_pos d : 0 <= d -> 0 <= 32768 / Z.max 1 d <= 32768.
Proof.
  intros H. split; [apply Z.div_pos; lia|]. apply Z.div_le_upper_bound; [lia|]. nia.
Qed.

Lemma invert_eq d : 0 <= d < 512 -> lut_shift15_invert d = 32768 / Z.max 1 d.
Proof.
  intros H. unfold lut_shift15_invert. destruct (Z.eqb_spec d 0) as [->|N]; [reflexivity|].
  replace (Z.max 1 d) with d by lia. pose proof (recip_pos d ltac:(lia)) as R. replace (Z.max 1 d) with d in R by lia. apply wrapU16. lia.
Qed.

Lemma alpha_term_nonneg z c n : 0 <= alpha_term z c n.
Proof.
  unfold alpha_term. destruct (_ && _); [|lia]. pose proof (dist2_nonneg (c_eta c) (c_phi c) (n_eta n) (n_phi n)) as D.
  pose proof (recip_pos (dist2 (c_eta c) (c_phi c) (n_eta n) (n_phi n) / 32) ltac:(lia)). assert (0 <= c_pt c * c_pt c / 32) by (apply Z.div_pos; nia). nia.
Qed.
Lemma alpha_sum_nonneg z l n : 0 <= alpha_sum z l n.
Proof. apply sumZ_nonneg. intros x Hx. apply in_map_iff in Hx as (c & <- & _). apply alpha_term_nonneg. Qed.

Lemma pt2_shift_eq c : pt2_shift c = Z.min (c_pt c * c_pt c / 32) 131071.
Proof.
  unfold pt2_shift. cbv zeta. rewrite shiftr5. assert (0 <= c_pt c * c_pt c / 32) by (apply Z.div_pos; nia).
  rewrite wrapU17; destruct (Z.ltb_spec (c_pt c * c_pt c / 32) 131071); lia.
Qed.

(** the body of the inner loop of both programs *)
Lemma cut_eq z c : ((z - c_z0 c >? DZMAX) || (z - c_z0 c <? - DZMAX)) = negb (Z.abs (z - c_z0 c) <=? 256).
Proof. unfold DZMAX. destruct (Z.leb_spec (Z.abs (z - c_z0 c)) 256); cbn [negb]; lia. Qed.

Lemma divide_exact num den : 0 <= num <= 131071 -> 0 <= den < 512 -> num * (32768 / Z.max 1 den) < 2147483648 ->
  lut_shift15_divide num den = num * (32768 / Z.max 1 den).
Proof.
  intros Hn Hd H. unfold lut_shift15_divide. rewrite wrapU17, wrapU9, invert_eq by lia.
  pose proof (recip_pos den ltac:(lia)). apply wrapS32. nia.
Qed.

Lemma hw_sum_eq pfch z n s : 0 <= s -> s + alpha_sum z pfch n < 2147483648 ->
  foldM (fun sum c =>
    if (z - c_z0 c >? DZMAX) || (z - c_z0 c <? - DZMAX) then Ok sum
    else let dr2 := dr2_int (c_eta c) (c_phi c) (n_eta n) (n_phi n) in
         if dr2 <=? DR2MAX
         then i32 (sum + lut_shift15_divide (pt2_shift c) (wrapU 9 (Z.shiftr dr2 5)))
         else Ok sum) pfch s = Ok (s + alpha_sum z pfch n).
Proof.
  revert s. induction pfch as [|c l IH]; intros s Hs H; [cbn; f_equal; lia|].
  change (alpha_sum z (c :: l) n) with (alpha_term z c n + alpha_sum z l n) in *.
  pose proof (alpha_term_nonneg z c n) as T0. pose proof (alpha_sum_nonneg z l n) as S0.
  cbn [foldM]. rewrite cut_eq. cbv zeta. change dr2_int with dist2. unfold DR2MAX.
  unfold alpha_term in H, T0 |- * at 1. set (d := dist2 (c_eta c) (c_phi c) (n_eta n) (n_phi n)) in *.
  assert (D0 : 0 <= d) by apply dist2_nonneg. clearbody d.
  destruct (Z.abs (z - c_z0 c) <=? 256); cbn [negb andb] in *; [|cbn [bind]; rewrite IH; [f_equal; lia|lia|lia]].
  destruct (Z.leb_spec d 8404) as [Hd|Hd]; [|cbn [bind]; rewrite IH; [f_equal; lia|lia|lia]].
  rewrite pt2_shift_eq, shiftr5, wrapU9 by lia.
  assert (P0 : 0 <= c_pt c * c_pt c / 32) by (apply Z.div_pos; nia).
  rewrite divide_exact by lia. rewrite i32_Ok by lia. cbn [bind]. rewrite IH by lia. f_equal. lia.
Qed.

Lemma ref_sum_eq pfch z n s : Forall (fun c => inS 16 (c_pt c)) pfch -> 0 <= s -> s + alpha_sum z pfch n < 2147483648 ->
  foldM (fun sum c =>
    if (z - c_z0 c >? DZMAX) || (z - c_z0 c <? - DZMAX) then Ok sum
    else let dr2 := dr2_int (c_eta c) (c_phi c) (n_eta n) (n_phi n) in
         if dr2 <=? DR2MAX
         then let dr2short := wrapU 9 (Z.shiftr dr2 5) in
              let pt2 := wrapS 32 (c_pt c * c_pt c) in
              let term := 32768 / (if dr2short >? 0 then dr2short else 1) in
              do term <- i32 (Z.min (Z.shiftr pt2 5) 131071 * term);
              i32 (sum + term)
         else Ok sum) pfch s = Ok (s + alpha_sum z pfch n).
Proof.
  intros HF. revert s. induction HF as [|c l Hc HF IH]; intros s Hs H; [cbn; f_equal; lia|].
  change (alpha_sum z (c :: l) n) with (alpha_term z c n + alpha_sum z l n) in *.
  pose proof (alpha_term_nonneg z c n) as T0. pose proof (alpha_sum_nonneg z l n) as S0.
  cbn [foldM]. rewrite cut_eq. cbv zeta. change dr2_int with dist2. unfold DR2MAX.
  unfold alpha_term in H, T0 |- * at 1. set (d := dist2 (c_eta c) (c_phi c) (n_eta n) (n_phi n)) in *.
  assert (D0 : 0 <= d) by apply dist2_nonneg. clearbody d.
  destruct (Z.abs (z - c_z0 c) <=? 256); cbn [negb andb] in *; [|cbn [bind]; rewrite IH; [f_equal; lia|lia|lia]].
  destruct (Z.leb_spec d 8404) as [Hd|Hd]; [|cbn [bind]; rewrite IH; [f_equal; lia|lia|lia]].
  unfold inS in Hc. change (2 ^ (16 - 1)) with 32768 in Hc.
  rewrite !shiftr5, wrapU9 by lia. rewrite (wrapS32 (c_pt c * c_pt c)) by nia.
  replace (if d / 32 >? 0 then d / 32 else 1) with (Z.max 1 (d / 32)) by (destruct (Z.gtb_spec (d / 32) 0); lia).
  assert (P0 : 0 <= c_pt c * c_pt c / 32) by (apply Z.div_pos; nia).
  rewrite i32_Ok by lia. cbn [bind]. rewrite i32_Ok by lia. cbn [bind]. rewrite IH by lia. f_equal. lia.
Qed.

Lemma nth_table tab e : table_ok tab -> 0 < e < 1174 -> rdZ tab e = Ok (nth (Z.to_nat e) tab 0) /\ 0 <= nth (Z.to_nat e) tab 0 <= 255.
Proof.
  intros [L F] H. assert (Le : (Z.to_nat e < length tab)%nat) by lia.
  split; [|exact (proj1 (Forall_forall _ _) F _ (nth_In tab 0 Le))].
  unfold rdZ. destruct (Z.ltb_spec e 0); [lia|]. apply rd_Ok. exact Le.
Qed.

Lemma scaled_rg pt w : inS 16 pt -> 0 <= w <= 255 -> pt_t (wrapS 32 (pt * w / 256)) = pt * w / 256.
Proof.
  unfold inS. change (2 ^ (16 - 1)) with 32768. intros H Hw.
  assert (-32768 <= pt * w / 256 <= 32767). { split; [apply Z.div_le_lower_bound; nia|apply Z.div_le_upper_bound; nia]. }
  rewrite wrapS32 by lia. apply wrapS16_id. lia.
Qed.

Lemma hw_apply_eq tab n s : table_ok tab -> inS 16 (n_pt n) -> 0 <= s < 2147483648 ->
  hw_apply tab n (wrapU 32 (Z.shiftr s 10)) = Ok (set_puppi n (puppi_pt tab (n_pt n) s)).
Proof.
  intros HT Hp Hs. rewrite shiftr10, wrapU32 by lia. unfold hw_apply, puppi_pt, PUPPI_TABLE_SIZE. cbv zeta.
  destruct (Z.ltb_spec (s / 1024) 1174) as [H|H].
  - destruct (Z.leb_spec (s / 1024) 0) as [H0|H0].
    + cbn [bind]. rewrite Z.mul_0_r. reflexivity.
    + unfold puppiweight. destruct (nth_table tab (s / 1024) HT ltac:(lia)) as [-> R]. cbn [rmap bind].
      rewrite wrapU8, shiftr8, scaled_rg by (assumption || lia). reflexivity.
  - destruct (Z.leb_spec (s / 1024) 0); [lia|]. reflexivity.
Qed.

Lemma Forall_nth_error_in {A} (P : A -> Prop) l i x : Forall P l -> nth_error l i = Some x -> P x.
Proof. intros H E. exact (proj1 (Forall_forall _ _) H x (nth_error_In _ _ E)). Qed.
Lemma mapM_map_Ok {A B} (f : A -> res B) g l : (forall x, In x l -> f x = Ok (g x)) -> mapM f l = Ok (map g l).
Proof.
  induction l as [|x l IH]; intros H; [reflexivity|]. cbn [mapM map]. rewrite H by (left; reflexivity). cbn [bind].
  rewrite IH; [reflexivity|]. intros y Hy. apply H. right. exact Hy.
Qed.

Lemma combine_map_self {A B} (f : A -> B) l : combine l (map f l) = map (fun x => (x, f x)) l.
Proof. induction l as [|x l IH]; [reflexivity|]. cbn [map combine]. f_equal. exact IH. Qed.
Lemma mapM_map {A B C} (f : B -> res C) (g : A -> B) l : mapM f (map g l) = mapM (fun x => f (g x)) l.
Proof. induction l as [|x l IH]; [reflexivity|]. cbn [map mapM]. rewrite IH. reflexivity. Qed.

Lemma hw_spec tab pfch pfne z : table_ok tab -> Forall (fun n => inS 16 (n_pt n)) pfne ->
  (forall n, In n pfne -> alpha_sum z pfch n < 2147483648) ->
  simple_puppi_hw tab pfch pfne z = Ok (map (fun n => set_puppi n (puppi_pt tab (n_pt n) (alpha_sum z pfch n))) pfne).
Proof.
  intros HT HP HS. unfold simple_puppi_hw.
  rewrite (mapM_map_Ok _ (fun n => wrapU 32 (Z.shiftr (alpha_sum z pfch n) 10))).
  - cbn [bind]. rewrite combine_map_self, mapM_map. apply mapM_map_Ok. intros n Hn.
    apply hw_apply_eq; [exact HT|exact (proj1 (Forall_forall _ _) HP n Hn)|]. pose proof (alpha_sum_nonneg z pfch n). specialize (HS n Hn). lia.
  - intros n Hn. unfold hw_sum. rewrite hw_sum_eq by (lia || (rewrite Z.add_0_l; apply HS; exact Hn)). reflexivity.
Qed.

Lemma ref_weight_eq tab pt s : table_ok tab -> inS 16 pt -> 0 <= s < 2147483648 ->
  exists w, ref_weight tab (Z.shiftr s 10) = Ok w /\ pt_t (wrapS 32 (Z.shiftr (pt * w) 8)) = puppi_pt tab pt s.
Proof.
  intros HT Hp Hs. rewrite shiftr10. unfold ref_weight, puppi_pt, PUPPI_TABLE_SIZE. cbv zeta.
  destruct (Z.gtb_spec (s / 1024) 0) as [H0|H0]; destruct (Z.leb_spec (s / 1024) 0) as [H1|H1]; try lia.
  - destruct (Z.ltb_spec (s / 1024) 1174) as [H|H].
    + replace (s / 1024 >=? 1174) with false by lia. destruct (nth_table tab (s / 1024) HT ltac:(lia)) as [-> R]. cbn [rmap].
      eexists. split; [reflexivity|]. rewrite wrapU8, shiftr8, scaled_rg by (assumption || lia). reflexivity.
    + replace (s / 1024 >=? 1174) with true by lia. exists 256. split; [reflexivity|].
      rewrite shiftr8, Z.div_mul by lia. unfold inS in Hp. change (2 ^ (16 - 1)) with 32768 in Hp. rewrite wrapS32 by lia. apply wrapS16_id. lia.
  - exists 0. split; [reflexivity|]. rewrite Z.mul_0_r. reflexivity.
Qed.

Lemma ref_spec tab pfch pfne z : table_ok tab -> Forall (fun c => inS 16 (c_pt c)) pfch -> Forall (fun n => inS 16 (n_pt n)) pfne ->
  (forall n, In n pfne -> n_pt n <> 0 -> alpha_sum z pfch n < 2147483648) ->
  simple_puppi_ref tab pfch pfne z = Ok (map (fun n => if n_pt n =? 0 then n else set_puppi n (puppi_pt tab (n_pt n) (alpha_sum z pfch n))) pfne).
Proof.
  intros HT HC HP HS. unfold simple_puppi_ref. apply mapM_map_Ok. intros n Hn.
  destruct (Z.eqb_spec (n_pt n) 0) as [E|E]; [reflexivity|].
  unfold ref_sum. rewrite ref_sum_eq; [|exact HC|lia|rewrite Z.add_0_l; apply HS; assumption]. cbn [bind]. rewrite Z.add_0_l.
  pose proof (alpha_sum_nonneg z pfch n). specialize (HS n Hn E).
  destruct (ref_weight_eq tab (n_pt n) (alpha_sum z pfch n) HT (proj1 (Forall_forall _ _) HP n Hn) ltac:(lia)) as (w & -> & R).
  cbn [bind]. rewrite R. reflexivity.
Qed.

Lemma puppi_pt_0 tab s : puppi_pt tab 0 s = 0.
Proof. unfold puppi_pt. cbv zeta. destruct (_ <=? _); [reflexivity|]. destruct (_ <? _); reflexivity. Qed.

Lemma hw_eq_ref tab pfch pfne z : table_ok tab -> Forall (fun c => inS 16 (c_pt c)) pfch -> Forall (fun n => inS 16 (n_pt n)) pfne ->
  (forall n, In n pfne -> alpha_sum z pfch n < 2147483648) ->
  (forall n, In n pfne -> n_pt n = 0 -> n_puppi n = 0) ->
  exists r, simple_puppi_hw tab pfch pfne z = Ok r /\ simple_puppi_ref tab pfch pfne z = Ok r.
Proof.
  intros HT HC HP HS H0. eexists. split; [apply hw_spec; assumption|]. rewrite ref_spec by auto. f_equal. apply map_ext_in.
  intros n Hn. destruct (Z.eqb_spec (n_pt n) 0) as [E|E]; [|reflexivity]. rewrite E, puppi_pt_0.
  destruct n as [a b c d e]. unfold set_puppi. cbn [n_pt n_eta n_phi n_id] in *. specialize (H0 _ Hn E). cbn [n_puppi] in H0. congruence.
Qed.

Lemma puppi_pt_bounds tab pt s : table_ok tab -> 0 <= pt -> 0 <= puppi_pt tab pt s <= pt.
Proof.
  intros HT Hp. unfold puppi_pt. cbv zeta. destruct (Z.leb_spec (s / 1024) 0); [lia|]. destruct (Z.ltb_spec (s / 1024) 1174); [|lia].
  destruct (nth_table tab (s / 1024) HT ltac:(lia)) as [_ R]. split; [apply Z.div_pos; nia|]. apply Z.div_le_upper_bound; nia.
Qed.

(** frame and scaling hold for every defined run, overflowing sums included *)
Lemma hw_apply_bounds tab n e r : table_ok tab -> inS 16 (n_pt n) -> hw_apply tab n e = Ok r ->
  (0 <= n_pt n -> 0 <= n_puppi r <= n_pt n) /\ r = set_puppi n (n_puppi r).
Proof.
  intros HT Hp H. unfold hw_apply in H. cbv zeta in H. unfold PUPPI_TABLE_SIZE in H. destruct (Z.ltb_spec e 1174) as [He|He].
  - apply bind_Ok in H as (w & Hw & H). injection H as <-. unfold set_puppi. cbn [n_pt n_eta n_phi n_id n_puppi]. split; [|reflexivity].
    assert (R : 0 <= w <= 255).
    { destruct (Z.leb_spec e 0); [injection Hw as <-; lia|]. unfold puppiweight in Hw. destruct (nth_table tab e HT ltac:(lia)) as [Eq R].
      rewrite Eq in Hw. cbn [rmap] in Hw. injection Hw as <-. rewrite wrapU8; lia. }
    intros P. rewrite shiftr8, scaled_rg by assumption. split; [apply Z.div_pos; nia|]. apply Z.div_le_upper_bound; nia.
  - injection H as <-. unfold set_puppi. cbn [n_pt n_eta n_phi n_id n_puppi]. split; [lia|reflexivity].
Qed.

Lemma hw_one tab pfch pfne z r i n : simple_puppi_hw tab pfch pfne z = Ok r -> nth_error pfne i = Some n ->
  exists s m, hw_sum pfch z n = Ok s /\ nth_error r i = Some m /\ hw_apply tab n (wrapU 32 (Z.shiftr s 10)) = Ok m.
Proof.
  intros H Hn. unfold simple_puppi_hw in H. apply bind_Ok in H as (es & He & H).
  apply mapM_Ok_inv, Forall2_nth_error in He as [Le He]. apply mapM_Ok_inv, Forall2_nth_error in H as [Lr H].
  assert (Li : (i < length pfne)%nat) by (apply nth_error_Some; congruence).
  destruct (nth_error_lt es i ltac:(lia)) as [e Ee]. specialize (He i _ _ Hn Ee). cbv beta in He.
  apply bind_Ok in He as (s & Hs & He). injection He as <-.
  rewrite combine_length in Lr. destruct (nth_error_lt r i ltac:(lia)) as [m Em].
  exists s, m. split; [exact Hs|]. split; [exact Em|].
  apply (H i (n, wrapU 32 (Z.shiftr s 10))); [|exact Em]. rewrite nth_error_combine, Hn, Ee. reflexivity.
Qed.

Lemma hw_length tab pfch pfne z r : simple_puppi_hw tab pfch pfne z = Ok r -> length r = length pfne.
Proof.
  intros H. unfold simple_puppi_hw in H. apply bind_Ok in H as (es & He & H).
  apply mapM_Ok_inv, Forall2_nth_error in He as [Le He]. apply mapM_Ok_inv, Forall2_nth_error in H as [Lr H].
  rewrite combine_length in Lr. lia.
Qed.

Lemma c21 tab pfch pfne z r : table_ok tab -> Forall (fun n => inS 16 (n_pt n)) pfne ->
  simple_puppi_hw tab pfch pfne z = Ok r ->
  length r = length pfne /\
  forall i n, nth_error pfne i = Some n -> exists m, nth_error r i = Some m /\
    n_pt m = n_pt n /\ n_eta m = n_eta n /\ n_phi m = n_phi n /\ n_id m = n_id n /\ (0 <= n_pt n -> 0 <= n_puppi m <= n_pt n).
Proof.
  intros HT HP H. split; [eapply hw_length; exact H|]. intros i n Hn.
  destruct (hw_one _ _ _ _ _ _ _ H Hn) as (s & m & _ & Hm & Ha). exists m. split; [exact Hm|].
  destruct (hw_apply_bounds _ _ _ _ HT (Forall_nth_error_in _ _ _ _ HP Hn) Ha) as [A B]. rewrite B. cbn. auto.
Qed.

Lemma hw_value tab pfch pfne z r i n : table_ok tab -> Forall (fun n => inS 16 (n_pt n)) pfne ->
  simple_puppi_hw tab pfch pfne z = Ok r -> nth_error pfne i = Some n -> alpha_sum z pfch n < 2147483648 ->
  nth_error r i = Some (set_puppi n (puppi_pt tab (n_pt n) (alpha_sum z pfch n))).
Proof.
  intros HT HP H Hn HS. destruct (hw_one _ _ _ _ _ _ _ H Hn) as (s & m & Hs & Hm & Ha).
  unfold hw_sum in Hs. rewrite hw_sum_eq in Hs by lia. injection Hs as <-.
  pose proof (alpha_sum_nonneg z pfch n).
  rewrite hw_apply_eq in Ha by (lia || assumption || exact (Forall_nth_error_in _ _ _ _ HP Hn)). rewrite Hm. congruence.
Qed.

Lemma alpha_sum_0 z pfch n : (forall c, In c pfch -> Z.abs (z - c_z0 c) <= 256 -> 8404 < dist2 (c_eta c) (c_phi c) (n_eta n) (n_phi n)) ->
  alpha_sum z pfch n = 0.
Proof.
  unfold alpha_sum. induction pfch as [|c l IH]; intros H; [reflexivity|]. cbn [map]. change (sumZ (?a :: ?b)) with (a + sumZ b).
  rewrite IH by (intros; apply H; cbn; auto). unfold alpha_term. specialize (H c (or_introl eq_refl)).
  destruct (Z.leb_spec (Z.abs (z - c_z0 c)) 256) as [Hz|Hz]; [|reflexivity].
  destruct (Z.leb_spec (dist2 (c_eta c) (c_phi c) (n_eta n) (n_phi n)) 8404); [|reflexivity]. specialize (H Hz). lia.
Qed.

Lemma c22_none tab pfch pfne z r i n : table_ok tab -> Forall (fun n => inS 16 (n_pt n)) pfne ->
  simple_puppi_hw tab pfch pfne z = Ok r -> nth_error pfne i = Some n ->
  (forall c, In c pfch -> Z.abs (z - c_z0 c) <= 256 -> 8404 < dist2 (c_eta c) (c_phi c) (n_eta n) (n_phi n)) ->
  nth_error r i = Some (set_puppi n 0).
Proof.
  intros HT HP H Hn HC. rewrite (hw_value _ _ _ _ _ _ _ HT HP H Hn); rewrite alpha_sum_0 by exact HC; [reflexivity|lia].
Qed.

Lemma c22_all tab pfch pfne z r i n : table_ok tab -> Forall (fun n => inS 16 (n_pt n)) pfne ->
  simple_puppi_hw tab pfch pfne z = Ok r -> nth_error pfne i = Some n ->
  1174 * 1024 <= alpha_sum z pfch n < 2147483648 -> nth_error r i = Some (set_puppi n (n_pt n)).
Proof.
  intros HT HP H Hn HS. rewrite (hw_value _ _ _ _ _ _ _ HT HP H Hn) by lia. unfold puppi_pt. cbv zeta.
  destruct (Z.leb_spec (alpha_sum z pfch n / 1024) 0); [lia|]. destruct (Z.ltb_spec (alpha_sum z pfch n / 1024) 1174); [lia|reflexivity].
Qed.

Lemma sumZ_perm l l' : Permutation l l' -> sumZ l = sumZ l'.
Proof. induction 1; cbn [sumZ fold_right] in *; unfold sumZ in *; cbn [fold_right]; lia. Qed.

Lemma alpha_sum_app z l1 l2 n : alpha_sum z (l1 ++ l2) n = alpha_sum z l1 n + alpha_sum z l2 n.
Proof. unfold alpha_sum. rewrite map_app. apply sumZ_app. Qed.
Lemma alpha_sum_perm z l l' n : Permutation l l' -> alpha_sum z l n = alpha_sum z l' n.
Proof. intros H. apply sumZ_perm, Permutation_map, H. Qed.

Lemma puppi_pt_mono tab pt s s' : table_ok tab -> table_monotone tab -> 0 <= pt -> 0 <= s <= s' -> puppi_pt tab pt s <= puppi_pt tab pt s'.
Proof.
  intros HT HM Hp Hs. pose proof (puppi_pt_bounds tab pt s HT Hp) as B. pose proof (puppi_pt_bounds tab pt s' HT Hp) as B'.
  unfold puppi_pt in *. cbv zeta in *. assert (E : s / 1024 <= s' / 1024) by (apply Z.div_le_mono; lia).
  destruct (Z.leb_spec (s / 1024) 0); [lia|]. destruct (Z.leb_spec (s' / 1024) 0); [lia|].
  destruct (Z.ltb_spec (s' / 1024) 1174).
  - destruct (Z.ltb_spec (s / 1024) 1174); [|lia]. apply Z.div_le_mono; [lia|]. apply Z.mul_le_mono_nonneg_l; [exact Hp|].
    destruct HT as [L _]. apply HM; lia.
  - destruct (Z.ltb_spec (s / 1024) 1174); lia.
Qed.

Lemma c23 tab pfch extra pfch' pfne z : table_ok tab -> table_monotone tab ->
  Forall (fun n => inS 16 (n_pt n) /\ 0 <= n_pt n) pfne -> Permutation pfch' (pfch ++ extra) ->
  (forall n, In n pfne -> alpha_sum z pfch' n < 2147483648) ->
  exists r r', simple_puppi_hw tab pfch pfne z = Ok r /\ simple_puppi_hw tab pfch' pfne z = Ok r' /\
    Forall2 (fun a b => n_puppi a <= n_puppi b) r r'.
Proof.
  intros HT HM HP HPm HS.
  assert (HP1 : Forall (fun n => inS 16 (n_pt n)) pfne) by (eapply Forall_impl; [|exact HP]; intros n [A _]; exact A).
  assert (LE : forall n, alpha_sum z pfch n <= alpha_sum z pfch' n).
  { intros n. rewrite (alpha_sum_perm _ _ _ _ HPm), alpha_sum_app. pose proof (alpha_sum_nonneg z extra n). lia. }
  do 2 eexists. split; [apply hw_spec; [exact HT|exact HP1|intros n Hn; specialize (LE n); specialize (HS n Hn); lia]|].
  split; [apply hw_spec; assumption|].
  clear HP1 HS. induction HP as [|n l [H1 H2] HP IH]; cbn [map]; constructor; [|exact IH].
  cbn [set_puppi n_puppi]. apply puppi_pt_mono; try assumption. split; [apply alpha_sum_nonneg|apply LE].
Qed.

Lemma alpha_term_bound z c n P : Z.abs (c_pt c) <= P -> alpha_term z c n <= P * P * 1024.
Proof.
  intros H. unfold alpha_term. destruct (_ && _); [|nia].
  pose proof (recip_pos (dist2 (c_eta c) (c_phi c) (n_eta n) (n_phi n) / 32)) as R.
  pose proof (dist2_nonneg (c_eta c) (c_phi c) (n_eta n) (n_phi n)) as D. specialize (R ltac:(lia)).
  set (q := 32768 / _) in *. clearbody q. set (t := Z.min _ _).
  assert (T : 0 <= t /\ 32 * t <= P * P).
  { assert (c_pt c * c_pt c <= P * P) by nia. assert (0 <= c_pt c * c_pt c) by nia. unfold t. split; [|]; lia. }
  nia.
Qed.
Lemma alpha_sum_bound z pfch n P : 0 <= P -> Forall (fun c => Z.abs (c_pt c) <= P) pfch -> alpha_sum z pfch n <= Z.of_nat (length pfch) * (P * P * 1024).
Proof.
  intros HP H. unfold alpha_sum. induction H as [|c l Hc H IH]; [cbn; lia|]. cbn [map]. change (sumZ (?a :: ?b)) with (a + sumZ b).
  pose proof (alpha_term_bound z c n P Hc). cbn [length]. lia.
Qed.

Lemma c24 tab pfch pfne z P : table_ok tab -> 0 <= P -> Forall (fun c => inS 16 (c_pt c) /\ Z.abs (c_pt c) <= P) pfch ->
  Forall (fun n => inS 16 (n_pt n)) pfne -> (forall n, In n pfne -> n_pt n = 0 -> n_puppi n = 0) ->
  Z.of_nat (length pfch) * (P * P) < 2097152 ->
  exists r, simple_puppi_hw tab pfch pfne z = Ok r /\ simple_puppi_ref tab pfch pfne z = Ok r.
Proof.
  intros HT HP HC HN H0 HB. apply hw_eq_ref; try assumption.
  - eapply Forall_impl; [|exact HC]. intros c [A _]. exact A.
  - intros n _. assert (HC' : Forall (fun c => Z.abs (c_pt c) <= P) pfch) by (eapply Forall_impl; [|exact HC]; intros c [_ A]; exact A).
    pose proof (alpha_sum_bound z pfch n P HP HC'). lia.
Qed.

(** ** Counterexamples.  [tab0]: an arbitrary table (all zero). *)
Definition tab0 : list Z := map (fun _ => 0) (seq 0 (Z.to_nat 1174)).
Definition trk (pt : Z) : PFCh := mkCh pt 0 0 0 0.
Definition neu : PFNe := mkNe 100 0 0 1 0.
Lemma tab0_ok : table_ok tab0.
Proof.
  split; [vm_compute; reflexivity|]. apply Forall_forall. intros w Hw. apply in_map_iff in Hw as (i & <- & _). lia.
Qed.

Lemma c24_hw_overflow : exists tab pfch pfne z, table_ok tab /\ Forall ch_ok pfch /\ Forall ne_ok pfne /\
  simple_puppi_hw tab pfch pfne z = UB SignedOverflow /\ simple_puppi_ref tab pfch pfne z = UB SignedOverflow.
Proof.
  exists tab0, [trk 1131; trk 1131], [neu], 0. split; [exact tab0_ok|]. split; [repeat constructor; cbn; lia|]. split; [repeat constructor; cbn; lia|].
  split; vm_compute; reflexivity.
Qed.
Lemma c24_one_track : exists tab pfch pfne z r, table_ok tab /\ Forall ch_ok pfch /\ Forall ne_ok pfne /\ length pfch = 1%nat /\
  simple_puppi_hw tab pfch pfne z = Ok r /\ simple_puppi_ref tab pfch pfne z = UB SignedOverflow.
Proof.
  exists tab0, [trk 1500], [neu], 0, [set_puppi neu 100]. split; [exact tab0_ok|]. split; [repeat constructor; cbn; lia|]. split; [repeat constructor; cbn; lia|].
  split; [reflexivity|]. split; vm_compute; reflexivity.
Qed.
Lemma c24_suppressed : exists tab pfch c pfne z r, table_ok tab /\ Forall ch_ok (pfch ++ [c]) /\ Forall ne_ok pfne /\
  simple_puppi_hw tab pfch pfne z = Ok [set_puppi neu 100] /\ pfne = [neu] /\
  simple_puppi_hw tab (pfch ++ [c]) pfne z = Ok r /\ r = [set_puppi neu 0].
Proof.
  exists tab0, [trk 3000], (trk 6), [neu], 0, [set_puppi neu 0]. split; [exact tab0_ok|]. split; [repeat constructor; cbn; lia|]. split; [repeat constructor; cbn; lia|].
  repeat split; vm_compute; reflexivity.
Qed.

(** ** LUT division *)
Lemma c25 num den : 0 <= num < 131072 -> 0 < den < 512 -> num * (32768 / den) < 2147483648 ->
  let q := lut_shift15_divide num den in
  q * den <= num * 32768 /\ num * 32768 - num * den <= q * den /\ (num <> 0 -> num * 32768 - num * den < q * den) /\
  ((exists k, 0 <= k <= 8 /\ den = 2 ^ k) -> q * den = num * 32768).
Proof.
  intros Hn Hd H. cbv zeta. rewrite divide_exact by (replace (Z.max 1 den) with den by lia; lia).
  replace (Z.max 1 den) with den by lia. set (r := 32768 / den).
  assert (E : 32768 = den * r + 32768 mod den) by (apply Z.div_mod; lia). assert (M : 0 <= 32768 mod den < den) by (apply Z.mod_pos_bound; lia).
  repeat split; try nia.
  intros (k & Hk & ->). assert (D : 32768 mod 2 ^ k = 0).
  { apply Z.mod_divide; [lia|]. exists (2 ^ (15 - k)). rewrite <- Z.pow_add_r by lia. replace (15 - k + k) with 15 by lia. reflexivity. }
  nia.
Qed.
Lemma c25_zero num : lut_shift15_divide num 0 = lut_shift15_divide num 1.
Proof. reflexivity. Qed.
Lemma c25_overflow : exists num den, 0 <= num < 131072 /\ 0 < den < 512 /\ lut_shift15_divide num den < 0.
Proof. exists 131071, 1. split; [lia|]. split; [lia|]. vm_compute. reflexivity. Qed.
