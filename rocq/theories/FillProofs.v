(** Filling objects from floating point. *)
From Coq Require Import QArith Qpower Qround Qabs Lqa.
From Verif Require Import Base BaseFacts Data Discrete DiscreteIO SpecIO IOProofs Fill SpecFill FloatFacts.
Local Open Scope Z_scope.

(** ** float *)
Definition u32 : Q := 1 # 16777216.
Definition t32 : Q := p2 (-150).
Lemma t32_small : (0 < t32)%Q /\ (t32 < 1 # 1000000000000000000000000)%Q. Proof. split; reflexivity. Qed.
Lemma rnd32_error x : (Qabs (rnd 24 (-149) x - x) <= Qabs x * u32 + t32)%Q.
Proof. exact (rnd_error 24 (-149) x). Qed.
Lemma f32_fin x : (Qabs x <= p2 126)%Q -> exists y, f32 x = Fin y /\ (y == rnd 24 (-149) x)%Q.
Proof.
  intros H. unfold f32, fl_round. pose proof (rnd32_error x) as E. pose proof (Qred_correct (rnd 24 (-149) x)) as R. set (y := Qred (rnd 24 (-149) x)) in *.
  destruct (Qle_bool (p2 128) (Qabs y)) eqn:B; [|exists y; split; [reflexivity|exact R]]. apply Qle_bool_iff in B. exfalso. rewrite R in B.
  assert (T : (Qabs (rnd 24 (-149) x) <= Qabs x + Qabs (rnd 24 (-149) x - x))%Q). { setoid_replace (rnd 24 (-149) x) with (x + (rnd 24 (-149) x - x))%Q at 1 by ring. apply Qabs_triangle. }
  pose proof (Qabs_nonneg x). unfold u32, t32 in E. change (p2 128) with (340282366920938463463374607431768211456 # 1)%Q in B. change (p2 126) with (85070591730234615865843651857942052864 # 1)%Q in H. pose proof t32_small as (_ & TS). unfold t32 in TS. lra.
Qed.
Lemma f32_out x y : f32 x = Fin y -> (y == rnd 24 (-149) x)%Q.
Proof. unfold f32, fl_round. destruct (Qle_bool _ _); [discriminate|]. intros E. injection E as <-. apply Qred_correct. Qed.
Lemma f32_big x : f32 x = NaN -> False.
Proof. unfold f32, fl_round. destruct (Qle_bool _ _); discriminate. Qed.
Lemma f32_inf x : f32 x = Inf -> (p2 126 < Qabs x)%Q.
Proof. intros E. destruct (Qlt_le_dec (p2 126) (Qabs x)) as [L|L]; [exact L|]. destruct (f32_fin x L) as (y & E' & _). congruence. Qed.

(** ** Conversion to an integer type *)
Definition between (lo hi n : Z) : bool := (lo <=? n) && (n <? hi).
Lemma to_int_ok f x n : to_int f (Fin x) = Ok n -> n = roundQ x /\ f n = true.
Proof. unfold to_int. destruct (f (roundQ x)) eqn:E; [|discriminate]. intros H. injection H as <-. auto. Qed.
Lemma to_int_fin f x n : to_int f x = Ok n -> exists y, x = Fin y.
Proof. destruct x; [eauto|discriminate|discriminate]. Qed.
(** multiplying by a scale *)
Lemma scaled_ok f c x n : to_int f (fmul (Fin x) c) = Ok n -> f n = true /\ exists y, (y == rnd 24 (-149) (x * c))%Q /\ n = roundQ y.
Proof.
  intros H. unfold fmul in H. destruct (to_int_fin _ _ _ H) as (y & E). rewrite E in H. apply to_int_ok in H as (-> & F). split; [exact F|]. exists y. split; [apply f32_out; exact E|reflexivity].
Qed.
Lemma scaled_near f c x n : to_int f (fmul (Fin x) c) = Ok n -> f n = true /\ (Qabs (inject_Z n - x * c) <= (1 # 2) + Qabs (x * c) * u32 + t32)%Q.
Proof.
  intros H. destruct (scaled_ok _ _ _ _ H) as (F & y & Ey & ->). split; [exact F|]. pose proof (round_near y) as A. pose proof (rnd32_error (x * c)) as B. rewrite <- Ey in B. 
  setoid_replace (inject_Z (roundQ y) - x * c)%Q with ((inject_Z (roundQ y) - y) + (y - x * c))%Q by ring. pose proof (Qabs_triangle (inject_Z (roundQ y) - y) (y - x * c)). lra.
Qed.
Lemma scaled_mono f c x x' n n' : (0 < c)%Q -> to_int f (fmul (Fin x) c) = Ok n -> to_int f (fmul (Fin x') c) = Ok n' -> (x <= x')%Q -> n <= n'.
Proof.
  intros Hc H H' L. destruct (scaled_ok _ _ _ _ H) as (_ & y & Ey & ->). destruct (scaled_ok _ _ _ _ H') as (_ & y' & Ey' & ->). apply round_mono. rewrite Ey, Ey'. apply rnd_mono; [lia|]. nra.
Qed.
(** when the product has few bits *)
Lemma scaled_exact f c x k j : (x * c == inject_Z k * p2 j)%Q -> Z.abs k < 2 ^ 24 -> -149 <= j -> (forall n, f n = true -> Z.abs n < 2 ^ 60) ->
  to_int f (fmul (Fin x) c) = let n := roundQ (x * c) in if f n then Ok n else UB BadConversion.
Proof.
  intros E Hk Hj Hf. cbv zeta. pose proof (rnd_exact 24 (-149) ltac:(lia) (x * c) k j E Hk Hj) as R. unfold fmul.
  destruct (Qlt_le_dec (p2 126) (Qabs (x * c))) as [L|L].
  - assert (N : f (roundQ (x * c)) = false).
    { destruct (f (roundQ (x * c))) eqn:F; [|reflexivity]. exfalso. apply Hf in F. pose proof (round_near (x * c)) as A. pose proof (Qabs_triangle (inject_Z (roundQ (x * c))) (x * c - inject_Z (roundQ (x * c)))) as T.
      setoid_replace (inject_Z (roundQ (x * c)) + (x * c - inject_Z (roundQ (x * c))))%Q with (x * c)%Q in T by ring. rewrite (Qabs_Qminus (x * c)) in T.
      assert (B : (Qabs (inject_Z (roundQ (x * c))) < inject_Z (2 ^ 60))%Q) by (change (Qabs (inject_Z (roundQ (x * c)))) with (inject_Z (Z.abs (roundQ (x * c)))); apply injZ_lt; exact F).
      change (p2 126) with (85070591730234615865843651857942052864 # 1)%Q in L. change (inject_Z (2 ^ 60)) with (1152921504606846976 # 1)%Q in B. lra. }
    rewrite N. unfold to_int. destruct (f32 (x * c)) as [y| |] eqn:F; [|reflexivity|reflexivity]. assert (Ey : roundQ y = roundQ (x * c)) by (apply round_comp; rewrite (f32_out _ _ F); exact R). rewrite Ey, N. reflexivity.
  - destruct (f32_fin (x * c) L) as (y & -> & Ey). unfold to_int. rewrite (round_comp y (x * c)) by (rewrite Ey; exact R). reflexivity.
Qed.
Lemma i16_iff n : is_i16 n = true <-> inS 16 n. Proof. unfold is_i16, inS. rewrite andb_true_iff, Z.leb_le, Z.ltb_lt. reflexivity. Qed.
Lemma u16_iff n : is_u16 n = true <-> inU 16 n. Proof. unfold is_u16, inU. rewrite andb_true_iff, Z.leb_le, Z.ltb_lt. reflexivity. Qed.
Lemma i32_iff n : is_i32 n = true <-> inS 32 n. Proof. unfold is_i32, inS. rewrite andb_true_iff, Z.leb_le, Z.ltb_lt. reflexivity. Qed.

(** ** Numbers of the type float *)
Lemma f32_bits b x : f32_number b x -> exists k j, (x == inject_Z k * p2 j)%Q /\ Z.abs k < 2 ^ 24 /\ -149 <= j.
Proof.
  intros (Hb & _ & E). assert (HA : exists k j, (f32_abs b == inject_Z k * p2 j)%Q /\ Z.abs k < 2 ^ 24 /\ -149 <= j).
  { unfold f32_abs. set (e := (b / 2 ^ 23) mod 2 ^ 8). set (f := b mod 2 ^ 23). assert (Hf : 0 <= f < 2 ^ 23) by (apply Z.mod_pos_bound; lia). assert (He : 0 <= e < 2 ^ 8) by (apply Z.mod_pos_bound; lia).
    destruct (Z.eqb_spec e 0) as [Z|Z]; [exists f, (-149)|exists (2 ^ 23 + f), (e - 150)]; (split; [reflexivity|]); lia. }
  destruct HA as (k & j & EA & HK & HJ). destruct (2 ^ 31 <=? b); [exists (- k), j|exists k, j]; (split; [rewrite E, EA; try rewrite inject_Z_opp; ring|]; split; [lia|exact HJ]).
Qed.
Lemma round_nearest y n : roundQ y = n <-> nearest y n.
Proof.
  unfold nearest. split.
  - intros <-. pose proof (round_near y) as A. apply Qle_lt_or_eq in A as [A|A]; [left; exact A|right; split; [exact A|]].
    destruct (Qlt_le_dec y 0) as [L|L].
    + rewrite (round_neg y L) in *. pose proof (floor_bounds (- y + (1 # 2))) as (_ & B). 
      rewrite (Qabs_neg y) by lra. rewrite inject_Z_opp in *. set (f := inject_Z (Qfloor (- y + (1 # 2)))) in *. pose proof (Qle_Qabs (f)). rewrite Qabs_opp in *. 
      destruct (Qlt_le_dec (- f - y) 0) as [G|G]; [rewrite Qabs_neg in A by lra; lra|rewrite Qabs_pos in A by lra; lra].
    + rewrite (round_pos y L) in *. pose proof (floor_bounds (y + (1 # 2))) as (_ & B). rewrite (Qabs_pos y) by lra. set (f := inject_Z (Qfloor (y + (1 # 2)))) in *. pose proof (Qle_Qabs f).
      destruct (Qlt_le_dec (f - y) 0) as [G|G]; [rewrite Qabs_neg in A by lra; lra|rewrite Qabs_pos in A by lra; lra].
  - intros [H|(H & G)]; [apply near_unique; exact H|].
    assert (C : (inject_Z n - y == 1 # 2)%Q \/ (inject_Z n - y == - (1 # 2))%Q) by (destruct (Qlt_le_dec (inject_Z n - y) 0) as [L|L]; [right; rewrite Qabs_neg in H by lra; lra|left; rewrite Qabs_pos in H by lra; lra]).
    destruct (Qlt_le_dec y 0) as [L|L].
    + destruct C as [C|C].
      * exfalso. rewrite (Qabs_neg y) in G by lra. destruct (Qlt_le_dec (inject_Z n) 0) as [K|K]; [rewrite Qabs_neg in G by lra; lra|]. rewrite Qabs_pos in G by lra. assert (J : (inject_Z n < inject_Z 1)%Q) by (change (inject_Z 1) with 1%Q; lra). apply Zlt_of in J. assert (J2 : (inject_Z 0 <= inject_Z n)%Q) by exact K. apply Zle_of in J2. assert (n = 0) by lia. subst n. change (inject_Z 0) with 0%Q in *. lra.
      * rewrite round_neg by exact L. assert (F : (- y + (1 # 2) == inject_Z (- n))%Q) by (rewrite inject_Z_opp; lra). rewrite (Qfloor_comp _ _ F), Qfloor_Z. lia.
    + destruct C as [C|C].
      * rewrite round_pos by exact L. assert (F : (y + (1 # 2) == inject_Z n)%Q) by lra. rewrite (Qfloor_comp _ _ F), Qfloor_Z. reflexivity.
      * exfalso. rewrite (Qabs_pos y) in G by lra. destruct (Qlt_le_dec (inject_Z n) 0) as [K|K]; [|rewrite Qabs_pos in G by lra; lra]. rewrite Qabs_neg in G by lra. assert (J : (inject_Z (-1) < inject_Z n)%Q) by (change (inject_Z (-1)) with (-1)%Q; lra). apply Zlt_of in J. change 0%Q with (inject_Z 0) in K. apply Zlt_of in K. lia.
Qed.

(** ** The scales *)
Lemma scale_values : PT_SCALE = (4 # 1)%Q /\ ETAPHI_SCALE = (15019745 # 65536)%Q /\ INVPT_SCALE = (20000 # 1)%Q /\ VTX_PHI_SCALE = (400000 # 1)%Q /\ VTX_ETA_SCALE = (100000 # 1)%Q /\ Z0_SCALE = (20 # 1)%Q /\ PUPPI_SCALE = (100 # 1)%Q /\ VTX_ETA_1p3 = 130000.
Proof. vm_compute. repeat split. Qed.
Lemma etaphi_value : ETAPHI_SCALE = (15019745 # 65536)%Q. Proof. vm_compute. reflexivity. Qed.
Lemma vphi_value : VTX_PHI_SCALE = (400000 # 1)%Q. Proof. vm_compute. reflexivity. Qed.
Lemma veta_value : VTX_ETA_SCALE = (100000 # 1)%Q. Proof. vm_compute. reflexivity. Qed.
Lemma i16_small n : is_i16 n = true -> Z.abs n < 2 ^ 60. Proof. rewrite i16_iff. unfold inS. lia. Qed.

(** ** The value that is stored *)
Lemma pt_exact b x : f32_number b x -> exists n, nearest (x * (4 # 1)) n /\ fill_pt (Fin x) = if is_i16 n then Ok n else UB BadConversion.
Proof.
  intros H. destruct (f32_bits b x H) as (k & j & E & Hk & Hj). exists (roundQ (x * (4 # 1))). split; [apply round_nearest; reflexivity|].
  unfold fill_pt, round_i16. refine (scaled_exact is_i16 PT_SCALE x k (j + 2) _ Hk ltac:(lia) i16_small).
  unfold PT_SCALE. rewrite E, Qpower_plus by discriminate. change (p2 2) with (4 # 1)%Q. ring.
Qed.
Lemma pt_stored b x n : f32_number b x -> nearest (x * (4 # 1)) n -> (inS 16 n -> fill_pt (Fin x) = Ok n) /\ (~ inS 16 n -> fill_pt (Fin x) = UB BadConversion).
Proof.
  intros H N. destruct (pt_exact b x H) as (m & M & E). assert (m = n) by (apply round_nearest in N, M; congruence). subst m. rewrite E. destruct (is_i16 n) eqn:B.
  - apply i16_iff in B. split; [reflexivity|contradiction].
  - split; [|reflexivity]. intros C. apply i16_iff in C. congruence.
Qed.
(** the range in which the conversion is defined *)
Lemma to_int_ub f x : (forall n, to_int f x <> Ok n) -> to_int f x = UB BadConversion.
Proof. intros H. unfold to_int in *. destruct x as [a| |]; [|reflexivity|reflexivity]. cbv zeta in *. destruct (f (roundQ a)); [|reflexivity]. destruct (H (roundQ a)). reflexivity. Qed.
Lemma inject_bound n b : Z.abs n <= b -> (- inject_Z b <= inject_Z n)%Q /\ (inject_Z n <= inject_Z b)%Q.
Proof. intros H. rewrite <- inject_Z_opp. split; apply injZ_le; lia. Qed.
Lemma scaled_inside f lo hi c x : Z.abs lo <= 65536 -> Z.abs hi <= 65536 -> (forall n, f n = true <-> lo <= n <= hi) -> well_inside (x * c) lo hi -> exists n, to_int f (fmul (Fin x) c) = Ok n.
Proof.
  intros Hlo Hhi Hf (L & R). destruct (inject_bound _ _ Hlo) as (L1 & L2). destruct (inject_bound _ _ Hhi) as (R1 & R2). change (inject_Z 65536) with (65536 # 1)%Q in *.
  assert (B : (Qabs (x * c) <= 65537 # 1)%Q) by (apply Qabs_Qle_condition; lra).
  unfold fmul. destruct (f32_fin (x * c)) as (y & -> & Ey). { change (p2 126) with (85070591730234615865843651857942052864 # 1)%Q. lra. }
  unfold to_int. pose proof (rnd32_error (x * c)) as E. rewrite <- Ey in E. pose proof t32_small as (_ & TS). unfold u32 in E.
  assert (E' : (Qabs (y - x * c) <= 1 # 200)%Q) by lra. apply Qabs_Qle_condition in E'. pose proof (round_near y) as N. apply Qabs_Qle_condition in N.
  assert (F : f (roundQ y) = true).
  { apply Hf. split.
    - assert (K : (inject_Z (lo - 1) < inject_Z (roundQ y))%Q) by (replace (lo - 1) with (lo + -1) by lia; rewrite inject_Z_plus; change (inject_Z (-1)) with (-1)%Q; lra). apply Zlt_of in K. lia.
    - assert (K : (inject_Z (roundQ y) < inject_Z (hi + 1))%Q) by (rewrite inject_Z_plus; change (inject_Z 1) with (1)%Q; lra). apply Zlt_of in K. lia. }
  cbv zeta. rewrite F. eauto.
Qed.
Lemma scaled_outside f lo hi c x : Z.abs lo <= 65536 -> Z.abs hi <= 65536 -> (forall n, f n = true <-> lo <= n <= hi) -> well_outside (x * c) lo hi -> to_int f (fmul (Fin x) c) = UB BadConversion.
Proof.
  intros Hlo Hhi Hf O. apply to_int_ub. intros n H. apply scaled_near in H as (F & N). apply Hf in F as (F1 & F2). destruct (inject_bound _ _ Hlo) as (L1 & L2). destruct (inject_bound _ _ Hhi) as (R1 & R2). change (inject_Z 65536) with (65536 # 1)%Q in *.
  apply injZ_le in F1, F2. pose proof t32_small as (_ & TS). unfold u32 in N. set (y := (x * c)%Q) in *. set (q := inject_Z n) in *. 
  destruct (Qlt_le_dec y 0) as [Y|Y].
  - rewrite (Qabs_neg y) in N by lra. apply Qabs_Qle_condition in N. destruct O; lra.
  - rewrite (Qabs_pos y) in N by lra. apply Qabs_Qle_condition in N. destruct O; lra.
Qed.
Lemma scaled_close f lo hi c x n : Z.abs lo <= 65536 -> Z.abs hi <= 65536 -> (forall n, f n = true <-> lo <= n <= hi) -> to_int f (fmul (Fin x) c) = Ok n -> lo <= n <= hi /\ (Qabs (inject_Z n - x * c) <= (1 # 2) + (1 # 200))%Q.
Proof.
  intros Hlo Hhi Hf H. apply scaled_near in H as (F & N). apply Hf in F. split; [exact F|]. destruct F as (F1 & F2). destruct (inject_bound _ _ Hlo) as (L1 & L2). destruct (inject_bound _ _ Hhi) as (R1 & R2). change (inject_Z 65536) with (65536 # 1)%Q in *.
  apply injZ_le in F1, F2. pose proof t32_small as (_ & TS). unfold u32 in N. set (y := (x * c)%Q) in *. set (q := inject_Z n) in *. apply Qabs_Qle_condition.
  destruct (Qlt_le_dec y 0) as [Y|Y].
  - rewrite (Qabs_neg y) in N by lra. apply Qabs_Qle_condition in N. lra.
  - rewrite (Qabs_pos y) in N by lra. apply Qabs_Qle_condition in N. lra.
Qed.
Lemma i16_range n : is_i16 n = true <-> -32768 <= n <= 32767. Proof. rewrite i16_iff. unfold inS. lia. Qed.
Lemma u16_range n : is_u16 n = true <-> 0 <= n <= 65535. Proof. rewrite u16_iff. unfold inU. lia. Qed.
Lemma not_finite_ub f x c : (x = Inf \/ x = NaN) -> to_int f (fmul x c) = UB BadConversion.
Proof. intros [-> | ->]; reflexivity. Qed.

(** ** phi *)
Lemma phi_ok x h : fill_phi x = Ok h -> exists n, fill_eta x = Ok n /\ h = Z.rem n 1440.
Proof. unfold fill_phi, fill_eta. destruct (round_i16 _) as [n|k]; cbn; [|discriminate]. intros E. injection E as <-. eauto. Qed.

(** ** Reading and filling again *)
Lemma of_int_exact n : Z.abs n < 2 ^ 24 -> exists y, of_int n = Fin y /\ (y == inject_Z n)%Q.
Proof.
  intros H. unfold of_int. destruct (f32_fin (inject_Z n)) as (y & -> & E).
  { destruct (inject_bound n 16777216 ltac:(lia)) as (A & B). apply Qabs_Qle_condition. change (p2 126) with (85070591730234615865843651857942052864 # 1)%Q. change (inject_Z 16777216) with (16777216 # 1)%Q in *. lra. }
  exists y. split; [reflexivity|]. rewrite E. apply (rnd_exact 24 (-149) ltac:(lia) _ n 0); [change (p2 0) with 1%Q; ring|exact H|lia].
Qed.
Lemma small_product a b B : (0 <= a)%Q -> (0 <= b)%Q -> (b <= B)%Q -> (a * b <= a * B)%Q.
Proof. intros. nra. Qed.
Lemma div_bound x c : (1 <= c)%Q -> (Qabs (x / c) <= Qabs x)%Q.
Proof.
  intros H. unfold Qdiv. rewrite Qabs_Qmult. assert (I : (Qabs (/ c) <= 1)%Q). { rewrite Qabs_pos by (apply Qinv_le_0_compat; lra). apply Qle_shift_inv_r; lra. }
  pose proof (Qabs_nonneg x). pose proof (Qabs_nonneg (/ c)). nra.
Qed.
Lemma back c n : (1 <= c)%Q -> (c <= 1000000 # 1)%Q -> Z.abs n <= 4000000 -> exists y, fmul (fdiv (of_int n) c) c = Fin y /\ (Qabs (inject_Z n - y) < 1 # 2)%Q.
Proof.
  intros C1 C2 Hn. destruct (of_int_exact n ltac:(lia)) as (m & -> & Em). assert (Bm : (Qabs m <= 4000000 # 1)%Q). { rewrite Em. destruct (inject_bound n 4000000 Hn) as (A & B). apply Qabs_Qle_condition. change (inject_Z 4000000) with (4000000 # 1)%Q in *. lra. }
  unfold fdiv. pose proof (div_bound m c C1) as DB. set (q := (m / c)%Q) in *. assert (Eq : (q * c == m)%Q) by (unfold q; field; lra).
  destruct (f32_fin q) as (q' & -> & Eq'). { change (p2 126) with (85070591730234615865843651857942052864 # 1)%Q. lra. }
  pose proof (rnd32_error q) as E. rewrite <- Eq' in E. pose proof t32_small as (T0 & TS). unfold u32 in E.
  assert (E1 : (Qabs (q' * c - m) <= (24 # 100))%Q).
  { rewrite <- Eq. setoid_replace (q' * c - q * c)%Q with ((q' - q) * c)%Q by ring. rewrite Qabs_Qmult, (Qabs_pos c) by lra. rewrite <- Eq, Qabs_Qmult, (Qabs_pos c) in Bm by lra.
    pose proof (Qabs_nonneg q). assert (S1 : (Qabs (q' - q) * c <= (Qabs q * (1 # 16777216) + t32) * c)%Q) by (apply Qmult_le_compat_r; lra).
    assert (S2 : (t32 * c <= 1 # 1000000)%Q) by nra. lra. }
  unfold fmul. assert (B2 : (Qabs (q' * c) <= 4000001 # 1)%Q). { apply Qabs_Qle_condition in E1, Bm. apply Qabs_Qle_condition. lra. }
  destruct (f32_fin (q' * c)) as (y & -> & Ey). { change (p2 126) with (85070591730234615865843651857942052864 # 1)%Q. lra. }
  exists y. split; [reflexivity|]. pose proof (rnd32_error (q' * c)) as G. rewrite <- Ey in G. unfold u32 in G. assert (G1 : (Qabs (y - q' * c) <= 24 # 100)%Q) by lra. apply Qabs_Qle_condition in G1, E1. apply Qabs_Qlt_condition. rewrite <- Em. lra.
Qed.
Lemma back_int f c n : (1 <= c)%Q -> (c <= 1000000 # 1)%Q -> Z.abs n <= 4000000 -> f n = true -> to_int f (fmul (fdiv (of_int n) c) c) = Ok n.
Proof. intros C1 C2 H F. destruct (back c n C1 C2 H) as (y & -> & E). unfold to_int. rewrite (near_unique n y E). cbv zeta. rewrite F. reflexivity. Qed.
Lemma pt_back n : inS 16 n -> fill_pt (float_pt n) = Ok n.
Proof. intros H. unfold fill_pt, float_pt, round_i16. apply (back_int is_i16 PT_SCALE); [discriminate|discriminate|unfold inS in H; lia|apply i16_iff; exact H]. Qed.
Lemma eta_back n : inS 16 n -> fill_eta (float_angle n) = Ok n.
Proof. intros H. unfold fill_eta, float_angle. rewrite etaphi_value. apply back_int; [discriminate|discriminate|unfold inS in H; lia|apply i16_iff; exact H]. Qed.
Lemma phi_back n : inS 16 n -> fill_phi (float_angle n) = Ok (Z.rem n 1440).
Proof. intros H. unfold fill_phi. pose proof (eta_back n H) as E. unfold fill_eta in E. rewrite E. reflexivity. Qed.
Lemma dz_back n : inS 16 n -> round_i16 (fmul (float_dz n) Z0_SCALE) = Ok n.
Proof. intros H. unfold float_dz, round_i16. apply (back_int is_i16 Z0_SCALE); [discriminate|discriminate|unfold inS in H; lia|apply i16_iff; exact H]. Qed.
Lemma puppiw_back n : inU 16 n -> set_puppiw (float_puppiw n) = Ok n.
Proof. intros H. unfold set_puppiw, float_puppiw, round_u16. apply (back_int is_u16 PUPPI_SCALE); [discriminate|discriminate|unfold inU in H; lia|apply u16_iff; exact H]. Qed.
Lemma veta_back n : Z.abs n <= 4000000 -> round_i32 (fmul (float_vtxeta n) VTX_ETA_SCALE) = Ok n.
Proof. intros H. unfold float_vtxeta. rewrite veta_value. apply back_int; [discriminate|discriminate|lia|apply i32_iff; unfold inS; lia]. Qed.
Lemma vphi_back n : Z.abs n <= 4000000 -> round_i32 (fmul (float_vtxphi n) VTX_PHI_SCALE) = Ok n.
Proof. intros H. unfold float_vtxphi. rewrite vphi_value. apply back_int; [discriminate|discriminate|lia|apply i32_iff; unfold inS; lia]. Qed.

(** the inverse of pt *)
Definition w : Q := 1 # 16000000.
Lemma rel x : (1 # 1000000000 <= x)%Q -> (x <= 1000000000 # 1)%Q -> exists y, f32 x = Fin y /\ ((1 - w) * x <= y)%Q /\ (y <= (1 + w) * x)%Q.
Proof.
  intros L R. destruct (f32_fin x) as (y & -> & E). { rewrite Qabs_pos by lra. change (p2 126) with (85070591730234615865843651857942052864 # 1)%Q. lra. }
  exists y. split; [reflexivity|]. pose proof (rnd32_error x) as N. rewrite <- E in N. rewrite (Qabs_pos x) in N by lra. pose proof t32_small as (T0 & TS). unfold u32 in N. unfold w. apply Qabs_Qle_condition in N. lra.
Qed.
Lemma inv_range x : (1 # 1000000 <= x)%Q -> (x <= 1000000 # 1)%Q -> (1 # 1000000 <= 1 / x)%Q /\ (1 / x <= 1000000 # 1)%Q /\ (1 / x * x == 1)%Q.
Proof.
  intros A B. assert (E : (1 / x * x == 1)%Q) by (field; lra). set (y := (1 / x)%Q) in *. assert (Y : (0 < y)%Q) by (unfold y; apply Qlt_shift_div_l; lra). repeat split; [| |exact E]; nra.
Qed.
Lemma invpt_back n : inU 16 n -> round_u16 (fmul (finv (float_vtxpt n)) INVPT_SCALE) = Ok n.
Proof.
  intros H. destruct (Z.eq_dec n 0) as [->|Hn]; [vm_compute; reflexivity|]. unfold inU in H. unfold float_vtxpt.
  destruct (of_int_exact n ltac:(lia)) as (m & -> & Em). assert (M1 : (1 <= m)%Q) by (rewrite Em; apply (injZ_le 1); lia). assert (M2 : (m <= 65536 # 1)%Q) by (rewrite Em; apply (injZ_le n 65536); lia).
  unfold fdiv, INVPT_SCALE. assert (Q0 : (m / (20000 # 1) == m * (1 # 20000))%Q) by (field). 
  destruct (rel (m / (20000 # 1))) as (a & -> & A1 & A2); [rewrite Q0; lra|rewrite Q0; lra|]. rewrite Q0 in A1, A2. unfold w in A1, A2.
  unfold finv at 2. destruct (Qeq_bool a 0) eqn:Z; [apply Qeq_bool_iff in Z; exfalso; lra|]. destruct (inv_range a) as (I1 & I2 & I3); [lra|lra|].
  destruct (rel (1 / a)) as (b & -> & B1 & B2); [lra|lra|]. set (ia := (1 / a)%Q) in *. unfold w in B1, B2.
  unfold finv. destruct (Qeq_bool b 0) eqn:Z'; [apply Qeq_bool_iff in Z'; exfalso; lra|]. 
  assert (IL : (1 # 5 <= ia)%Q) by nra. assert (IH : (ia <= 20001 # 1)%Q) by nra. destruct (inv_range b) as (J1 & J2 & J3); [lra|lra|].
  destruct (rel (1 / b)) as (d & -> & D1 & D2); [lra|lra|]. set (ib := (1 / b)%Q) in *. unfold w in D1, D2.
  (* b is 1/a up to w, so 1/b is a *)
  assert (K1 : (b * a <= 1 + w)%Q). { unfold w. assert ((1 + (1 # 16000000)) * ia * a == 1 + (1 # 16000000))%Q by (rewrite <- Qmult_assoc, I3; ring). assert (b * a <= (1 + (1 # 16000000)) * ia * a)%Q by (apply Qmult_le_compat_r; lra). lra. }
  assert (K2 : (1 - w <= b * a)%Q). { unfold w. assert ((1 - (1 # 16000000)) * ia * a == 1 - (1 # 16000000))%Q by (rewrite <- Qmult_assoc, I3; ring). assert ((1 - (1 # 16000000)) * ia * a <= b * a)%Q by (apply Qmult_le_compat_r; lra). lra. }
  assert (K3 : (a == ib * (b * a))%Q). { rewrite Qmult_assoc, J3. ring. }
  assert (K4 : (a <= ib * (1 + w))%Q). { rewrite K3. rewrite !(Qmult_comm ib). apply Qmult_le_compat_r; lra. }
  assert (K5 : (ib * (1 - w) <= a)%Q). { rewrite K3. rewrite !(Qmult_comm ib). apply Qmult_le_compat_r; lra. }
  unfold w in K4, K5. assert (D3 : (1 # 30000 <= d)%Q) by lra. assert (D4 : (d <= 4 # 1)%Q) by lra.
  unfold fmul. destruct (rel (d * (20000 # 1))) as (y & -> & Y1 & Y2); [lra|lra|]. unfold w in Y1, Y2.
  unfold round_u16, to_int. rewrite (near_unique n y). 2:{ apply Qabs_Qlt_condition. rewrite <- Em. lra. }
  cbv zeta. assert (F : is_u16 n = true) by (apply u16_iff; exact H). rewrite F. reflexivity.
Qed.
