(** Facts about the floating-point arithmetic of Fill.v. *)
From Coq Require Import QArith Qpower Qround Qabs Lqa.
From Verif Require Import Base BaseFacts Data Discrete Fill.
Local Open Scope Z_scope.

(** ** Powers of two *)
Notation p2 e := ((2 # 1) ^ e)%Q.
Lemma p2_nonneg n : 0 <= n -> (p2 n == inject_Z (2 ^ n))%Q.
Proof. intros H. rewrite Zpower_Qpower by exact H. reflexivity. Qed.
Lemma p2_add a b : (p2 (a + b) == p2 a * p2 b)%Q.
Proof. apply Qpower_plus. discriminate. Qed.
Lemma p2_pos e : (0 < p2 e)%Q.
Proof.
  assert (H : forall n, 0 <= n -> (0 < p2 n)%Q) by (intros n Hn; rewrite p2_nonneg by exact Hn; unfold Qlt; cbn; pose proof (Z.pow_pos_nonneg 2 n); lia).
  destruct (Z.le_gt_cases 0 e) as [L|L]; [apply H; exact L|]. pose proof (p2_add e (- e)) as E. rewrite Z.add_opp_diag_r in E. cbn [Qpower] in E. specialize (H (- e) ltac:(lia)). 
  destruct (Qlt_le_dec 0 (p2 e)) as [G|G]; [exact G|]. exfalso. nra.
Qed.
Lemma p2_inv e : (p2 e * p2 (- e) == 1)%Q.
Proof. rewrite <- p2_add, Z.add_opp_diag_r. reflexivity. Qed.
Lemma p2_ge1 n : 0 <= n -> (1 <= p2 n)%Q.
Proof. intros H. rewrite p2_nonneg by exact H. unfold Qle. cbn. pose proof (Z.pow_pos_nonneg 2 n). lia. Qed.
Lemma p2_le a b : a <= b -> (p2 a <= p2 b)%Q.
Proof. intros H. replace b with (a + (b - a)) by lia. rewrite p2_add. pose proof (p2_pos a). pose proof (p2_ge1 (b - a) ltac:(lia)). nra. Qed.
Lemma p2_lt_inv a b : (p2 a < p2 b)%Q -> a < b.
Proof. intros H. destruct (Z.lt_ge_cases a b) as [L|L]; [exact L|]. pose proof (p2_le b a ltac:(lia)). lra. Qed.

(** ** To the nearest integer *)
Lemma floor_bounds x : (inject_Z (Qfloor x) <= x)%Q /\ (x < inject_Z (Qfloor x) + 1)%Q.
Proof. split; [apply Qfloor_le|]. pose proof (Qlt_floor x) as H. rewrite inject_Z_plus in H. exact H. Qed.
Lemma injZ_le a b : (inject_Z a <= inject_Z b)%Q <-> a <= b. Proof. rewrite <- Zle_Qle. tauto. Qed.
Lemma injZ_lt a b : (inject_Z a < inject_Z b)%Q <-> a < b. Proof. rewrite <- Zlt_Qlt. tauto. Qed.
Lemma Zlt_of a b : (inject_Z a < inject_Z b)%Q -> a < b. Proof. apply injZ_lt. Qed.
Lemma Zle_of a b : (inject_Z a <= inject_Z b)%Q -> a <= b. Proof. apply injZ_le. Qed.
Lemma rne_cases x : let f := Qfloor x in rneQ x = f /\ (x - inject_Z f <= 1 # 2)%Q \/ rneQ x = f + 1 /\ (1 # 2 <= x - inject_Z f)%Q.
Proof.
  cbv zeta. unfold rneQ. destruct (Qcompare_spec (x - inject_Z (Qfloor x)) (1 # 2)) as [E|L|L]; [destruct (Z.even _); [left|right]|left|right]; (split; [reflexivity|lra]).
Qed.
Lemma rne_near x : (Qabs (inject_Z (rneQ x) - x) <= 1 # 2)%Q.
Proof. apply Qabs_Qle_condition. pose proof (floor_bounds x) as (H1 & H2). destruct (rne_cases x) as [(-> & H)|(-> & H)]; rewrite ?inject_Z_plus; change (inject_Z 1) with 1%Q; lra. Qed.
Lemma rne_mono x y : (x <= y)%Q -> rneQ x <= rneQ y.
Proof.
  intros H. pose proof (Qfloor_resp_le x y H) as F. destruct (Z.eq_dec (Qfloor x) (Qfloor y)) as [E|E].
  - unfold rneQ. rewrite E. destruct (Qcompare_spec (x - inject_Z (Qfloor y)) (1 # 2)) as [L|L|L], (Qcompare_spec (y - inject_Z (Qfloor y)) (1 # 2)) as [G|G|G]; try (destruct (Z.even _); lia); try lia; exfalso; lra.
  - destruct (rne_cases x) as [(-> & _)|(-> & _)], (rne_cases y) as [(-> & _)|(-> & _)]; lia.
Qed.
Lemma rne_int n : rneQ (inject_Z n) = n.
Proof. unfold rneQ. rewrite Qfloor_Z. destruct (Qcompare_spec (inject_Z n - inject_Z n) (1 # 2)) as [E|L|L]; [lra|reflexivity|lra]. Qed.
Lemma rne_comp x y : (x == y)%Q -> rneQ x = rneQ y.
Proof. intros E. apply Z.le_antisymm; apply rne_mono; rewrite E; apply Qle_refl. Qed.
Lemma round_pos x : (0 <= x)%Q -> roundQ x = Qfloor (x + (1 # 2)).
Proof. intros H. unfold roundQ. apply Qle_bool_iff in H. rewrite H. reflexivity. Qed.
Lemma round_neg x : (x < 0)%Q -> roundQ x = - Qfloor (- x + (1 # 2)).
Proof. intros H. unfold roundQ. destruct (Qle_bool 0 x) eqn:E; [apply Qle_bool_iff in E; lra|reflexivity]. Qed.
Lemma round_near x : (Qabs (inject_Z (roundQ x) - x) <= 1 # 2)%Q.
Proof.
  apply Qabs_Qle_condition. destruct (Qlt_le_dec x 0) as [L|L]; [rewrite round_neg by exact L; pose proof (floor_bounds (- x + (1 # 2))); rewrite inject_Z_opp|rewrite round_pos by exact L; pose proof (floor_bounds (x + (1 # 2)))]; lra.
Qed.
Lemma round_mono x y : (x <= y)%Q -> roundQ x <= roundQ y.
Proof.
  intros H. destruct (Qlt_le_dec x 0) as [L|L], (Qlt_le_dec y 0) as [G|G].
  - rewrite !round_neg by assumption. pose proof (Qfloor_resp_le (- y + (1 # 2)) (- x + (1 # 2)) ltac:(lra)). lia.
  - rewrite round_neg, round_pos by assumption. pose proof (Qfloor_resp_le 0 (- x + (1 # 2)) ltac:(lra)) as A. pose proof (Qfloor_resp_le 0 (y + (1 # 2)) ltac:(lra)) as B. change (Qfloor 0) with 0 in *. lia.
  - lra.
  - rewrite !round_pos by assumption. apply Qfloor_resp_le. lra.
Qed.
Lemma round_comp x y : (x == y)%Q -> roundQ x = roundQ y.
Proof. intros E. apply Z.le_antisymm; apply round_mono; rewrite E; apply Qle_refl. Qed.
Lemma near_unique n x : (Qabs (inject_Z n - x) < 1 # 2)%Q -> roundQ x = n.
Proof.
  intros H. pose proof (round_near x) as G. apply Qabs_Qlt_condition in H. apply Qabs_Qle_condition in G. assert (A : (inject_Z (roundQ x) < inject_Z (n + 1))%Q) by (rewrite inject_Z_plus; change (inject_Z 1) with 1%Q; lra).
  assert (B : (inject_Z (n - 1) < inject_Z (roundQ x))%Q) by (unfold Zminus; rewrite inject_Z_plus, inject_Z_opp; change (inject_Z 1) with 1%Q; lra). apply Zlt_of in A, B. lia.
Qed.
Lemma round_int n : roundQ (inject_Z n) = n.
Proof. apply near_unique. setoid_replace (inject_Z n - inject_Z n)%Q with 0%Q by ring. reflexivity. Qed.

(** ** The exponent *)
Lemma log2_bounds n : 0 < n -> (p2 (Z.log2 n) <= inject_Z n)%Q /\ (inject_Z n < p2 (Z.log2 n + 1))%Q.
Proof.
  intros H. pose proof (Z.log2_spec n H) as (A & B). pose proof (Z.log2_nonneg n). rewrite !p2_nonneg by lia. split; [apply injZ_le; exact A|apply injZ_lt; exact B].
Qed.
Lemma expo_spec x : (0 < x)%Q -> (p2 (expoQ x) <= x)%Q /\ (x < p2 (expoQ x + 1))%Q.
Proof.
  intros H. unfold expoQ. destruct x as [n d]. cbn [Qnum Qden]. assert (Hn : 0 < n) by (unfold Qlt in H; cbn in H; lia).
  destruct (log2_bounds n Hn) as (N1 & N2). destruct (log2_bounds (Zpos d) ltac:(lia)) as (D1 & D2). set (a := Z.log2 n) in *. set (b := Z.log2 (Zpos d)) in *.
  assert (EX : (n # d == inject_Z n / inject_Z (Zpos d))%Q) by (rewrite Qmake_Qdiv; reflexivity).
  assert (DP : (0 < inject_Z (Zpos d))%Q) by (unfold Qlt; cbn; lia).
  assert (EM : ((n # d) * inject_Z (Zpos d) == inject_Z n)%Q) by (rewrite EX; field; lra).
  set (x := n # d) in *. assert (XP : (0 < x)%Q) by (unfold Qlt; cbn; lia).
  pose proof (p2_pos (a - b)) as P1. pose proof (p2_pos b) as P2. pose proof (p2_pos a) as P3.
  assert (E1 : (p2 (a - b) * p2 b == p2 a)%Q) by (rewrite <- p2_add; replace (a - b + b) with a by lia; reflexivity).
  assert (E2 : (p2 (a + 1) == 2 * p2 a)%Q) by (rewrite p2_add; change (p2 1) with 2%Q; ring). assert (E3 : (p2 (b + 1) == 2 * p2 b)%Q) by (rewrite p2_add; change (p2 1) with 2%Q; ring).
  destruct (Qle_bool (p2 (a - b)) x) eqn:C.
  - apply Qle_bool_iff in C. split; [exact C|]. rewrite p2_add. change (p2 1) with 2%Q. destruct (Qlt_le_dec x (p2 (a - b) * 2)) as [G|G]; [exact G|exfalso]. nra.
  - assert (C' : (x < p2 (a - b))%Q) by (destruct (Qlt_le_dec x (p2 (a - b))) as [G|G]; [exact G|apply Qle_bool_iff in G; congruence]). replace (a - b - 1 + 1) with (a - b) by lia. split; [|exact C'].
    assert (E4 : (p2 (a - b) == 2 * p2 (a - b - 1))%Q) by (replace (a - b) with (a - b - 1 + 1) at 1 by lia; rewrite p2_add; change (p2 1) with 2%Q; ring).
    pose proof (p2_pos (a - b - 1)) as P4. destruct (Qlt_le_dec x (p2 (a - b - 1))) as [G|G]; [exfalso|exact G]. nra.
Qed.
Lemma expo_mono x y : (0 < x)%Q -> (x <= y)%Q -> expoQ x <= expoQ y.
Proof. intros H L. destruct (expo_spec x H) as (A & _). destruct (expo_spec y ltac:(lra)) as (_ & B). assert (C : (p2 (expoQ x) < p2 (expoQ y + 1))%Q) by lra. apply p2_lt_inv in C. lia. Qed.
Lemma expo_comp x y : (0 < x)%Q -> (x == y)%Q -> expoQ x = expoQ y.
Proof. intros H E. apply Z.le_antisymm; apply expo_mono; lra. Qed.

(** ** Rounding to p bits *)
Section Rnd.
  Context (p emin : Z) (Hp : 1 <= p).
  Definition ue (x : Q) : Z := Z.max (expoQ (Qabs x) - (p - 1)) emin.
  Lemma rnd_zero x : (x == 0)%Q -> rnd p emin x = 0%Q.
  Proof. intros H. unfold rnd. apply Qeq_bool_iff in H. rewrite H. reflexivity. Qed.
  Lemma rnd_eq x : ~ (x == 0)%Q -> rnd p emin x = (inject_Z (rneQ (x * p2 (- ue x))) * p2 (ue x))%Q.
  Proof. intros H. unfold rnd. destruct (Qeq_bool x 0) eqn:E; [apply Qeq_bool_iff in E; contradiction|reflexivity]. Qed.
  Lemma abs_pos x : ~ (x == 0)%Q -> (0 < Qabs x)%Q.
  Proof. intros H. destruct (Qlt_le_dec 0 (Qabs x)) as [L|L]; [exact L|]. exfalso. apply H. apply Qabs_Qle_condition in L. lra. Qed.
  Lemma rnd_error x : (Qabs (rnd p emin x - x) <= Qabs x * p2 (- p) + p2 (emin - 1))%Q.
  Proof.
    destruct (Qeq_dec x 0) as [Z|Z].
    - rewrite rnd_zero by exact Z. setoid_replace (Qabs (0 - x)) with 0%Q by (rewrite Z; reflexivity). pose proof (Qabs_nonneg x). pose proof (p2_pos (- p)). pose proof (p2_pos (emin - 1)). nra.
    - rewrite rnd_eq by exact Z. set (e := ue x). pose proof (rne_near (x * p2 (- e))) as H. apply Qabs_Qle_condition in H.
      pose proof (p2_inv e) as I. pose proof (p2_pos e) as P. set (n := inject_Z (rneQ (x * p2 (- e)))) in *.
      assert (B : (Qabs (n * p2 e - x) <= (1 # 2) * p2 e)%Q).
      { apply Qabs_Qle_condition. assert (EX : (x == x * p2 (- e) * p2 e)%Q) by (rewrite <- Qmult_assoc, (Qmult_comm (p2 (- e))), I; ring). set (y := (x * p2 (- e))%Q) in *. split; rewrite EX; nra. }
      destruct (expo_spec (Qabs x) (abs_pos x Z)) as (X1 & _).
      assert (U : (p2 e <= Qabs x * p2 (1 - p) + p2 emin)%Q).
      { unfold e, ue. pose proof (p2_pos emin). pose proof (p2_pos (1 - p)). pose proof (Qabs_nonneg x). destruct (Z.max_spec (expoQ (Qabs x) - (p - 1)) emin) as [(_ & ->)|(_ & ->)]; [nra|]. replace (expoQ (Qabs x) - (p - 1)) with (expoQ (Qabs x) + (1 - p)) by lia. rewrite p2_add. nra. }
      assert (E1 : (p2 (1 - p) == 2 * p2 (- p))%Q) by (replace (1 - p) with (- p + 1) by lia; rewrite p2_add; change (p2 1) with 2%Q; ring).
      assert (E2 : (p2 emin == 2 * p2 (emin - 1))%Q) by (replace emin with (emin - 1 + 1) at 1 by lia; rewrite p2_add; change (p2 1) with 2%Q; ring).
      rewrite E1, E2 in U. lra.
  Qed.
  (** a bound that is a multiple of the unit in the last place *)
  Lemma scaled x e n k : (x <= n * p2 k)%Q -> (x * p2 (- e) <= n * p2 (k - e))%Q.
  Proof. intros H. unfold Zminus. rewrite p2_add. pose proof (p2_pos (- e)). setoid_replace (n * (p2 k * p2 (- e)))%Q with (n * p2 k * p2 (- e))%Q by ring. nra. Qed.
  Lemma scaled' x e n k : (n * p2 k <= x)%Q -> (n * p2 (k - e) <= x * p2 (- e))%Q.
  Proof. intros H. unfold Zminus. rewrite p2_add. pose proof (p2_pos (- e)). setoid_replace (n * (p2 k * p2 (- e)))%Q with (n * p2 k * p2 (- e))%Q by ring. nra. Qed.
  Lemma p2_back n k e : e <= k -> (inject_Z (n * 2 ^ (k - e)) * p2 e == inject_Z n * p2 k)%Q.
  Proof. intros H. rewrite inject_Z_mult, <- p2_nonneg by lia. rewrite <- Qmult_assoc, <- p2_add. replace (k - e + e) with k by lia. reflexivity. Qed.
  Lemma rnd_le x n k : ue x <= k -> ~ (x == 0)%Q -> (x <= inject_Z n * p2 k)%Q -> (rnd p emin x <= inject_Z n * p2 k)%Q.
  Proof.
    intros HE HZ H. rewrite rnd_eq by exact HZ. rewrite <- (p2_back n k (ue x)) by exact HE. pose proof (p2_pos (ue x)). apply Qmult_le_compat_r; [|lra]. apply injZ_le. rewrite <- (rne_int (n * 2 ^ (k - ue x))). apply rne_mono.
    rewrite inject_Z_mult, <- p2_nonneg by lia. apply scaled. exact H.
  Qed.
  Lemma rnd_ge x n k : ue x <= k -> ~ (x == 0)%Q -> (inject_Z n * p2 k <= x)%Q -> (inject_Z n * p2 k <= rnd p emin x)%Q.
  Proof.
    intros HE HZ H. rewrite rnd_eq by exact HZ. rewrite <- (p2_back n k (ue x)) by exact HE. pose proof (p2_pos (ue x)). apply Qmult_le_compat_r; [|lra]. apply injZ_le. rewrite <- (rne_int (n * 2 ^ (k - ue x))). apply rne_mono.
    rewrite inject_Z_mult, <- p2_nonneg by lia. apply scaled'. exact H.
  Qed.
  (** the same unit *)
  Lemma rnd_same x y : ue x = ue y -> ~ (x == 0)%Q -> ~ (y == 0)%Q -> (x <= y)%Q -> (rnd p emin x <= rnd p emin y)%Q.
  Proof.
    intros HE HX HY H. rewrite !rnd_eq by assumption. rewrite HE. pose proof (p2_pos (ue y)). pose proof (p2_pos (- ue y)). apply Qmult_le_compat_r; [|lra]. apply injZ_le. apply rne_mono. nra.
  Qed.
  Lemma ue_bound x : ~ (x == 0)%Q -> emin < ue x -> ue x = expoQ (Qabs x) - (p - 1) /\ (p2 (p - 1 + ue x) <= Qabs x)%Q.
  Proof. intros HZ H. destruct (expo_spec (Qabs x) (abs_pos x HZ)) as (X1 & _). assert (E : ue x = expoQ (Qabs x) - (p - 1)) by (unfold ue in *; lia). split; [exact E|]. rewrite E. replace (p - 1 + (expoQ (Qabs x) - (p - 1))) with (expoQ (Qabs x)) by lia. exact X1. Qed.
  Lemma ue_smaller x y : ~ (x == 0)%Q -> ~ (y == 0)%Q -> ue x < ue y -> (Qabs x < p2 (p - 1 + ue y))%Q /\ (p2 (p - 1 + ue y) <= Qabs y)%Q.
  Proof.
    intros HX HY H. destruct (ue_bound y HY) as (E & B); [unfold ue in *; lia|]. split; [|exact B]. destruct (expo_spec (Qabs x) (abs_pos x HX)) as (_ & X2).
    pose proof (p2_le (expoQ (Qabs x) + 1) (p - 1 + ue y)) as L. assert (C : expoQ (Qabs x) + 1 <= p - 1 + ue y) by (unfold ue in H at 1; lia). specialize (L C). lra.
  Qed.
  Lemma rnd_sign x : (0 <= x)%Q -> (0 <= rnd p emin x)%Q.
  Proof.
    intros H. destruct (Qeq_dec x 0) as [Z|Z]; [rewrite rnd_zero by exact Z; lra|]. pose proof (rnd_ge x 0 (ue x) ltac:(lia) Z) as G. change (inject_Z 0) with 0%Q in G. setoid_replace (0 * p2 (ue x))%Q with 0%Q in G by ring. apply G. exact H.
  Qed.
  Lemma rnd_sign' x : (x <= 0)%Q -> (rnd p emin x <= 0)%Q.
  Proof.
    intros H. destruct (Qeq_dec x 0) as [Z|Z]; [rewrite rnd_zero by exact Z; lra|]. pose proof (rnd_le x 0 (ue x) ltac:(lia) Z) as G. change (inject_Z 0) with 0%Q in G. setoid_replace (0 * p2 (ue x))%Q with 0%Q in G by ring. apply G. exact H.
  Qed.
  Lemma rnd_mono x y : (x <= y)%Q -> (rnd p emin x <= rnd p emin y)%Q.
  Proof.
    intros H. destruct (Qlt_le_dec x 0) as [X|X]; [destruct (Qlt_le_dec y 0) as [Y|Y]|].
    - assert (ZX : ~ (x == 0)%Q) by lra. assert (ZY : ~ (y == 0)%Q) by lra. destruct (Z.lt_trichotomy (ue x) (ue y)) as [L|[E|L]].
      + exfalso. assert (M : ue y <= ue x); [|lia]. unfold ue. pose proof (expo_mono (Qabs y) (Qabs x) (abs_pos y ZY)) as M. specialize (M ltac:(rewrite !Qabs_neg by lra; lra)). lia.
      + apply rnd_same; assumption.
      + destruct (ue_smaller y x ZY ZX L) as (A & B). rewrite Qabs_neg in A, B by lra. set (k := p - 1 + ue x) in *.
        pose proof (rnd_le x (-1) k ltac:(lia) ZX) as G1. pose proof (rnd_ge y (-1) k ltac:(lia) ZY) as G2. change (inject_Z (-1)) with (-1)%Q in *. pose proof (p2_pos k). assert (J1 : (rnd p emin x <= -1 * p2 k)%Q) by (apply G1; lra). assert (J2 : (-1 * p2 k <= rnd p emin y)%Q) by (apply G2; lra). lra.
    - pose proof (rnd_sign' x ltac:(lra)). pose proof (rnd_sign y ltac:(lra)). lra.
    - destruct (Qeq_dec x 0) as [Z|ZX]; [rewrite (rnd_zero x) by exact Z; apply rnd_sign; lra|]. assert (ZY : ~ (y == 0)%Q) by lra. destruct (Z.lt_trichotomy (ue x) (ue y)) as [L|[E|L]].
      + destruct (ue_smaller x y ZX ZY L) as (A & B). rewrite Qabs_pos in A, B by lra. set (k := p - 1 + ue y) in *.
        pose proof (rnd_le x 1 k ltac:(lia) ZX) as G1. pose proof (rnd_ge y 1 k ltac:(lia) ZY) as G2. change (inject_Z 1) with 1%Q in *. pose proof (p2_pos k). assert (J1 : (rnd p emin x <= 1 * p2 k)%Q) by (apply G1; lra). assert (J2 : (1 * p2 k <= rnd p emin y)%Q) by (apply G2; lra). lra.
      + apply rnd_same; assumption.
      + exfalso. assert (M : ue x <= ue y); [|lia]. unfold ue. pose proof (expo_mono (Qabs x) (Qabs y) (abs_pos x ZX)) as M. specialize (M ltac:(rewrite !Qabs_pos by lra; lra)). lia.
  Qed.
  Lemma rnd_comp x y : (x == y)%Q -> (rnd p emin x == rnd p emin y)%Q.
  Proof. intros H. apply Qle_antisym; apply rnd_mono; lra. Qed.
  (** numbers that need no rounding *)
  Lemma rnd_exact x n k : (x == inject_Z n * p2 k)%Q -> Z.abs n < 2 ^ p -> emin <= k -> (rnd p emin x == x)%Q.
  Proof.
    intros E HN HK. destruct (Qeq_dec x 0) as [Z|Z]; [rewrite rnd_zero by exact Z; lra|].
    assert (HE : ue x <= k).
    { unfold ue. apply Z.max_lub; [|exact HK]. destruct (expo_spec (Qabs x) (abs_pos x Z)) as (X1 & _). assert (A : (Qabs x == inject_Z (Z.abs n) * p2 k)%Q) by (rewrite E, Qabs_Qmult, (Qabs_pos (p2 k)) by (pose proof (p2_pos k); lra); reflexivity).
      assert (B : (p2 (expoQ (Qabs x)) < p2 (p + k))%Q). { rewrite p2_add, (p2_nonneg p) by lia. pose proof (p2_pos k). rewrite <- injZ_lt in HN. nra. }
      apply p2_lt_inv in B. lia. }
    apply Qle_antisym.
    - rewrite E at 2. apply rnd_le; [exact HE|exact Z|lra].
    - rewrite E at 1. apply rnd_ge; [exact HE|exact Z|lra].
  Qed.
End Rnd.
