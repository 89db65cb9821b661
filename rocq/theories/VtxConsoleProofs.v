(** The console of the vertexing test program. *)
From Coq Require Import QArith Qpower Qround Qabs Lqa Ascii String.
From Verif Require Import Base BaseFacts Fill FloatFacts PuppiTable TableProofs SerText SerTextFacts Printf SpecHR HRFacts HRProofs ConsoleFacts Bhv SpecBhv Vtx SpecVtx VtxTest SpecVtxTest VtxTestProofs VtxConsole SpecVtxConsole.
Local Open Scope string_scope.
Local Open Scope list_scope.
Local Open Scope Z_scope.

(** ** Powers of ten *)
Lemma p10_nz : ~ ((10 # 1) == 0)%Q. Proof. discriminate. Qed.
Lemma p10_add a b : (p10 (a + b) == p10 a * p10 b)%Q. Proof. apply Qpower_plus, p10_nz. Qed.
Lemma p10_1 : (p10 1 == 10)%Q. Proof. reflexivity. Qed.
Lemma p10_nonneg n : 0 <= n -> (p10 n == inject_Z (10 ^ n))%Q.
Proof. intros H. unfold p10. rewrite <- (Z2Nat.id n) by exact H. generalize (Z.to_nat n) as k. clear. induction k as [|k IH]; [reflexivity|]. rewrite Nat2Z.inj_succ. unfold Z.succ. rewrite Qpower_plus by apply p10_nz. rewrite IH, Z.pow_add_r by lia. rewrite inject_Z_mult. reflexivity. Qed.
Lemma p10_pos e : (0 < p10 e)%Q.
Proof.
  assert (H : forall n, 0 <= n -> (0 < p10 n)%Q) by (intros n Hn; rewrite p10_nonneg by exact Hn; unfold Qlt; cbn; pose proof (Z.pow_pos_nonneg 10 n); lia).
  destruct (Z.le_gt_cases 0 e) as [L|L]; [apply H; exact L|]. pose proof (p10_add e (- e)) as E. rewrite Z.add_opp_diag_r in E. change (p10 0) with 1%Q in E. specialize (H (- e) ltac:(lia)).
  destruct (Qlt_le_dec 0 (p10 e)) as [G|G]; [exact G|]. exfalso. nra.
Qed.
Lemma exp10_spec fuel : forall e x, (x < p10 (e + 1))%Q -> (p10 (e - Z.of_nat fuel) <= x)%Q -> let k := exp10 fuel e x in (p10 k <= x)%Q /\ (x < p10 (k + 1))%Q /\ e - Z.of_nat fuel <= k <= e.
Proof.
  induction fuel as [|f IH]; intros e x U L; cbn [exp10].
  - replace (e - Z.of_nat 0) with e in L by lia. split; [exact L|]. split; [exact U|lia].
  - destruct (Qle_bool (p10 e) x) eqn:E; [apply Qle_bool_iff in E; split; [exact E|]; split; [exact U|lia]|].
    assert (E' : (x < p10 e)%Q) by (destruct (Qlt_le_dec x (p10 e)) as [l|l]; [exact l|apply Qle_bool_iff in l; congruence]).
    destruct (IH (e - 1) x) as (A & B & C); [replace (e - 1 + 1) with e by lia; exact E'|replace (e - 1 - Z.of_nat f) with (e - Z.of_nat (S f)) by lia; exact L|]. split; [exact A|]. split; [exact B|lia].
Qed.
(** ** Six digits *)
Definition gsize (x : Q) : Prop := (p10 (-390) <= x)%Q /\ (x < p10 390)%Q.
Lemma p10_le a b : a <= b -> (p10 a <= p10 b)%Q.
Proof.
  intros H. replace b with (a + (b - a)) by lia. rewrite p10_add. assert (1 <= p10 (b - a))%Q by (rewrite p10_nonneg by lia; apply (proj2 (injZ_le 1 _)); assert (0 < 10 ^ (b - a)) by (apply Z.pow_pos_nonneg; lia); lia). pose proof (p10_pos a). nra.
Qed.
Lemma six_spec x : gsize x -> let (m, e) := six x in 100000 <= m < 1000000 /\ -390 <= e <= 400 /\ (Qabs (inject_Z m * p10 (e - 5) - x) <= x * (5 # 1000000))%Q /\
  forall n, (x == inject_Z n)%Q -> n < 1000000 -> (inject_Z m * p10 (e - 5) == x)%Q.
Proof.
  intros (L & U). unfold six.
  destruct (exp10_spec (Z.to_nat 800) 400 x) as (A & B & C); [eapply Qlt_le_trans; [exact U|apply p10_le; lia]|rewrite Z2Nat.id by lia; eapply Qle_trans; [|exact L]; apply p10_le; lia|].
  set (e := exp10 (Z.to_nat 800) 400 x) in *. rewrite Z2Nat.id in C by lia.
  assert (E1 : -390 <= e) by (assert (-390 < e + 1); [|lia]; destruct (Z.lt_ge_cases (-390) (e + 1)) as [?|G]; [assumption|]; pose proof (p10_le _ _ G); exfalso; lra).
  assert (E2 : e < 390) by (destruct (Z.lt_ge_cases e 390) as [?|G]; [assumption|]; pose proof (p10_le _ _ G); exfalso; lra).
  assert (P5 : (p10 e * p10 (5 - e) == 100000)%Q) by (rewrite <- p10_add; replace (e + (5 - e)) with 5 by lia; reflexivity).
  assert (P6 : (p10 (e + 1) * p10 (5 - e) == 1000000)%Q) by (rewrite <- p10_add; replace (e + 1 + (5 - e)) with 6 by lia; reflexivity).
  assert (PI : (p10 (5 - e) * p10 (e - 5) == 1)%Q) by (rewrite <- p10_add; replace (5 - e + (e - 5)) with 0 by lia; reflexivity).
  pose proof (p10_pos (5 - e)) as Q1. pose proof (p10_pos (e - 5)) as Q2.
  set (y := (x * p10 (5 - e))%Q). assert (Y0 : (100000 <= y)%Q) by (unfold y; nra). assert (Y1 : (y < 1000000)%Q) by (unfold y; nra).
  assert (XY : (x == y * p10 (e - 5))%Q) by (unfold y; rewrite <- Qmult_assoc, PI; ring).
  pose proof (rne_near y) as N. apply Qabs_Qle_condition in N. set (m := rneQ y) in *.
  assert (M0 : 100000 <= m) by (unfold m; rewrite <- (rne_int 100000); apply rne_mono; exact Y0).
  assert (M1 : m <= 1000000) by (unfold m; rewrite <- (rne_int 1000000); apply rne_mono; apply Qlt_le_weak; exact Y1).
  assert (ERR : (Qabs (inject_Z m * p10 (e - 5) - x) <= x * (5 # 1000000))%Q).
  { setoid_replace (inject_Z m * p10 (e - 5) - x)%Q with ((inject_Z m - y) * p10 (e - 5))%Q by (rewrite XY at 1; ring). apply Qabs_Qle_condition. rewrite XY. split; nra. }
  assert (EX : forall n, (x == inject_Z n)%Q -> n < 1000000 -> (inject_Z m * p10 (e - 5) == x)%Q).
  { intros n En Hn. assert (N1 : (0 < inject_Z n)%Q) by (rewrite <- En; eapply Qlt_le_trans; [apply p10_pos|exact A]).
    assert (n0 : 0 < n) by (apply Zlt_of; exact N1).
    assert (e0 : 0 <= e). { destruct (Z.le_gt_cases 0 e) as [?|G]; [assumption|exfalso]. pose proof (p10_le (e + 1) 0 ltac:(lia)) as P. change (p10 0) with 1%Q in P. assert (1 <= inject_Z n)%Q by (apply (proj2 (injZ_le 1 n)); lia). lra. }
    assert (e5 : e <= 5). { destruct (Z.le_gt_cases e 5) as [?|G]; [assumption|exfalso]. pose proof (p10_le 6 e ltac:(lia)) as P. change (p10 6) with 1000000%Q in P. assert (inject_Z n < 1000000)%Q by (apply (proj2 (injZ_lt n 1000000)); lia). lra. }
    assert (Ym : (y == inject_Z (n * 10 ^ (5 - e)))%Q) by (unfold y; rewrite En, p10_nonneg by lia; rewrite inject_Z_mult; reflexivity).
    unfold m. rewrite (rne_comp _ _ Ym), rne_int, <- Ym, <- XY. reflexivity. }
  destruct (Z.ltb_spec m 1000000) as [S|S]; [split; [lia|]; split; [lia|]; split; assumption|].
  assert (m = 1000000) by lia. replace (m / 10) with 100000 by lia.
  assert (EQ : (inject_Z 100000 * p10 (e + 1 - 5) == inject_Z m * p10 (e - 5))%Q) by (replace (e + 1 - 5) with (e - 5 + 1) by lia; rewrite p10_add, p10_1, H; change (inject_Z 1000000) with 1000000%Q; change (inject_Z 100000) with 100000%Q; ring).
  split; [lia|]. split; [lia|]. split; [rewrite EQ; exact ERR|]. intros n En Hn. rewrite EQ. exact (EX n En Hn).
Qed.
(** ** Reading *)
Definition digs (l : list Z) : Prop := Forall (fun d => 0 <= d < 10) l.
Definition no_digit (s : list ascii) : Prop := match s with [] => True | c :: _ => decimal_digit c = None end.
Lemma lead_digits l s : digs l -> no_digit s -> leading_digits (map digit l ++ s) = (l, s).
Proof.
  induction 1 as [|d l Hd HF IH]; intros HS; cbn [map app leading_digits].
  - destruct s as [|c s]; [reflexivity|]. cbn [no_digit] in HS. cbn [leading_digits]. rewrite HS. reflexivity.
  - rewrite dig_facts by exact Hd. rewrite IH by exact HS. reflexivity.
Qed.
Lemma drop_digs l : digs l -> digs (drop_zeros l).
Proof. induction 1 as [|d l Hd HF IH]; cbn [drop_zeros]; [constructor|]. destruct (drop_zeros l); [destruct (d =? 0); repeat constructor; lia|constructor; assumption]. Qed.
Lemma drop_fraction l : (fraction (drop_zeros l) == fraction l)%Q.
Proof.
  induction l as [|d l IH]; [reflexivity|]. cbn [drop_zeros fraction fold_right]. fold (fraction l). destruct (drop_zeros l) as [|x r] eqn:E.
  - cbn [fraction fold_right] in IH. destruct (Z.eqb_spec d 0) as [->|N]; (etransitivity; [|apply Qdiv_comp; [apply Qplus_comp; [reflexivity|exact IH]|reflexivity]]); reflexivity.
  - apply Qdiv_comp; [apply Qplus_comp; [reflexivity|exact IH]|reflexivity].
Qed.
Lemma digit_chars l : digs l -> Forall isdig (map digit l).
Proof. induction 1 as [|d l Hd HF IH]; [constructor|]. constructor; [exists d; apply dig_facts; exact Hd|exact IH]. Qed.
(** digits, a point and digits *)
Definition tail_ok (s : list ascii) : Prop := match s with [] => True | c :: _ => decimal_digit c = None /\ c <> "."%char end.
Lemma mantissa ip fp s : ip <> [] -> digs ip -> digs fp -> tail_ok s ->
  magnitude (map digit ip ++ point fp ++ s) = match s with
    | [] => Some (inject_Z (whole ip) + fraction fp)%Q
    | c :: sg :: r => if (c =? "e")%char then
        match leading_digits r with
        | ([], _) => None
        | (ds, []) => if (sg =? "-")%char then Some ((inject_Z (whole ip) + fraction fp) * (10 # 1) ^ (- whole ds))%Q else if (sg =? "+")%char then Some ((inject_Z (whole ip) + fraction fp) * (10 # 1) ^ (whole ds))%Q else None
        | _ => None
        end else None
    | _ => None
    end.
Proof.
  intros NE HI HF HS. unfold magnitude. assert (ND : no_digit (point fp ++ s)) by (destruct fp; [destruct s; [exact Logic.I|apply HS]|reflexivity]).
  rewrite lead_digits by assumption. destruct ip as [|d ip]; [congruence|].
  assert (E : match point fp ++ s with c :: r' => if (c =? ".")%char then leading_digits r' else ([], point fp ++ s) | [] => ([], []) end = (fp, s)).
  { destruct fp as [|f fp]; cbn [point app].
    - destruct s as [|c s]; [reflexivity|]. destruct HS as (_ & HS). destruct (Ascii.eqb_spec c "."); [contradiction|reflexivity].
    - change ((("." =? ".")%char)) with true. cbv iota. change (map digit (f :: fp) ++ s) with (map digit (f :: fp) ++ s). apply (lead_digits (f :: fp) s HF). destruct s; [exact Logic.I|apply HS]. }
  rewrite E. reflexivity.
Qed.
Lemma six_digs m : digs (six_digits m).
Proof. unfold six_digits, digs. repeat (constructor; [apply Z.mod_pos_bound; lia|]). constructor. Qed.
Lemma six_whole m : 0 <= m < 1000000 -> m = 100000 * (m / 100000 mod 10) + 10000 * (m / 10000 mod 10) + 1000 * (m / 1000 mod 10) + 100 * (m / 100 mod 10) + 10 * (m / 10 mod 10) + m mod 10.
Proof. intros H. lia. Qed.
(** ** The six digits written out *)
Definition gtext (m e : Z) : list ascii :=
  let ds := six_digits m in
  if (e <? -4) || (6 <=? e) then map digit (firstn 1 ds) ++ point (drop_zeros (skipn 1 ds)) ++ exponent e
  else if e <? 0 then "0"%char :: point (repeat 0 (Z.to_nat (- e - 1)) ++ drop_zeros ds)
  else map digit (firstn (Z.to_nat (e + 1)) ds) ++ point (drop_zeros (skipn (Z.to_nat (e + 1)) ds)).
Definition exp_digits (a : Z) : list Z := (if a <? 100 then [] else [a / 100]) ++ [a / 10 mod 10; a mod 10].
Lemma exp_digs a : 0 <= a < 1000 -> digs (exp_digits a) /\ whole (exp_digits a) = a /\ exp_digits a <> [].
Proof.
  intros H. unfold exp_digits, digs. destruct (Z.ltb_spec a 100) as [L|L]; cbn [app].
  - split; [repeat (constructor; [lia|]); constructor|]. split; [unfold whole; cbn [fold_left]; lia|discriminate].
  - split; [repeat (constructor; [lia|]); constructor|]. split; [unfold whole; cbn [fold_left]; lia|discriminate].
Qed.
Lemma frac_zeros k l : (fraction (repeat 0%Z k ++ l) == fraction l * p10 (- Z.of_nat k))%Q.
Proof.
  induction k as [|k IH]; [cbn [repeat app Z.of_nat Z.opp]; change (p10 0) with 1%Q; ring|]. cbn [repeat app]. change (fraction (0 :: repeat 0 k ++ l)) with ((inject_Z 0 + fraction (repeat 0%Z k ++ l)) / 10)%Q.
  replace (- Z.of_nat (S k)) with (- Z.of_nat k + -1) by lia. rewrite p10_add. change (p10 (-1)) with (1 # 10)%Q. change (inject_Z 0) with 0%Q. rewrite IH. unfold Qdiv. change (/ 10)%Q with (1 # 10)%Q. ring.
Qed.
Lemma digs_app a b : digs a -> digs b -> digs (a ++ b). Proof. intros A B. apply Forall_app. split; assumption. Qed.
Lemma digs_firstn n l : digs l -> digs (firstn n l). Proof. intros H. rewrite <- (firstn_skipn n l) in H. apply Forall_app in H. apply H. Qed.
Lemma digs_skipn n l : digs l -> digs (skipn n l). Proof. intros H. rewrite <- (firstn_skipn n l) in H. apply Forall_app in H. apply H. Qed.
Lemma digs_zeros k : digs (repeat 0 k). Proof. induction k; constructor; [lia|assumption]. Qed.
(** reading the first [n] digits as the whole part *)
Lemma six_value m n : 0 <= m < 1000000 -> (n <= 6)%nat -> (inject_Z (whole (firstn n (six_digits m))) + fraction (skipn n (six_digits m)) == inject_Z m * p10 (Z.of_nat n - 6))%Q.
Proof.
  intros H L. pose proof (six_whole m H) as E. unfold six_digits.
  set (a := m / 100000 mod 10) in *. set (b := m / 10000 mod 10) in *. set (c := m / 1000 mod 10) in *. set (d := m / 100 mod 10) in *. set (e := m / 10 mod 10) in *. set (f := m mod 10) in *.
  rewrite E. clearbody a b c d e f. clear E H.
  assert (EQ : (inject_Z (100000 * a + 10000 * b + 1000 * c + 100 * d + 10 * e + f) == 100000 * inject_Z a + 10000 * inject_Z b + 1000 * inject_Z c + 100 * inject_Z d + 10 * inject_Z e + inject_Z f)%Q) by (rewrite !inject_Z_plus, !inject_Z_mult; reflexivity).
  do 7 (destruct n as [|n]; [unfold whole; cbn [firstn skipn fold_left]; unfold fraction; cbn [fold_right]; rewrite EQ; repeat (rewrite ?inject_Z_plus, ?inject_Z_mult); change (inject_Z 10) with (10 # 1); change (inject_Z 0) with 0%Q;
    match goal with |- context [p10 (Z.of_nat ?k - 6)] => let v := eval vm_compute in (Qred (p10 (Z.of_nat k - 6))) in setoid_replace (p10 (Z.of_nat k - 6)) with v by (vm_compute; reflexivity) end; field|]). lia.
Qed.
Lemma gtext_value m e : 100000 <= m < 1000000 -> -400 <= e <= 400 -> exists q, magnitude (gtext m e) = Some q /\ (q == inject_Z m * p10 (e - 5))%Q.
Proof.
  intros Hm He. unfold gtext. cbv zeta. set (ds := six_digits m). pose proof (six_digs m) as HD. fold ds in HD.
  destruct ((e <? -4) || (6 <=? e)) eqn:C1; [|destruct (Z.ltb_spec e 0) as [C2|C2]].
  - assert (NE : firstn 1 ds <> []) by discriminate. rewrite mantissa; [|exact NE|apply digs_firstn; exact HD|apply drop_digs, digs_skipn; exact HD|cbn; split; [reflexivity|discriminate]].
    unfold exponent. cbv zeta. fold (exp_digits (Z.abs e)). destruct (exp_digs (Z.abs e) ltac:(lia)) as (D1 & D2 & D3). change (("e" =? "e")%char) with true. cbv iota.
    rewrite <- (app_nil_r (map digit (exp_digits (Z.abs e)))), lead_digits by (exact D1 || exact Logic.I). destruct (exp_digits (Z.abs e)) as [|x r] eqn:EX; [congruence|]. rewrite D2.
    pose proof (six_value m 1 ltac:(lia) ltac:(lia)) as V. fold ds in V.
    assert (Q1 : forall k, k = e -> ((inject_Z (whole (firstn 1 ds)) + fraction (drop_zeros (skipn 1 ds))) * (10 # 1) ^ k == inject_Z m * p10 (e - 5))%Q).
    { intros k ->. rewrite drop_fraction, V. fold (p10 e). replace (e - 5) with (Z.of_nat 1 - 6 + e) by lia. rewrite p10_add. ring. }
    destruct (Z.ltb_spec e 0) as [L|L].
    + change (("-" =? "-")%char) with true. cbv iota. eexists. split; [reflexivity|]. apply Q1. lia.
    + change (("+" =? "-")%char) with false. change (("+" =? "+")%char) with true. cbv iota. eexists. split; [reflexivity|]. apply Q1. lia.
  - apply Bool.orb_false_iff in C1. destruct C1 as [C1 _]. apply Z.ltb_ge in C1.
    change ("0"%char :: point (repeat 0 (Z.to_nat (- e - 1)) ++ drop_zeros ds)) with (map digit [0] ++ point (repeat 0 (Z.to_nat (- e - 1)) ++ drop_zeros ds)).
    rewrite <- (app_nil_r (point _)), mantissa; [|discriminate|repeat constructor; lia|apply digs_app; [apply digs_zeros|apply drop_digs, HD]|exact Logic.I].
    eexists. split; [reflexivity|]. rewrite frac_zeros, drop_fraction. pose proof (six_value m 0 ltac:(lia) ltac:(lia)) as V. cbn [firstn skipn] in V. fold ds in V. change (inject_Z (whole [])) with 0%Q in V. change (inject_Z (whole [0])) with 0%Q.
    rewrite Qplus_0_l in V. rewrite Qplus_0_l, V. rewrite Z2Nat.id by lia. replace (e - 5) with (Z.of_nat 0 - 6 + - (- e - 1)) by lia. rewrite p10_add. ring.
  - apply Bool.orb_false_iff in C1. destruct C1 as [_ C1]. apply Z.leb_gt in C1.
    rewrite <- (app_nil_r (point _)), mantissa; [|replace (Z.to_nat (e + 1)) with (S (Z.to_nat e)) by lia; discriminate|apply digs_firstn; exact HD|apply drop_digs, digs_skipn; exact HD|exact Logic.I].
    eexists. split; [reflexivity|]. rewrite drop_fraction. unfold ds. rewrite six_value by lia. rewrite Z2Nat.id by lia. replace (e + 1 - 6) with (e - 5) by lia. reflexivity.
Qed.
(** the characters *)
Definition gchar (c : ascii) : Prop := isdig c \/ c = "."%char \/ c = "-"%char \/ c = "+"%char \/ c = "e"%char.
Lemma digits_gchar l : digs l -> Forall gchar (map digit l).
Proof. intros H. eapply Forall_impl; [|apply digit_chars; exact H]. intros c D. left. exact D. Qed.
Lemma point_gchar l : digs l -> Forall gchar (point l).
Proof. intros H. destruct l as [|d l]; [constructor|]. constructor; [right; left; reflexivity|apply digits_gchar; exact H]. Qed.
Lemma gtext_gchar m e : -400 <= e <= 400 -> Forall gchar (gtext m e).
Proof.
  intros He. unfold gtext. cbv zeta. pose proof (six_digs m) as HD. destruct ((e <? -4) || (6 <=? e)); [|destruct (e <? 0)].
  - apply Forall_app. split; [apply digits_gchar, digs_firstn, HD|]. apply Forall_app. split; [apply point_gchar, drop_digs, digs_skipn, HD|].
    unfold exponent. cbv zeta. constructor; [do 4 right; reflexivity|]. constructor; [destruct (e <? 0); [do 2 right; left|do 3 right; left]; reflexivity|]. apply digits_gchar. apply exp_digs. lia.
  - constructor; [left; exists 0; reflexivity|]. apply point_gchar, digs_app; [apply digs_zeros|apply drop_digs, HD].
  - apply Forall_app. split; [apply digits_gchar, digs_firstn, HD|apply point_gchar, drop_digs, digs_skipn, HD].
Qed.
Definition gok (x : Q) : Prop := (x == 0)%Q \/ gsize (Qabs x).
Lemma g6_eq x : ~ (x == 0)%Q -> g6 x = (if Qle_bool 0 x then [] else ["-"%char]) ++ let (m, e) := six (Qabs x) in gtext m e.
Proof. intros H. unfold g6. destruct (Qeq_bool x 0) eqn:E; [apply Qeq_bool_iff in E; contradiction|reflexivity]. Qed.
Lemma magnitude_no_minus s q : magnitude s = Some q -> real s = Some q.
Proof.
  destruct s as [|c s]; [discriminate|]. intros H. unfold real. destruct (Ascii.eqb_spec c "-") as [->|N]; [|exact H]. exfalso. unfold magnitude in H. cbn [leading_digits] in H. change (decimal_digit "-") with (@None Z) in H. discriminate.
Qed.
Lemma g6_value x : gok x -> exists q, real (g6 x) = Some q /\ (Qabs (q - x) <= Qabs x * (5 # 1000000))%Q /\ (forall n, (x == inject_Z n)%Q -> Z.abs n < 1000000 -> (q == x)%Q) /\ Forall gchar (g6 x).
Proof.
  intros H. destruct (Qeq_bool x 0) eqn:Z0.
  - unfold g6. rewrite Z0. apply Qeq_bool_iff in Z0. exists (0 + 0)%Q. split; [reflexivity|]. split; [rewrite Z0; vm_compute; discriminate|]. split; [intros; rewrite Z0; reflexivity|]. constructor; [left; exists 0; reflexivity|constructor].
  - assert (NZ : ~ (x == 0)%Q) by (intros C; apply Qeq_bool_iff in C; congruence). destruct H as [H|H]; [contradiction|].
    rewrite g6_eq by exact NZ. pose proof (six_spec (Qabs x) H) as S. destruct (six (Qabs x)) as (m, e). destruct S as (M & E & ER & EX).
    destruct (gtext_value m e M ltac:(lia)) as (q & Hq & Eq). pose proof (gtext_gchar m e ltac:(lia)) as HC.
    destruct (Qle_bool 0 x) eqn:SG.
    + apply Qle_bool_iff in SG. assert (A : (Qabs x == x)%Q) by (apply Qabs_pos; exact SG). exists q. split; [apply magnitude_no_minus; exact Hq|]. split; [|split; [|exact HC]].
      * rewrite Eq. rewrite A in ER at 1. exact ER.
      * intros n En Hn. rewrite Eq, <- A. apply (EX n); [rewrite A; exact En|lia].
    + assert (SG' : (x <= 0)%Q) by (destruct (Qlt_le_dec 0 x) as [l|l]; [apply Qlt_le_weak, Qle_bool_iff in l; congruence|exact l]).
      assert (A : (Qabs x == - x)%Q) by (apply Qabs_neg; exact SG'). exists (- q)%Q. split; [cbn [app]; unfold real; change (("-" =? "-")%char) with true; cbv iota; rewrite Hq; reflexivity|]. split; [|split].
      * rewrite Eq. rewrite A in ER at 1. rewrite <- Qabs_opp. setoid_replace (- (- (inject_Z m * p10 (e - 5)) - x))%Q with (inject_Z m * p10 (e - 5) - - x)%Q by ring. exact ER.
      * intros n En Hn. assert (B : (inject_Z m * p10 (e - 5) == Qabs x)%Q) by (apply (EX (- n)); [rewrite A, En, inject_Z_opp; reflexivity|lia]). rewrite Eq, B, A. ring.
      * cbn [app]. constructor; [do 2 right; left; reflexivity|exact HC].
Qed.
Lemma g6_reads x : gok x -> exists q, real (g6 x) = Some q /\ (Qabs (q - x) <= Qabs x * (5 # 1000000))%Q /\ (forall n, (x == inject_Z n)%Q -> Z.abs n < 1000000 -> (q == x)%Q).
Proof. intros H. destruct (g6_value x H) as (q & A & B & C & _). exists q. split; [exact A|]. split; assumption. Qed.
Lemma gchar_plain c : gchar c -> (c <> " "%char /\ c <> newline) /\ uncolon c = c.
Proof.
  intros [D|[->|[->|[->| ->]]]]; try (split; [split; discriminate|reflexivity]). destruct (dig_not_sep c D) as (A & B & _). split; [split; assumption|].
  unfold uncolon. destruct (Ascii.eqb_spec c ":") as [->|N]; [|reflexivity]. destruct D as (v & Hv). discriminate.
Qed.
(** ** A line *)
Lemma uncolon_gtext s : Forall gchar s -> map uncolon s = s.
Proof. induction 1 as [|c s Hc HS IH]; [reflexivity|]. cbn [map]. rewrite IH, (proj2 (gchar_plain c Hc)). reflexivity. Qed.
Lemma gtext_plain s : Forall gchar s -> Forall (fun c => c <> " "%char /\ c <> newline) s.
Proof. apply Forall_impl. intros c H. apply gchar_plain. exact H. Qed.
Lemma word_plain_end s : s <> [] -> Forall (fun c => c <> " "%char /\ c <> newline) s -> split_words [] s = [s].
Proof. intros N H. rewrite <- (app_nil_r s) at 1. rewrite words_word by exact H. cbn [app split_words]. destruct s; [congruence|reflexivity]. Qed.
Lemma sort_reals_app a b : sort_reals (a ++ b) = (fst (sort_reals a) ++ fst (sort_reals b), snd (sort_reals a) ++ snd (sort_reals b)).
Proof. induction a as [|w a IH]; cbn [app sort_reals]; [destruct (sort_reals b); reflexivity|]. rewrite IH. destruct (sort_reals a) as (l, v). destruct (real w); reflexivity. Qed.
Definition vt_line (l : Z * Z * Q) : list ascii :=
  let '(hw, ref, true_z) := l in chars "====>  hardware dZ:" ++ g6 (inject_Z hw) ++ chars " -- emulated dZ: " ++ g6 (inject_Z ref) ++ chars " -- True dZ: " ++ g6 true_z.
Lemma real_nonempty s q : real s = Some q -> s <> []. Proof. intros H ->. discriminate. Qed.
Definition vt_labels : list string := ["====>"; "hardware"; "dZ"; "--"; "emulated"; "dZ"; "--"; "True"; "dZ"].
Lemma vt_line_read hw ref z : gok (inject_Z hw) -> gok (inject_Z ref) -> gok z -> nonl (vt_line (hw, ref, z)) /\
  exists a b c, sort_reals (split_words [] (map uncolon (vt_line (hw, ref, z)))) = (vt_labels, [a; b; c]) /\
    (Z.abs hw < 1000000 -> (a == inject_Z hw)%Q) /\ (Z.abs ref < 1000000 -> (b == inject_Z ref)%Q) /\ (Qabs (c - z) <= Qabs z * (5 # 1000000))%Q.
Proof.
  intros H1 H2 H3. destruct (g6_value _ H1) as (a & Ra & _ & Ea & Ca). destruct (g6_value _ H2) as (b & Rb & _ & Eb & Cb). destruct (g6_value _ H3) as (c & Rc & Ec & _ & Cc).
  pose proof (gtext_plain _ Ca) as Pa. pose proof (gtext_plain _ Cb) as Pb. pose proof (gtext_plain _ Cc) as Pc.
  assert (NL : forall s, Forall (fun c => c <> " "%char /\ c <> newline) s -> nonl s) by (intros s; apply Forall_impl; intros ? [_ ?]; assumption).
  assert (NC : forall s, forallb (fun c => negb (c =? newline)%char) (chars s) = true -> nonl (chars s)).
  { intros s F. rewrite forallb_forall in F. apply Forall_forall. intros x Hx E. specialize (F x Hx). rewrite E in F. discriminate. }
  split.
  - unfold vt_line, nonl. apply Forall_app. split; [apply NC; reflexivity|]. apply Forall_app. split; [apply NL, Pa|]. apply Forall_app. split; [apply NC; reflexivity|]. apply Forall_app. split; [apply NL, Pb|]. apply Forall_app. split; [apply NC; reflexivity|apply NL, Pc].
  - exists a, b, c. split; [|split; [intros L; exact (Ea hw (Qeq_refl _) L)|split; [intros L; exact (Eb ref (Qeq_refl _) L)|exact Ec]]].
    unfold vt_line. rewrite !map_app, (uncolon_gtext _ Ca), (uncolon_gtext _ Cb), (uncolon_gtext _ Cc).
    change (map uncolon (chars "====>  hardware dZ:")) with (chars "====>  hardware dZ" ++ [" "%char]). change (map uncolon (chars " -- emulated dZ: ")) with (" "%char :: chars "-- emulated dZ " ++ [" "%char]). change (map uncolon (chars " -- True dZ: ")) with (" "%char :: chars "-- True dZ " ++ [" "%char]).
    rewrite <- !app_assoc. cbn [app]. rewrite <- !app_assoc. cbn [app]. rewrite words_mid. rewrite words_mid. rewrite words_mid. rewrite words_mid. rewrite words_mid.
    rewrite (word_plain_end (g6 (inject_Z hw))) by (exact Pa || exact (real_nonempty _ _ Ra)). rewrite (word_plain_end (g6 (inject_Z ref))) by (exact Pb || exact (real_nonempty _ _ Rb)). rewrite (word_plain_end (g6 z)) by (exact Pc || exact (real_nonempty _ _ Rc)).
    rewrite !sort_reals_app. cbn [sort_reals]. rewrite Ra, Rb, Rc. reflexivity.
Qed.
(** ** The program *)
Lemma rnd_size p emin x : 1 <= p -> (rnd p emin x == 0)%Q \/ (p2 emin <= Qabs (rnd p emin x))%Q.
Proof.
  intros Hp. destruct (Qeq_dec x 0) as [E|E]; [left; rewrite rnd_zero by exact E; reflexivity|]. rewrite rnd_eq by exact E. set (k := rneQ _). destruct (Z.eq_dec k 0) as [->|K]; [left; apply Qmult_0_l|right].
  rewrite Qabs_Qmult. pose proof (p2_pos (ue p emin x)) as P. rewrite (Qabs_pos (p2 _)) by (apply Qlt_le_weak; exact P). assert (1 <= Qabs (inject_Z k))%Q by (change (Qabs (inject_Z k)) with (inject_Z (Z.abs k)); apply (proj2 (injZ_le 1 (Z.abs k))); lia).
  assert (p2 emin <= p2 (ue p emin x))%Q by (apply p2_le; unfold ue; lia). nra.
Qed.
Lemma int_gok n : Z.abs n < 1000000 -> gok (inject_Z n).
Proof.
  intros H. destruct (Z.eq_dec n 0) as [->|N]; [left; reflexivity|right]. change (Qabs (inject_Z n)) with (inject_Z (Z.abs n)). split.
  - apply Qle_trans with 1%Q; [change 1%Q with (p10 0); apply p10_le; lia|]. apply (proj2 (injZ_le 1 (Z.abs n))). lia.
  - apply Qlt_le_trans with (p10 6); [|apply p10_le; lia]. change (p10 6) with (inject_Z 1000000). apply injZ_lt. exact H.
Qed.
Lemma text_lines out : Forall (fun l => nonl (vt_line l)) out -> split_lines [] (List.concat (map vt_text out)) = map vt_line out.
Proof.
  induction 1 as [|((hw, ref), z) out H HF IH]; [reflexivity|]. cbn [map List.concat].
  replace (vt_text (hw, ref, z) ++ List.concat (map vt_text out)) with (vt_line (hw, ref, z) ++ newline :: List.concat (map vt_text out)) by (unfold vt_text, vt_line; rewrite <- !app_assoc; reflexivity).
  rewrite split_line by exact H. rewrite IH. reflexivity.
Qed.
Lemma r64_gok x : (Qabs (r64 x) <= 1000)%Q -> gok (r64 x).
Proof.
  intros U. unfold r64 in *. destruct (rnd_size 53 (-1074) x ltac:(lia)) as [E|E]; [left; exact E|right]. split.
  - eapply Qle_trans; [|exact E]. vm_compute. discriminate.
  - eapply Qle_lt_trans; [exact U|]. vm_compute. reflexivity.
Qed.
Theorem c87 z0bin conv rnds hv rv : rand_ok rnds -> bins_ok z0bin -> centres_ok conv ->
  exists text, vt_main_say z0bin conv rnds hv rv = Ok (0, text) /\ length (read_reals text) = 50%nat /\ forall i r, nth_error (read_reals text) i = Some r ->
    let o := calls_before rnds i in
    exists t z o' b s x y w, make_tracks rnds o = Ok (t, z, o') /\ first_max (slice_sum slice t) NVTXBINS b s /\
      r = (["====>"; "hardware"; "dZ"; "--"; "emulated"; "dZ"; "--"; "True"; "dZ"], [x; y; w]) /\
      (x == inject_Z (20 * Z.of_nat b + 10))%Q /\ (y == inject_Z (20 * Z.of_nat b + 10))%Q /\ (20 * z - (1 # 1000) <= w)%Q /\ (w <= 20 * z + (1 # 1000))%Q /\
      (80 * (unif (rnds o) + unif (rnds (o + 1)%nat)) - (1 # 40) <= w)%Q /\ (w <= 80 * (unif (rnds o) + unif (rnds (o + 1)%nat)) + (1 # 40))%Q.
Proof.
  intros H1 H2 H3. destruct (c69 z0bin conv rnds hv rv H1 H2 H3) as (out & E & L & R). exists (List.concat (map vt_text out)). unfold vt_main_say. rewrite E. cbn [bind]. split; [reflexivity|].
  assert (F : Forall (fun l => nonl (vt_line l)) out).
  { apply Forall_forall. intros l Hl. apply In_nth_error in Hl. destruct Hl as (i & Hi). destruct (R i l Hi) as (t & z & o' & b & s & _ & _ & B & -> & Z0 & Z1).
    apply vt_line_read; try (apply int_gok; lia). apply r64_gok. rewrite Qabs_pos by exact Z0. lra. }
  unfold read_reals. rewrite text_lines by exact F. rewrite !map_length. split; [exact L|]. intros i r Hr. rewrite !nth_error_map in Hr. destruct (nth_error out i) as [l|] eqn:Hi; [|discriminate]. cbn [option_map] in Hr. injection Hr as <-.
  destruct (R i l Hi) as (t & z & o' & b & s & MT & FM & B & -> & Z0 & Z1). cbv zeta. exists t, z, o', b, s.
  destruct (vt_line_read (20 * Z.of_nat b + 10) (20 * Z.of_nat b + 10) (r64 (z * 20))) as (_ & x & y & w & SR & X & Y & W); try (apply int_gok; lia); [apply r64_gok; rewrite Qabs_pos by exact Z0; lra|].
  exists x, y, w. split; [exact MT|]. split; [exact FM|]. split; [exact SR|]. split; [apply X; lia|]. split; [apply Y; lia|].
  destruct (c69_tracks rnds (calls_before rnds i) H1) as (t' & z' & o'' & npu & npv & MT' & _ & _ & _ & _ & _ & _ & ZL & ZU & _). rewrite MT in MT'. injection MT' as <- <- <-.
  assert (U : forall k, (0 <= unif (rnds k))%Q /\ (unif (rnds k) <= 1)%Q).
  { intros k. destruct (H1 k) as (A & A'). unfold unif. split; [apply Qle_shift_div_l; [reflexivity|]; rewrite Qmult_0_l; change 0%Q with (inject_Z 0); apply injZ_le; exact A|apply Qle_shift_div_r; [reflexivity|]; rewrite Qmult_1_l; change 2147483647%Q with (inject_Z 2147483647); apply injZ_le; exact A']. }
  pose proof (U (calls_before rnds i)) as (U1 & U2). pose proof (U (calls_before rnds i + 1)%nat) as (U3 & U4).
  destruct (err64 (z * 20) 161) as (E1 & E2); [lra|lra|lra|].
  apply Qabs_Qle_condition in W. rewrite (Qabs_pos (r64 _)) in W by exact Z0.
  repeat split; lra.
Qed.
(** ** No digit too many *)
Definition nopt (s : list ascii) : Prop := ~ In "."%char s.
Lemma one_point p q a b : nopt p -> nopt q -> p ++ "."%char :: q = a ++ "."%char :: b -> b = q.
Proof.
  intros NP NQ. revert a. induction p as [|c p IH]; intros [|x a] E; cbn [app] in E.
  - injection E as E. congruence.
  - injection E as E1 E2. exfalso. apply NQ. rewrite E2. apply in_or_app. right. left. reflexivity.
  - injection E as E1 E2. exfalso. apply NP. left. exact E1.
  - injection E as E1 E2. apply (IH ltac:(intros I; apply NP; right; exact I) a E2).
Qed.
Lemma nopt_app a b : nopt a -> nopt b -> nopt (a ++ b). Proof. intros A B I. apply in_app_or in I. destruct I; [exact (A H)|exact (B H)]. Qed.
Lemma nopt_digits l : digs l -> nopt (map digit l).
Proof. intros H I. pose proof (digit_chars l H) as F. rewrite Forall_forall in F. destruct (F _ I) as (v & Hv). discriminate. Qed.
Lemma drop_last l : drop_zeros l = [] \/ exists f c, drop_zeros l = f ++ [c] /\ c <> 0.
Proof.
  induction l as [|d l IH]; [left; reflexivity|]. cbn [drop_zeros]. destruct IH as [->|(f & c & -> & Hc)].
  - destruct (Z.eqb_spec d 0) as [->|N]; [left; reflexivity|]. right. exists [], d. split; [reflexivity|exact N].
  - right. exists (d :: f), c. split; [destruct f; reflexivity|exact Hc].
Qed.
Definition shortened (b : list ascii) : Prop := exists f c v s, b = f ++ c :: s /\ Forall isdig f /\ decimal_digit c = Some v /\ 1 <= v <= 9 /\ (s = [] \/ exists s', s = "e"%char :: s').
Lemma short_tail F f c E : F = f ++ [c] -> c <> 0 -> digs F -> (E = [] \/ exists s', E = "e"%char :: s') -> shortened (map digit F ++ E).
Proof.
  intros -> N D HE. apply Forall_app in D as [D1 D2]. inversion D2; subst. exists (map digit f), (digit c), c, E. rewrite map_app, <- app_assoc. cbn [map app].
  split; [reflexivity|]. split; [apply digit_chars; exact D1|]. split; [apply dig_facts; assumption|]. split; [lia|exact HE].
Qed.
Lemma short_case A F E a b : nopt A -> nopt E -> digs F -> (F = [] \/ exists f c, F = f ++ [c] /\ c <> 0) -> (E = [] \/ exists s', E = "e"%char :: s') ->
  A ++ point F ++ E = a ++ "."%char :: b -> shortened b.
Proof.
  intros NA NE D [->|(f & c & EF & N)] HE EQ.
  - exfalso. cbn [point app] in EQ. apply (nopt_app A E NA NE). rewrite EQ. apply in_or_app. right. left. reflexivity.
  - assert (EP : point F ++ E = "."%char :: (map digit F ++ E)) by (rewrite EF; destruct f; reflexivity). rewrite EP in EQ.
    apply one_point in EQ; [|exact NA|apply nopt_app; [apply nopt_digits; exact D|exact NE]]. subst b. exact (short_tail F f c E EF N D HE).
Qed.
Lemma gtext_short S m e a b : nopt S -> 100000 <= m < 1000000 -> -400 <= e <= 400 -> S ++ gtext m e = a ++ "."%char :: b -> shortened b.
Proof.
  intros NS Hm He. unfold gtext. cbv zeta. pose proof (six_digs m) as HD. destruct ((e <? -4) || (6 <=? e)); [|destruct (e <? 0)].
  - rewrite app_assoc. apply short_case; [apply nopt_app; [exact NS|apply nopt_digits, digs_firstn, HD]| |apply drop_digs, digs_skipn, HD|apply drop_last|right; eexists; reflexivity].
    intros [I|[I|I]]; [discriminate|destruct (e <? 0); discriminate|]. revert I. apply nopt_digits, exp_digs. lia.
  - change ("0"%char :: point (repeat 0 (Z.to_nat (- e - 1)) ++ drop_zeros (six_digits m))) with (["0"%char] ++ point (repeat 0 (Z.to_nat (- e - 1)) ++ drop_zeros (six_digits m))). rewrite app_assoc, <- (app_nil_r (point _)).
    apply short_case; [apply nopt_app; [exact NS|intros [I|[]]; discriminate]|intros []|apply digs_app; [apply digs_zeros|apply drop_digs, HD]| |left; reflexivity].
    right. destruct (drop_last (six_digits m)) as [D|(f & c & D & N)].
    + exfalso. pose proof (drop_fraction (six_digits m)) as DF. pose proof (six_value m 0 ltac:(lia) ltac:(lia)) as V. cbn [firstn skipn] in V. rewrite <- DF, D in V. change (inject_Z (whole [])) with 0%Q in V. change (fraction []) with 0%Q in V.
      pose proof (p10_pos (Z.of_nat 0 - 6)) as P. assert (0 < inject_Z m)%Q by (apply (proj2 (injZ_lt 0 m)); lia). nra.
    + exists (repeat 0 (Z.to_nat (- e - 1)) ++ f), c. rewrite D, app_assoc. split; [reflexivity|exact N].
  - rewrite app_assoc, <- (app_nil_r (point _)). apply short_case; [apply nopt_app; [exact NS|apply nopt_digits, digs_firstn, HD]|intros []|apply drop_digs, digs_skipn, HD|apply drop_last|left; reflexivity].
Qed.
Lemma c87_short x a b : gok x -> g6 x = a ++ "."%char :: b -> shortened b.
Proof.
  intros H. destruct (Qeq_bool x 0) eqn:Z0.
  - unfold g6. rewrite Z0. destruct a as [|y [|z a]]; intros E; discriminate.
  - assert (NZ : ~ (x == 0)%Q) by (intros C; apply Qeq_bool_iff in C; congruence). destruct H as [H|H]; [contradiction|].
    rewrite g6_eq by exact NZ. pose proof (six_spec (Qabs x) H) as S. destruct (six (Qabs x)) as (m, e). destruct S as (M & E & _). apply gtext_short; [|exact M|lia].
    destruct (Qle_bool 0 x); [intros []|intros [I|[]]; discriminate].
Qed.
