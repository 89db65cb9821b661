(** The summary of bram_hist_vtx_test. *)
From Coq Require Import QArith Qpower Qround Qabs Lqa Ascii String.
From Verif Require Import Base BaseFacts Fill FloatFacts PuppiTable TableProofs VtxTestProofs SerText SerTextFacts SpecHR HRFacts SpecVtxConsole VtxConsole VtxConsoleProofs
  Data DiscreteIO SpecIO SpecRegion SpecRegTest Regionizer Bhv BhvTest SpecBhvTest SpecConsole BhvConsole SpecBhvConsole BhvTestProofs BhvConsoleProofs BhvSummary SpecBhvSummary.
Local Open Scope string_scope.
Local Open Scope list_scope.
Local Open Scope Z_scope.

(** ** Decimal numbers *)
Lemma whole_snoc l d : whole (l ++ [d]) = 10 * whole l + d.
Proof. unfold whole. rewrite fold_left_app. reflexivity. Qed.
Lemma dec_digits fuel : forall n, (1 <= fuel)%nat -> 0 <= n < 10 ^ Z.of_nat fuel -> exists ds, dec fuel n = map digit ds /\ digs ds /\ ds <> [] /\ whole ds = n.
Proof.
  induction fuel as [|f IH]; intros n Hf Hn; [lia|]. cbn [dec]. assert (DM : 0 <= n mod 10 < 10) by (apply Z.mod_pos_bound; lia). destruct (Z.ltb_spec n 10) as [L|L].
  - exists [n mod 10]. split; [reflexivity|]. split; [repeat constructor; lia|]. split; [discriminate|]. unfold whole. cbn [fold_left]. lia.
  - destruct f as [|f']; [cbn in Hn; lia|]. destruct (IH (n / 10)) as (ds & E & D & N & W); [lia| |].
    { rewrite Nat2Z.inj_succ, Z.pow_succ_r in Hn by lia. split; [apply Z.div_pos; lia|apply Z.div_lt_upper_bound; lia]. }
    exists (ds ++ [n mod 10]). rewrite E, map_app. split; [reflexivity|]. split; [apply digs_app; [exact D|repeat constructor; lia]|]. split; [destruct ds; discriminate|]. rewrite whole_snoc, W. lia.
Qed.
Lemma log_fuel m : 0 <= m -> m / 1000 < 10 ^ Z.of_nat (Z.to_nat (Z.log2 m + 2)).
Proof.
  intros H. rewrite Z2Nat.id by (pose proof (Z.log2_nonneg m); lia). apply Z.le_lt_trans with m; [apply Z.div_le_upper_bound; lia|].
  destruct (Z.eq_dec m 0) as [->|N]; [reflexivity|]. pose proof (Z.log2_spec m ltac:(lia)) as (_ & U). eapply Z.lt_le_trans; [exact U|]. pose proof (Z.log2_nonneg m).
  apply Z.le_trans with (10 ^ Z.succ (Z.log2 m)); [apply Z.pow_le_mono_l; lia|apply Z.pow_le_mono_r; lia].
Qed.
Lemma f3_shape x : exists ds a b c, f3 x = (if Qle_bool 0 x then [] else ["-"%char]) ++ map digit ds ++ "."%char :: map digit [a; b; c] /\ digs ds /\ digs [a; b; c] /\ ds <> [] /\
  1000 * whole ds + 100 * a + 10 * b + c = rneQ (Qabs x * 1000).
Proof.
  unfold f3. cbv zeta. set (m := rneQ (Qabs x * 1000)). assert (M : 0 <= m) by (unfold m; rewrite <- (rne_int 0); apply rne_mono; pose proof (Qabs_nonneg x); change (inject_Z 0) with 0%Q; lra).
  destruct (dec_digits (Z.to_nat (Z.log2 m + 2)) (m / 1000)) as (ds & E & D & N & W); [pose proof (Z.log2_nonneg m); lia|split; [apply Z.div_pos; lia|apply log_fuel; exact M]|].
  exists ds, (m / 100 mod 10), (m / 10 mod 10), (m mod 10). rewrite E. split; [reflexivity|]. split; [exact D|]. split; [repeat (constructor; [apply Z.mod_pos_bound; lia|]); constructor|]. split; [exact N|]. rewrite W. lia.
Qed.
Lemma f3_value x : (0 <= x)%Q -> exists v, real (f3 x) = Some v /\ (0 <= v)%Q /\ (Qabs (v - x) <= 1 # 2000)%Q.
Proof.
  intros H. destruct (f3_shape x) as (ds & a & b & c & -> & D & D3 & N & W). assert (H' := H). apply Qle_bool_iff in H'. rewrite H'. cbn [app].
  exists (inject_Z (whole ds) + fraction [a; b; c])%Q.
  assert (EV : (inject_Z (whole ds) + fraction [a; b; c] == inject_Z (rneQ (Qabs x * 1000)) * (1 # 1000))%Q).
  { rewrite <- W. repeat (rewrite ?inject_Z_plus, ?inject_Z_mult). unfold fraction. cbn [fold_right]. change (inject_Z 1000) with (1000 # 1). change (inject_Z 100) with (100 # 1). change (inject_Z 10) with (10 # 1). field. }
  split; [|split].
  - apply magnitude_no_minus. change ("."%char :: map digit [a; b; c]) with (point [a; b; c]). rewrite <- (app_nil_r (point _)). rewrite mantissa; [reflexivity|exact N|exact D|exact D3|exact Logic.I].
  - rewrite EV. assert (0 <= rneQ (Qabs x * 1000)) by (rewrite <- (rne_int 0); apply rne_mono; pose proof (Qabs_nonneg x); change (inject_Z 0) with 0%Q; lra). apply injZ_le in H0. change (inject_Z 0) with 0%Q in H0. lra.
  - rewrite EV. pose proof (rne_near (Qabs x * 1000)) as R. assert (A : (Qabs x == x)%Q) by (apply Qabs_pos; exact H). apply Qabs_Qle_condition in R. apply Qabs_Qle_condition. rewrite A in R at 2 4. split; lra.
Qed.
(** ** One word *)
Lemma natural_dot ds r : forall acc, digs ds -> r <> [] -> natural acc (map digit ds ++ "."%char :: r) = None.
Proof.
  intros acc H R. revert acc. induction H as [|d l Hd HL IH]; intros acc; cbn [map app].
  - destruct r as [|c r]; [congruence|]. reflexivity.
  - cbn [natural]. destruct (map digit l ++ "."%char :: r) as [|y s] eqn:E; [destruct l; discriminate|]. rewrite dig_facts by exact Hd. apply IH.
Qed.
Lemma number_dot ds r : digs ds -> r <> [] -> number (map digit ds ++ "."%char :: r) = None.
Proof.
  intros H R. unfold number. destruct (map digit ds ++ "."%char :: r) as [|c s] eqn:E; [reflexivity|]. destruct (decimal_digit c); [|reflexivity]. rewrite <- E. apply natural_dot; assumption.
Qed.
Lemma tidy_gchar c : gchar c -> tidy c = c.
Proof.
  intros [D|[->|[->|[->| ->]]]]; try reflexivity. unfold tidy. destruct (existsb _ _) eqn:E; [|reflexivity]. exfalso. apply existsb_exists in E. destruct E as (x & Hx & E). apply Ascii.eqb_eq in E. subst x. destruct D as (v & Hv). cbn in Hx. repeat (destruct Hx as [<-|Hx]; [discriminate|]). exact Hx.
Qed.
Lemma tidy_text s : Forall gchar s -> map tidy s = s.
Proof. induction 1 as [|c s Hc HS IH]; [reflexivity|]. cbn [map]. rewrite IH, tidy_gchar by exact Hc. reflexivity. Qed.
Lemma f3_label x : one_label (f3 x) /\ list_ascii_of_string (label (f3 x)) = f3 x.
Proof.
  destruct (f3_shape x) as (ds & a & b & c & E & D & D3 & N & _).
  assert (G : Forall gchar (f3 x)).
  { rewrite E. apply Forall_app. split; [destruct (Qle_bool 0 x); [constructor|constructor; [do 2 right; left; reflexivity|constructor]]|]. apply Forall_app. split; [apply digits_gchar; exact D|constructor; [right; left; reflexivity|apply digits_gchar; exact D3]]. }
  assert (NE : f3 x <> []) by (rewrite E; intros C; apply app_eq_nil in C as [_ C]; apply app_eq_nil in C as [_ C]; discriminate).
  assert (IN : integer (f3 x) = None).
  { rewrite E. destruct ds as [|d ds]; [congruence|]. destruct (Qle_bool 0 x).
    - cbn [app map]. unfold integer. assert (ID : isdig (digit d)) by (inversion D; exists d; apply dig_facts; assumption). destruct (dig_not_sep _ ID) as (_ & _ & M & P).
      destruct (Ascii.eqb_spec (digit d) "-"); [contradiction|]. destruct (Ascii.eqb_spec (digit d) "+"); [contradiction|]. apply (number_dot (d :: ds) (map digit [a; b; c])); [exact D|discriminate].
    - cbn [app]. unfold integer. change (("-" =? "-")%char) with true. cbv iota. rewrite (number_dot (d :: ds) (map digit [a; b; c])) by (exact D || discriminate). reflexivity. }
  assert (RR : read_row (map tidy (f3 x)) = ([string_of_list_ascii (f3 x)], [])).
  { rewrite tidy_text by exact G. unfold read_row. cbv zeta. rewrite word_plain_end by (exact NE || apply gtext_plain; exact G). cbn [labels integers]. rewrite IN. reflexivity. }
  split; [split|].
  - intros I. rewrite Forall_forall in G. specialize (G _ I). apply gchar_plain in G. destruct G as ((_ & G) & _). congruence.
  - eexists. exact RR.
  - unfold label. rewrite RR. cbn [fst hd]. apply list_ascii_of_string_of_list_ascii.
Qed.
Lemma ratio_label nan a b : one_label nan -> one_label (ratio3 nan a b).
Proof. intros H. unfold ratio3. destruct (b =? 0); [exact H|apply f3_label]. Qed.
Lemma resolution_label nan a b : one_label nan -> one_label (resolution3 nan a b).
Proof. intros H. unfold resolution3. destruct ((b =? 0) || _); [exact H|apply f3_label]. Qed.
(** ** Quotients *)
Lemma r32_int n : 0 <= n < 2 ^ 24 -> (r32 (inject_Z n) == inject_Z n)%Q.
Proof. intros H. unfold r32. apply (rnd_exact 24 (-149) ltac:(lia) (inject_Z n) n 0); [change ((2 # 1) ^ 0)%Q with 1%Q; ring|lia|lia]. Qed.
Lemma r64_int n : 0 <= n < 2 ^ 53 -> (r64 (inject_Z n) == inject_Z n)%Q.
Proof. intros H. unfold r64. apply (rnd_exact 53 (-1074) ltac:(lia) (inject_Z n) n 0); [change ((2 # 1) ^ 0)%Q with 1%Q; ring|lia|lia]. Qed.
Lemma r32_comp x y : (x == y)%Q -> (r32 x == r32 y)%Q. Proof. apply rnd_comp. lia. Qed.
Lemma r64_comp x y : (x == y)%Q -> (r64 x == r64 y)%Q. Proof. apply rnd_comp. lia. Qed.
Lemma quot_range n d : 0 <= n -> 0 < d -> forall k, n <= k * d -> (0 <= inject_Z n / inject_Z d)%Q /\ (inject_Z n / inject_Z d <= inject_Z k)%Q.
Proof.
  intros N D k K. assert (P : (0 < inject_Z d)%Q) by (apply (proj2 (injZ_lt 0 d)); exact D). split.
  - apply Qle_shift_div_l; [exact P|]. rewrite Qmult_0_l. apply (proj2 (injZ_le 0 n)). exact N.
  - apply Qle_shift_div_r; [exact P|]. rewrite <- inject_Z_mult. apply injZ_le. exact K.
Qed.
Lemma ratio_shows nan a n : 0 <= a <= n -> n < 2 ^ 24 -> shows_quotient (label nan) (label (ratio3 nan a n)) a n.
Proof.
  intros A N. unfold shows_quotient, ratio3. destruct (Z.eqb_spec n 0) as [->|NZ]; [split; [reflexivity|intros C; congruence]|]. split; [intros C; contradiction|intros _].
  destruct (f3_label (r32 (r32 (inject_Z a) / r32 (inject_Z n)))) as (_ & ->).
  assert (Q1 : (r32 (r32 (inject_Z a) / r32 (inject_Z n)) == r32 (inject_Z a / inject_Z n))%Q) by (apply r32_comp; rewrite !r32_int by lia; reflexivity).
  destruct (quot_range a n ltac:(lia) ltac:(lia) 1 ltac:(lia)) as (L & U). change (inject_Z 1) with 1%Q in U.
  destruct (err32 (inject_Z a / inject_Z n) 1) as (E1 & E2); [lra|lra|lra|].
  destruct (f3_value (r32 (r32 (inject_Z a) / r32 (inject_Z n)))) as (v & R & V0 & V); [rewrite Q1; apply rnd_sign; (exact L || lia)|].
  exists v. split; [exact R|]. rewrite Q1 in V. apply Qabs_Qle_condition in V. apply Qabs_Qle_condition. unfold tolerance. split; lra.
Qed.
(** ** Square roots *)
Lemma sqrt64_near x : (0 < x)%Q -> (x <= 128)%Q -> exists d, (0 <= d)%Q /\ (d <= 1 # 1000000000000)%Q /\ (d <= sqrt64 x)%Q /\ ((sqrt64 x - d) * (sqrt64 x - d) <= x)%Q /\ (x <= (sqrt64 x + d) * (sqrt64 x + d))%Q.
Proof.
  intros H U. unfold sqrt64. destruct (Qeq_bool x 0) eqn:Z0; [apply Qeq_bool_iff in Z0; lra|]. cbv zeta. set (e := expoQ x / 2 - 52).
  destruct (expo_spec x H) as (EL & EU). assert (E7 : expoQ x <= 7) by (destruct (Z.le_gt_cases (expoQ x) 7) as [?|G]; [assumption|exfalso]; pose proof (p2_le 8 (expoQ x) ltac:(lia)) as P; change (p2 8) with 256%Q in P; lra).
  set (X := (x * p2 (- 2 * e))%Q).
  assert (PP : (p2 e * p2 e * p2 (- 2 * e) == 1)%Q) by (rewrite <- !p2_add; replace (e + e + -2 * e) with 0 by lia; reflexivity).
  pose proof (p2_pos e) as P1. pose proof (p2_pos (- 2 * e)) as P2.
  assert (XX : (x == X * (p2 e * p2 e))%Q) by (unfold X; rewrite <- Qmult_assoc, (Qmult_comm (p2 (-2 * e))), PP; ring).
  assert (X1 : (1 <= X)%Q).
  { unfold X. assert (p2 0 <= p2 (expoQ x) * p2 (- 2 * e))%Q by (rewrite <- p2_add; apply p2_le; unfold e; lia). change (p2 0) with 1%Q in *. nra. }
  set (N := Qfloor (x * (4 # 1) * p2 (- 2 * e))). destruct (floor_bounds (x * (4 # 1) * p2 (- 2 * e))) as (F1 & F2). fold N in F1, F2.
  assert (F1' : (inject_Z N <= 4 * X)%Q) by (unfold X; lra). assert (F2' : (4 * X < inject_Z N + 1)%Q) by (unfold X; lra). clear F1 F2.
  assert (N4 : 4 <= N) by (assert (3 < N); [|lia]; apply Zlt_of; change (inject_Z 3) with 3%Q; lra).
  destruct (Z.sqrt_spec N ltac:(lia)) as (S1 & S2). set (r := Z.sqrt N) in *. assert (R2 : 2 <= r) by (destruct (Z.le_gt_cases 2 r); [assumption|]; pose proof (Z.sqrt_nonneg N : 0 <= r); nia).
  set (k := (r + 1) / 2). assert (K : 2 * k - 1 <= r <= 2 * k) by (unfold k; lia).
  assert (G1 : ((inject_Z k - (1 # 2)) * (inject_Z k - (1 # 2)) <= X)%Q).
  { assert (Z1 : 4 * (k * k) + 1 <= N + 4 * k) by nia. apply injZ_le in Z1. rewrite !inject_Z_plus, !inject_Z_mult in Z1. change (inject_Z 4) with 4%Q in Z1. change (inject_Z 1) with 1%Q in Z1. lra. }
  assert (G2 : (X <= (inject_Z k + (1 # 2)) * (inject_Z k + (1 # 2)))%Q).
  { assert (Z1 : N <= 4 * (k * k) + 4 * k) by nia. apply injZ_le in Z1. rewrite !inject_Z_plus, !inject_Z_mult in Z1. change (inject_Z 4) with 4%Q in Z1. lra. }
  assert (K1 : (1 <= inject_Z k)%Q) by (apply (proj2 (injZ_le 1 k)); lia).
  exists ((1 # 2) * p2 e)%Q. assert (PE : (p2 e <= p2 (-49))%Q) by (apply p2_le; unfold e; lia). change (p2 (-49)) with (1 # 562949953421312)%Q in PE.
  split; [lra|]. split; [lra|]. split; [nra|]. split.
  - setoid_replace ((inject_Z k * p2 e - (1 # 2) * p2 e) * (inject_Z k * p2 e - (1 # 2) * p2 e))%Q with ((inject_Z k - (1 # 2)) * (inject_Z k - (1 # 2)) * (p2 e * p2 e))%Q by ring. rewrite XX. assert (0 <= p2 e * p2 e)%Q by nra. nra.
  - setoid_replace ((inject_Z k * p2 e + (1 # 2) * p2 e) * (inject_Z k * p2 e + (1 # 2) * p2 e))%Q with ((inject_Z k + (1 # 2)) * (inject_Z k + (1 # 2)) * (p2 e * p2 e))%Q by ring. rewrite XX. assert (0 <= p2 e * p2 e)%Q by nra. nra.
Qed.
Lemma quot_eq s n : 0 <= s < 2 ^ 53 -> 0 < n < 2 ^ 53 -> (r64 (r64 (inject_Z s) / r64 (inject_Z n)) == r64 (inject_Z s / inject_Z n))%Q.
Proof. intros S N. apply r64_comp. rewrite !r64_int by lia. reflexivity. Qed.
Lemma resolution_shows nan s n : 0 <= s <= 100 * n -> n < 2 ^ 24 -> shows_half_root (label nan) (label (resolution3 nan s n)) s n.
Proof.
  intros S N. unfold shows_half_root, resolution3. cbv zeta. destruct (Z.eqb_spec n 0) as [->|NZ]; [split; [reflexivity|intros C; congruence]|]. split; [intros C; contradiction|intros _].
  pose proof (quot_eq s n ltac:(lia) ltac:(lia)) as Q1. destruct (quot_range s n ltac:(lia) ltac:(lia) 100 ltac:(lia)) as (L & U). change (inject_Z 100) with 100%Q in U.
  set (q := (inject_Z s / inject_Z n)%Q) in *. set (x := r64 (r64 (inject_Z s) / r64 (inject_Z n))) in *.
  assert (X0 : (0 <= x)%Q) by (rewrite Q1; apply rnd_sign; (exact L || lia)). assert (X0' := X0). apply Qle_bool_iff in X0'. rewrite X0'. cbn [negb orb].
  destruct (f3_label (r64 ((1 # 2) * sqrt64 x))) as (_ & ->).
  (* the quotient *)
  pose proof (rnd_error 53 (-1074) q) as RE. fold (r64 q) in RE. rewrite <- Q1, (Qabs_pos q) in RE by exact L. apply Qabs_Qle_condition in RE.
  assert (B1 : (p2 (- (53)) <= 1 # 1000000000000000)%Q) by (vm_compute; discriminate).
  assert (B2 : (p2 (-1074 - 1) <= 1 # 1000000000000000)%Q) by (vm_compute; discriminate).
  assert (XQ : (q - (1 # 1000000000000) <= x)%Q /\ (x <= q + (1 # 1000000000000))%Q).
  { pose proof (p2_pos (- (53))) as B3. assert (q * p2 (- (53)) <= 100 * (1 # 1000000000000000))%Q by nra. split; lra. }
  (* the root *)
  assert (RT : exists d, (0 <= d)%Q /\ (d <= 1 # 1000000000000)%Q /\ (0 <= sqrt64 x)%Q /\ (sqrt64 x <= 11)%Q /\ ((d <= sqrt64 x)%Q -> ((sqrt64 x - d) * (sqrt64 x - d) <= x)%Q) /\ (x <= (sqrt64 x + d) * (sqrt64 x + d))%Q).
  { destruct (Qlt_le_dec 0 x) as [P|P].
    - destruct (sqrt64_near x P ltac:(lra)) as (d & D0 & D1 & D2 & D3 & D4). exists d. split; [exact D0|]. split; [exact D1|]. split; [lra|]. split; [|split; [intros _; exact D3|exact D4]].
      destruct (Qlt_le_dec 11 (sqrt64 x)) as [G|G]; [|exact G]. exfalso. assert ((11 - d) * (11 - d) <= (sqrt64 x - d) * (sqrt64 x - d))%Q by nra. nra.
    - assert (E : Qeq_bool x 0 = true) by (apply Qeq_bool_iff; lra). unfold sqrt64. rewrite E. exists 0%Q. split; [lra|]. split; [lra|]. split; [lra|]. split; [lra|]. split; [intros _; lra|lra]. }
  destruct RT as (d & D0 & D1 & Y0 & Y1 & D3 & D4). set (y := sqrt64 x) in *. clearbody y.
  destruct (err64 ((1 # 2) * y) 6) as (E1 & E2); [lra|lra|lra|].
  destruct (f3_value (r64 ((1 # 2) * y))) as (v & R & V0 & V); [apply rnd_sign; try lia; lra|]. apply Qabs_Qle_condition in V. destruct V as (V1 & V2).
  exists v. split; [exact R|]. split; [exact V0|]. unfold tolerance.
  assert (A1 : (y + (1 # 100000) <= 2 * (v + (51 # 100000)))%Q) by lra. assert (A2 : (2 * (v - (51 # 100000)) <= y - (1 # 100000))%Q) by lra.
  clear E1 E2 V1 V2. destruct XQ as (XQ1 & XQ2). split.
  - set (u := (2 * (v + (51 # 100000)))%Q) in *. clearbody u. assert (B4 : ((y + (1 # 100000)) * (y + (1 # 100000)) <= u * u)%Q) by nra.
    assert (B5 : ((y + d) * (y + d) <= (y + (1 # 1000000000000)) * (y + (1 # 1000000000000)))%Q) by nra. lra.
  - intros V. assert (A3 : (0 <= 2 * (v - (51 # 100000)))%Q) by lra. set (u := (2 * (v - (51 # 100000)))%Q) in *. clearbody u.
    assert (D5 : (d <= y)%Q) by lra. specialize (D3 D5). assert (B4 : (u * u <= (y - (1 # 100000)) * (y - (1 # 100000)))%Q) by nra.
    assert (B5 : ((y - (1 # 1000000000000)) * (y - (1 # 1000000000000)) <= (y - d) * (y - d))%Q) by nra. lra.
Qed.
(** ** The run *)
Section sums.
Context (pv : Z -> Z).
Lemma squares_bound (f h : pass -> Z) l : 0 <= squares f h l <= 100 * count f h l.
Proof.
  induction l as [|p l IH]; [cbn; lia|]. rewrite squares_cons, count_cons. destruct (Z.leb_spec (Z.abs (f p - h p)) 10) as [L|L]; [|lia]. assert (0 <= (f p - h p) ^ 2 <= 100) by (rewrite Z.pow_2_r; nia). lia.
Qed.
Lemma count_bound (f h : pass -> Z) l : 0 <= count f h l <= Z.of_nat (length l).
Proof. unfold count, near. pose proof (filter_le (fun p => Z.abs (f p - h p) <=? 10) l). lia. Qed.
End sums.
Lemma leading_all evs : forallb twelve evs = true -> leading evs = evs.
Proof. induction evs as [|e evs IH]; [reflexivity|]. cbn [forallb leading]. intros H. apply andb_prop in H. destruct H as (A & B). rewrite A, IH by exact B. reflexivity. Qed.
Theorem c88 special nan nan' g arr tmp old evs : (forall b, inS 10 (special b)) -> one_label nan -> one_label nan' -> dims2 24 18 arr -> length tmp = 36%nat -> dims2 18 24 old -> Forall event_wf evs -> forallb twelve (firstn 250 evs) = true ->
  exists tests text w1 w2 w3 w4 w5, bhv_main_say special (ratio3 nan) (resolution3 nan') (Ok true) g arr tmp old (Some (dump evs)) = Ok (0, disagreements tests, tests, text) /\
    let l := combine (firstn 250 evs) tests in let n := Z.of_nat (length l) in let pv := zround special in
    let cmssw := count (gen_z pv) (cmssw_z pv) l in let ref := count ref_z (gen_z pv) l in let both := count ref_z (cmssw_z pv) l in
    In (["Good"; "matches:"; "CMSSW"; "="; w1; "REF"; "="; w2; "REF"; "vs"; "CMSSW:"; "="; w3; "."; "ERRORS:"], [cmssw; n; ref; n; both; n; disagreements tests]) (read_console text) /\
    In (["Resolution:"; "CMSSW:"; w4; "mm"; "REF"; w5; "mm"], []) (read_console text) /\
    shows_quotient (label nan) w1 cmssw n /\ shows_quotient (label nan) w2 ref n /\ shows_quotient (label nan) w3 both n /\
    shows_half_root (label nan') w4 (squares (gen_z pv) (cmssw_z pv) l) cmssw /\ shows_half_root (label nan') w5 (squares ref_z (gen_z pv) l) ref.
Proof.
  intros HS HN HN' D L O HE HT. destruct (c81_console special HS (ratio3 nan) (resolution3 nan') (fun a b => ratio_label nan a b HN) (fun a b => resolution_label nan' a b HN') g arr tmp old evs D L O HE) as (tests & text & EM & E & R).
  rewrite HT in E. exists tests, text. pose proof (leading_all _ HT) as LA. unfold bhv_console_rows in R. rewrite (leading_all _ HT) in R. rewrite find_twelve in HT. destruct (find _ (firstn 250 evs)) as [e|]; [discriminate|].
  assert (LN : Z.of_nat (length (combine (firstn 250 evs) tests)) <= 250) by (rewrite combine_length; pose proof (firstn_le_length 250 evs); lia).
  set (l := combine (firstn 250 evs) tests) in *. cbv zeta in R. cbv zeta.
  pose proof (count_bound (gen_z (zround special)) (cmssw_z (zround special)) l) as C1. pose proof (count_bound ref_z (gen_z (zround special)) l) as C2. pose proof (count_bound ref_z (cmssw_z (zround special)) l) as C3.
  pose proof (squares_bound (zround special) (gen_z (zround special)) (cmssw_z (zround special)) l) as Q1. pose proof (squares_bound (zround special) ref_z (gen_z (zround special)) l) as Q2.
  eexists _, _, _, _, _. split; [exact E|]. rewrite R.
  assert (MT : disagreements (map snd l) = disagreements tests).
  { f_equal. destruct (c61_run g arr tmp evs D L HE) as (tests' & EM' & F). rewrite EM in EM'. injection EM' as _ <-. rewrite LA in F. unfold l. clear -F. induction F as [|y t l' tests H F IH]; [reflexivity|]. cbn [combine map snd]. rewrite IH. reflexivity. }
  rewrite <- MT. split; [apply in_or_app; right; apply in_or_app; left; left; reflexivity|]. split; [apply in_or_app; right; apply in_or_app; left; right; left; reflexivity|].
  unfold pass in *. split; [apply ratio_shows; [exact C1|lia]|]. split; [apply ratio_shows; [exact C2|lia]|]. split; [apply ratio_shows; [exact C3|lia]|]. split; apply resolution_shows; lia.
Qed.
