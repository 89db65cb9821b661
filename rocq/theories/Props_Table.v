(** The table of puppi weights, and PUPPI with it. *)
From Coq Require Import QArith Qround Qabs Lqa Qminmax Permutation.
From Verif Require Import Base Data SpecPF Puppi SpecPuppi PuppiTable SpecTable FloatFacts TableProofs TableAccuracy.
Local Open Scope Z_scope.

(** ** C67 *)
(** 1174 weights of 8 bits that never decrease, nothing below index 22, nowhere more than 253/256 *)
Theorem C67_table : forall m, libm_ok m ->
  table_ok (puppi_table m) /\ table_monotone (puppi_table m) /\ (forall k, (k < 22)%nat -> nth k (puppi_table m) 0 = 0) /\ Forall (fun w => 0 <= w <= 253) (puppi_table m).
Proof. exact table_facts. Qed.
Print Assumptions C67_table.
(** so a neutral whose sum is below 22 * 1024 is dropped *)
Theorem C67_weak_activity_drops : forall m pfch pfne z r i n, libm_ok m -> Forall (fun n => inS 16 (n_pt n)) pfne -> simple_puppi_hw (puppi_table m) pfch pfne z = Ok r -> nth_error pfne i = Some n ->
  alpha_sum z pfch n < 22 * 1024 -> nth_error r i = Some (set_puppi n 0).
Proof. exact dropped. Qed.
Print Assumptions C67_weak_activity_drops.
(** one below 1174 * 1024 loses part of its pt *)
Theorem C67_some_pt_is_lost : forall m pfch pfne z r i n, libm_ok m -> Forall (fun n => inS 16 (n_pt n)) pfne -> simple_puppi_hw (puppi_table m) pfch pfne z = Ok r -> nth_error pfne i = Some n -> 0 <= n_pt n ->
  alpha_sum z pfch n < 1174 * 1024 -> exists p, nth_error r i = Some (set_puppi n p) /\ 0 <= p <= n_pt n * 253 / 256.
Proof. exact partly. Qed.
Print Assumptions C67_some_pt_is_lost.
(** and more charged objects never mean less *)
Theorem C67_monotone : forall m pfch extra pfch' pfne z, libm_ok m -> Forall (fun n => inS 16 (n_pt n) /\ 0 <= n_pt n) pfne -> Permutation pfch' (pfch ++ extra) ->
  (forall n, In n pfne -> alpha_sum z pfch' n < 2147483648) ->
  exists r r', simple_puppi_hw (puppi_table m) pfch pfne z = Ok r /\ simple_puppi_hw (puppi_table m) pfch' pfne z = Ok r' /\ Forall2 (fun a b => n_puppi a <= n_puppi b) r r'.
Proof. exact more_is_more. Qed.
Print Assumptions C67_monotone.
(** functions with the properties asked (a broken line for log, a chord for sqrt), and some of the table they give *)
Definition some_libm : libm := mkLibm (fun x => Qmin (x * (1 # 2200)) 14)%Q (fun x => (x + 1) * (1 # 2))%Q (fun x => x * x * (x * x))%Q.
Example C67_hyp : libm_ok some_libm /\ map (puppi_entry some_libm) [0; 21; 22; 25; 28; 1173] = [0; 0; 134; 167; 223; 247].
Proof.
  split; [|vm_compute; reflexivity]. unfold libm_ok, some_libm. cbn [lm_log lm_sqrt lm_pow4]. split; [|split]; (split; [intros x y X L|repeat split; vm_compute; discriminate]).
  - apply Q.min_le_compat_r. apply Qmult_le_compat_r; [exact L|discriminate].
  - apply Qmult_le_compat_r; [|discriminate]. apply Qplus_le_compat; [exact L|apply Qle_refl].
  - assert (0 <= x)%Q by (apply (Qle_trans _ 1); [discriminate|exact X]). assert (0 <= y)%Q by (apply (Qle_trans _ x); assumption). assert (x * x <= y * y)%Q by (apply mul_mono; assumption). apply mul_mono; try assumption; apply mul_pos; assumption.
Qed.

(** each entry from the 22nd on is 256 times the error function of the
    deviation of log (1024 k + 1), rounded down, to a thousandth *)
Theorem C67_accuracy : forall m, libm_ok m -> libm_accurate m -> forall k, 22 <= k < 1174 ->
  exists x, (x == inject_Z (1024 * k + 1))%Q /\ weight_at (lm_log m x) (nth (Z.to_nat k) (puppi_table m) 0).
Proof. exact table_accurate. Qed.
Print Assumptions C67_accuracy.
(** square roots to seven decimals *)
Definition good_libm : libm := mkLibm (lm_log some_libm) (fun x => Z.sqrt (Qfloor (x * (100000000000000 # 1))) # 10000000)%Q (lm_pow4 some_libm).
Lemma good_sqrt x : (0 <= x)%Q -> let s := lm_sqrt good_libm x in (0 <= s)%Q /\ (s * s <= x)%Q /\ (x < (s + (1 # 10000000)) * (s + (1 # 10000000)))%Q.
Proof.
  intros X. cbn [good_libm lm_sqrt]. set (y := (x * (100000000000000 # 1))%Q). assert (Y : (0 <= y)%Q) by (unfold y; lra). destruct (floor_bounds y) as (F1 & F2). pose proof (Qfloor_resp_le 0 y Y) as F0. change (Qfloor 0) with 0 in F0.
  set (n := Qfloor y) in *. pose proof (Z.sqrt_spec n F0) as (S1 & S2). pose proof (Z.sqrt_nonneg n) as S0. set (r := Z.sqrt n) in *. assert (S3 : n + 1 <= Z.succ r * Z.succ r) by lia. apply injZ_le in S0, S1, S3. unfold Z.succ in S3. rewrite inject_Z_mult in S1, S3. rewrite !inject_Z_plus in S3. change (inject_Z 1) with 1%Q in *. change (inject_Z 0) with 0%Q in *.
  assert (E : (r # 10000000 == inject_Z r * (1 # 10000000))%Q) by (unfold Qeq; cbn; lia). rewrite E. set (q := inject_Z r) in *. set (z := inject_Z n) in *. unfold y in *. clearbody q z.
  setoid_replace (q * (1 # 10000000) * (q * (1 # 10000000)))%Q with (q * q * (1 # 100000000000000))%Q by ring. setoid_replace ((q * (1 # 10000000) + (1 # 10000000)) * (q * (1 # 10000000) + (1 # 10000000)))%Q with ((q + 1) * (q + 1) * (1 # 100000000000000))%Q by ring.
  set (u := (q * q)%Q) in *. set (w := ((q + 1) * (q + 1))%Q) in *. split; [|split]; lra.
Qed.
Example C67_accuracy_hyp : libm_ok good_libm /\ libm_accurate good_libm /\ map (puppi_entry good_libm) [22; 25; 28; 1173] = [24; 150; 222; 244].
Proof.
  destruct C67_hyp as ((A & _ & C) & _). split; [|split; [|vm_compute; reflexivity]].
  - split; [exact A|]. split; [|exact C]. split; [|split; vm_compute; discriminate]. intros x y X L. cbn [good_libm lm_sqrt]. unfold Qle. cbn [Qnum Qden]. apply Z.mul_le_mono_nonneg_r; [discriminate|]. apply Z.sqrt_le_mono, Qfloor_resp_le. lra.
  - split.
    + intros x X X2. destruct (good_sqrt x X) as (S0 & S1 & S2). split; [exact S0|]. split; [lra|]. assert (lm_sqrt good_libm x <= 2)%Q by (set (s := lm_sqrt good_libm x) in *; nra). set (s := lm_sqrt good_libm x) in *. nra.
    + intros x X X3. cbn [good_libm lm_pow4 some_libm]. assert (0 <= x * x * (x * x))%Q by nra. split; lra.
Qed.
