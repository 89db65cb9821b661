(** The console of the test program of the simple vertex finders. *)
From Coq Require Import QArith Qabs Ascii String.
From Verif Require Import Base PuppiTable SerText SpecHR Bhv SpecBhv Vtx SpecVtx VtxTest SpecVtxTest VtxConsole SpecVtxConsole VtxConsoleProofs.
Local Open Scope string_scope.
Local Open Scope list_scope.
Local Open Scope Z_scope.

(** ** C87 *)
(** a number printed with << reads back within five parts in a million, and exactly when it is an integer of six digits at most *)
Theorem C87_numbers : forall x, (x == 0)%Q \/ ((10 # 1) ^ (-390) <= Qabs x)%Q /\ (Qabs x < (10 # 1) ^ 390)%Q ->
  exists q, real (g6 x) = Some q /\ (Qabs (q - x) <= Qabs x * (5 # 1000000))%Q /\ (forall n, (x == inject_Z n)%Q -> Z.abs n < 1000000 -> (q == x)%Q).
Proof. exact g6_reads. Qed.
Print Assumptions C87_numbers.
(** nothing superfluous: a decimal point is followed by digits of which the last is not zero, then the end or the exponent *)
Theorem C87_no_superfluous_digit : forall x a b, (x == 0)%Q \/ ((10 # 1) ^ (-390) <= Qabs x)%Q /\ (Qabs x < (10 # 1) ^ 390)%Q ->
  g6 x = a ++ "."%char :: b ->
  exists f c v s, b = f ++ c :: s /\ Forall (fun c => exists v, decimal_digit c = Some v) f /\ decimal_digit c = Some v /\ 1 <= v <= 9 /\ (s = [] \/ exists s', s = "e"%char :: s').
Proof. exact c87_short. Qed.
Print Assumptions C87_no_superfluous_digit.
(** 50 lines; on each the same vertex twice, the centre of the first slice with the most pt, then the position drawn *)
Theorem C87_console : forall z0bin conv rnds hv rv, rand_ok rnds -> bins_ok z0bin -> centres_ok conv ->
  exists text, vt_main_say z0bin conv rnds hv rv = Ok (0, text) /\ length (read_reals text) = 50%nat /\ forall i r, nth_error (read_reals text) i = Some r ->
    let o := calls_before rnds i in
    exists t z o' b s x y w, make_tracks rnds o = Ok (t, z, o') /\ first_max (slice_sum slice t) NVTXBINS b s /\
      r = (["====>"; "hardware"; "dZ"; "--"; "emulated"; "dZ"; "--"; "True"; "dZ"], [x; y; w]) /\
      (x == inject_Z (20 * Z.of_nat b + 10))%Q /\ (y == inject_Z (20 * Z.of_nat b + 10))%Q /\ (20 * z - (1 # 1000) <= w)%Q /\ (w <= 20 * z + (1 # 1000))%Q /\
      (80 * (unif (rnds o) + unif (rnds (o + 1)%nat)) - (1 # 40) <= w)%Q /\ (w <= 80 * (unif (rnds o) + unif (rnds (o + 1)%nat)) + (1 # 40))%Q.
Proof. exact c87. Qed.
Print Assumptions C87_console.

Definition a_rand (i : nat) : Z := (1103515245 * Z.of_nat i + 12345) * (Z.of_nat i + 7) mod 2147483648.
Example C87_hyp : rand_ok a_rand /\ bins_ok (fun z => Z.max 0 (z / 20)) /\ centres_ok (fun b => 20 * b + 10) /\
  map (fun x => string_of_list_ascii (g6 x)) [1 # 10000; 1 # 100000; 1234567 # 10; 1234567 # 1; - (5 # 2); 1999999 # 2000000; 0]%Q = ["0.0001"; "1e-05"; "123457"; "1.23457e+06"; "-2.5"; "1"; "0"] /\
  string_of_list_ascii (vt_text (30, 30, r64 (gaus_z (a_rand 0) (a_rand 1) * 20))) = ("====>  hardware dZ:30 -- emulated dZ: 30 -- True dZ: 8.88007" ++ String newline "")%string.
Proof.
  split; [intros i; unfold a_rand; pose proof (Z.mod_pos_bound ((1103515245 * Z.of_nat i + 12345) * (Z.of_nat i + 7)) 2147483648); lia|].
  split; [intros z Hz; cbv beta; destruct (Z.ltb_spec z 20); lia|]. split; [intros b _; reflexivity|]. split; vm_compute; reflexivity.
Qed.
