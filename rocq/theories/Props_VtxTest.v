(** The test program of the simple vertex finders. *)
From Coq Require Import QArith.
From Verif Require Import Base PuppiTable Bhv SpecBhv Vtx SpecVtx VtxTest SpecVtxTest VtxTestProofs.
Local Open Scope Z_scope.

(** ** C69 *)
(** 50 lines; on each the two vertices are the centre of the first slice with the most pt *)
Theorem C69_lines_agree : forall z0bin conv rnds hv rv, rand_ok rnds -> bins_ok z0bin -> centres_ok conv ->
  exists out, vt_main z0bin conv rnds hv rv = Ok (0, out) /\ length out = 50%nat /\ forall i line, nth_error out i = Some line ->
    exists t z o' b s, make_tracks rnds (calls_before rnds i) = Ok (t, z, o') /\ first_max (slice_sum slice t) NVTXBINS b s /\ (b <= 8)%nat /\
      line = (20 * Z.of_nat b + 10, 20 * Z.of_nat b + 10, r64 (z * 20)) /\ (0 <= r64 (z * 20))%Q /\ (r64 (z * 20) <= 160)%Q.
Proof. exact c69. Qed.
Print Assumptions C69_lines_agree.
(** the tracks of a test, wherever the generator stands *)
Theorem C69_tracks : forall rnds o, rand_ok rnds -> exists t z o' npu npv, make_tracks rnds o = Ok (t, z, o') /\ length t = 64%nat /\ (24 <= npu <= 48)%nat /\ (7 <= npv <= 14)%nat /\
  (forall i u, nth_error t i = Some u -> if (i <? npu + npv)%nat then 8 <= v_pt u <= 408 /\ -7 <= v_z0 u <= 167 else u = mkVtrack 0 0) /\
  Z.of_nat npu = rnds (o + 2)%nat mod 49 / 2 + 24 /\ Z.of_nat npv = rnds (o + 3)%nat mod 15 / 2 + 7 /\
  (4 * (unif (rnds o) + unif (rnds (o + 1)%nat)) - (1 # 1000) <= z)%Q /\ (z <= 4 * (unif (rnds o) + unif (rnds (o + 1)%nat)) + (1 # 1000))%Q /\
  (forall i u, nth_error t i = Some u -> (i < npu)%nat -> pileup_like rnds (o + 4 + 5 * i) u) /\ (forall i u, nth_error t i = Some u -> (npu <= i < npu + npv)%nat -> vertex_like rnds z (o + 4 + 5 * i) u).
Proof. exact c69_tracks. Qed.
Print Assumptions C69_tracks.

Definition some_rand (i : nat) : Z := (1103515245 * Z.of_nat i + 12345) * (Z.of_nat i + 7) mod 2147483648.
Example C69_hyp : rand_ok some_rand /\ bins_ok (fun z => Z.max 0 (z / 20)) /\ centres_ok (fun b => 20 * b + 10) /\
  match make_tracks some_rand 0 with Ok (t, _, o) => Some (firstn 2 t, length t, o) | _ => None end = Some ([mkVtrack 56 81; mkVtrack 87 61], 64%nat, 219%nat).
Proof.
  split; [intros i; unfold some_rand; pose proof (Z.mod_pos_bound ((1103515245 * Z.of_nat i + 12345) * (Z.of_nat i + 7)) 2147483648); lia|].
  split; [intros z Hz; cbv beta; destruct (Z.ltb_spec z 20); lia|]. split; [intros b _; reflexivity|]. vm_compute. reflexivity.
Qed.
