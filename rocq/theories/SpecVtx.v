(** Specification of the simple vertex finders, stated on the tracks. *)
From Verif Require Import Base Bhv SpecBhv Vtx.

(** the two windows of z0 whose bin is outside the histogram *)
Definition bad_z0 (z : Z) : Prop := 300 <= z <= 319 \/ -359 <= z <= -340.

(** the 20-count slice a track falls in; negative z0 goes to slice 0.  Beyond
    the slices the 5-bit bin number wraps. *)
Definition slice (z : Z) : Z :=
  if z <? -359 then 32 - (- z / 20) else if z <? 20 then 0 else if z <? 320 then z / 20 else 0.

(** tracks in slice [b], sum of their pt clipped at 200 *)
Definition in_slice (f : Z -> Z) (b : nat) (ts : list vtrack) : list vtrack := filter (fun t => f (v_z0 t) =? Z.of_nat b) ts.
Definition slice_sum (f : Z -> Z) (ts : list vtrack) (b : nat) : Z := sumZ (map (fun t => Z.min 200 (v_pt t)) (in_slice f b ts)).
Definition slice_count (f : Z -> Z) (ts : list vtrack) (b : nat) : Z := Z.of_nat (length (in_slice f b ts)).
(** only the tracks with positive pt *)
Definition slice_count_pos (f : Z -> Z) (ts : list vtrack) (b : nat) : Z :=
  Z.of_nat (length (filter (fun t => 0 <? v_pt t) (in_slice f b ts))).

(** tracks the reference handles: in-range z0 outside the bad windows, pt >= 0 *)
Definition vt_ok (t : vtrack) : Prop := inS 10 (v_z0 t) /\ 0 <= v_pt t < 32768 /\ ~ bad_z0 (v_z0 t).
(** the binning function sends this track to one of the 15 bins *)
Definition zok (z0bin : Z -> Z) (t : vtrack) : Prop := 0 <= z0bin (v_z0 t) < Z.of_nat NVTXBINS.
