(** Specification of the histogramming vertex finder, stated on the tracks. *)
From Verif Require Import Base Bhv.

(** what one track adds: half its pt, at most 100 *)
Definition contrib (t : vtrack) : Z := Z.min 100 (v_pt t / 2).

(** z0 slice of bin [b]: 8 counts wide, the first starting at -288 *)
Definition in_bin (b : Z) (t : vtrack) : bool :=
  (-288 + 8 * b <=? v_z0 t) && (v_z0 t <? -288 + 8 * b + 8).

(** saturated content of bin [b] for one sector, and total over sectors *)
Definition bin_total (b : Z) (ts : list vtrack) : Z :=
  Z.min 511 (sumZ (map contrib (filter (in_bin b) ts))).
Definition grand_total (sectors : list (list vtrack)) (b : nat) : Z :=
  sumZ (map (bin_total (Z.of_nat b)) sectors).

(** [b] is the first index below [n] where [f] is maximal, [s] the maximum *)
Record first_max (f : nat -> Z) (n : nat) (b : nat) (s : Z) : Prop := {
  fm_lt : (b < n)%nat;
  fm_val : f b = s;
  fm_max : forall j, (j < n)%nat -> f j <= s;
  fm_first : forall j, (j < b)%nat -> f j < s }.

(** value of bin [b] in an array of packed pairs (even bin in the high half) *)
Definition half_of (b : nat) (h : list Z) : Z :=
  let w := nth (b / 2) h 0 in if Nat.even b then w / 512 else w mod 512.
Definition packed_total (hists : list (list Z)) (b : nat) : Z :=
  sumZ (map (half_of b) hists).

(** calls of bhv_add_track: what those for bin [b] add up to *)
Definition hcontrib (pt : Z) : Z := Z.min 100 (pt / 2).
Definition sel (b : Z) (x : zbin_vt * Z) : bool := zb_valid (fst x) && (zb_bin (fst x) =? b).
Definition callsum (b : Z) (calls : list (zbin_vt * Z)) : Z :=
  sumZ (map (fun x => hcontrib (snd x)) (filter (sel b) calls)).

(** every sector has [nhalf] words of 18 bits *)
Definition words_ok (nhalf : nat) (hists : list (list Z)) : Prop :=
  Forall (fun h => length h = nhalf /\ Forall (inU 18) h) hists.

(** a track with non-negative pt_t and a z0_t *)
Definition track_ok (t : vtrack) : Prop := 0 <= v_pt t < 32768 /\ inS 10 (v_z0 t).
