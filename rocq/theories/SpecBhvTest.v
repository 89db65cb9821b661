(** Vocabulary for the test program of the histogramming vertex finder. *)
From Verif Require Import Base Data Discrete Convert DiscreteIO SpecIO Encoding SpecEnc SpecTest SpecRegion SpecRegTest SpecRegFiles Bhv SpecBhv BhvTest.

(** ** What it should record for an event *)
(** each sector of the dump becomes two rows of eighteen tracks: the even ones
    and the odd ones of its first 36 tracks (cleared tracks if there are fewer) *)
Definition dealt (r : Region) : list (list Tk) :=
  let l := filled fw_tk (mkTk 0 0 0 0 0 false) 36 (rg_track r) in
  [map (fun i => nth (2 * i) l (mkTk 0 0 0 0 0 false)) (seq 0 18); map (fun i => nth (2 * i + 1) l (mkTk 0 0 0 0 0 false)) (seq 0 18)].
Definition track_rows (e : event) : list (list Tk) := flat_map dealt (ev_regions e).
Definition vertex_tracks (rows : list (list Tk)) : list (list vtrack) := map (map (fun o => mkVtrack (t_pt o) (t_z0 o))) rows.
(** [t] is a faithful record of the test on event [e] *)
Definition btest_of (e : event) (t : btest) : Prop :=
  bt_tracks t = track_rows e /\
  hw_fill (nth 0 (vertex_tracks (bt_tracks t)) []) = Ok (bt_hist0 t) /\
  mapM (fun ts => do h <- hw_fill ts; pack_hist h) (vertex_tracks (bt_tracks t)) = Ok (bt_hists t) /\
  hw_vertex (vertex_tracks (bt_tracks t)) = Ok (bt_hw t) /\
  bhv_find_pv_ref (vertex_tracks (bt_tracks t)) = Ok (bt_ref t).
(** firmware and reference gave the same bin, sum and z *)
Definition agrees (t : btest) : bool :=
  let '(b, s, z) := bt_hw t in let '(b', s', z') := bt_ref t in (b =? b') && (s =? s') && (z =? z').
Definition disagreements (tests : list btest) : Z := Z.of_nat (length (filter (fun t => negb (agrees t)) tests)).
(** none of the tracks used has a negative pt *)
Definition no_negative_track (e : event) : Prop := Forall (fun r => Forall (fun x => 0 <= pt_pt x) (firstn 36 (rg_track r))) (ev_regions e).
(** the vertex is the first bin with the largest total over the sectors, and
    the histograms hold the saturated sums *)
Definition right_vertex (t : btest) : Prop :=
  let sectors := vertex_tracks (bt_tracks t) in
  (exists b s, bt_hw t = (Z.of_nat b, s, 8 * Z.of_nat b - 284) /\ bt_ref t = bt_hw t /\ first_max (grand_total sectors) (Z.to_nat 72) b s) /\
  (forall b, (b < 72)%nat -> nth_error (bt_hist0 t) b = Some (bin_total (Z.of_nat b) (nth 0 sectors []))) /\
  (forall is b, (is < 24)%nat -> (b < 72)%nat -> half_of b (nth is (bt_hists t) []) = bin_total (Z.of_nat b) (nth is sectors [])).

(** ** What the files should contain *)
(** the z0 slice of a track (0 outside the range) and half its pt *)
Definition inside (o : Tk) : bool := (-288 <=? t_z0 o) && (t_z0 o <=? 287).
Definition slice (o : Tk) : Z := if inside o then (t_z0 o + 288) / 8 else 0.
Definition half_pt (o : Tk) : Z := t_pt o / 2.
(** "Frame <k> : ..." lines numbered from 0 *)
Definition numbered (rows : list (list Z)) : list (option (Z * list Z)) := mapi (fun k vs => Some (Z.of_nat k, vs)) rows.
(** bhv_dump_in.txt: every track of the first row twice *)
Definition bhv_in_table (tests : list btest) : list (option (Z * list Z)) :=
  numbered (flat_map (fun t => flat_map (fun o => [[1; slice o; half_pt o]; [0; slice o; half_pt o]]) (nth 0 (bt_tracks t) [])) tests).
(** bhv_dump_out.txt: the histogram of the first row, two bins per line *)
Definition bhv_out_table (tests : list btest) : list (option (Z * list Z)) :=
  numbered (flat_map (fun t => map (fun k => [Z.of_nat (2 * k); nth (2 * k) (bt_hist0 t) 0; nth (2 * k + 1) (bt_hist0 t) 0]) (seq 0 36)) tests).
(** a pattern file with one line per clock, numbered from 0 *)
Definition plain_file (words : list (list Z)) : list (Z * list Z) := mapi (fun k w => (Z.of_nat k, w)) words.
(** mp7_input.txt: at clock [ic], track [ic] of every row *)
Definition bhv_in_stream (tests : list btest) : list (list Z) :=
  flat_map (fun t => map (fun ic => padded 144 (flat_map tk_words (column (mkTk 0 0 0 0 0 false) ic (bt_tracks t)))) (seq 0 18)) tests.
(** mp7_input_debug.txt: the slice, flagged if in range, and half the pt *)
Definition debug_words (o : Tk) : list Z := [slice o + (if inside o then 2 ^ 28 else 0); half_pt o mod 2 ^ 32].
Definition bhv_in_debug_stream (tests : list btest) : list (list Z) :=
  flat_map (fun t => map (fun ic => padded 144 (flat_map debug_words (column (mkTk 0 0 0 0 0 false) (ic / 2) (bt_tracks t)))) (seq 0 36)) tests.
(** mp7_output.txt: a 1, the sum and the bin at the first clock *)
Definition bhv_out_stream (tests : list btest) : list (list Z) :=
  flat_map (fun t => map (fun ic => if (ic =? 0)%nat then [1; snd (fst (bt_hw t)); fst (fst (bt_hw t))] else [0; 0; 0]) (seq 0 36)) tests.
(** mp7_output_debug.txt: from link 3 on, a header and two bins of every row *)
Definition bhv_out_debug_stream (tests : list btest) : list (list Z) :=
  List.concat (mapi (fun k t => map (fun ic => padded 144 ([0; 0; 0] ++
    flat_map (fun h => [(if (ic =? 0)%nat then 65536 else 0) + 2 * Z.of_nat ic + (if Nat.even k then 2 ^ 24 else 0);
                        65536 * half_of (2 * ic + 1) h + half_of (2 * ic) h]) (bt_hists t))) (seq 0 36)) tests).
(** the four pattern files *)
Definition bhv_files (tests : list btest) : list (Z * list Z) * list (Z * list Z) * list (Z * list Z) * list (Z * list Z) :=
  (mux_file (bhv_in_stream tests), plain_file (bhv_in_debug_stream tests), plain_file (bhv_out_stream tests), plain_file (bhv_out_debug_stream tests)).
