(** Replaying the pattern files of the test programs of the vertex finder and
    of the regionizers. *)
From Verif Require Import Base Data PFHw Encoding Bhv SpecBhv BhvTest SpecBhvTest Regionizer SpecRegion SpecRegMove RegTest SpecReplay.

(** the objects that each of [n] links carries, one per clock, when [clocks]
    lists the objects of all links clock by clock *)
Definition link_by_link {T} (clr : T) (n : nat) (clocks : list (list T)) : list (list T) :=
  map (fun l => map (fun objs => nth l objs clr) clocks) (seq 0 n).

(** ** Vertex finder *)
(** two 16-bit halves of a word *)
Definition low16 (w : Z) : Z := w mod 65536.
Definition high16 (w : Z) : Z := w / 65536.
(** test [i]: the words of its 18 clocks in [fin] decode to tracks; filling and
    scanning the histograms of these tracks gives the sum and the bin in
    [fout] and the contents of all bins in [fout_debug]; [fin_debug] shows, for
    each track, the bin in which the firmware counts it (flagged if in range)
    and half its pt *)
Definition vertex_replays (fin fin_debug fout fout_debug : list (Z * list Z)) (i : nat) : Prop :=
  exists clocks hists bin sum,
    mapM (fun ic => mp7_unpack_tk 24 0 (test_words 2 fin (18 * i + ic))) (seq 0 18) = Ok clocks /\
    mapM (fun ts => do h <- hw_fill ts; pack_hist h) (vertex_tracks (link_by_link (mkTk 0 0 0 0 0 false) 24 clocks)) = Ok hists /\
    bhv_find_pv 36 hists = Ok (bin, sum) /\
    line_words fout (36 * i) = [1; sum; bin] /\
    (forall ic, (1 <= ic < 36)%nat -> line_words fout (36 * i + ic) = [0; 0; 0]) /\
    (forall is k, (is < 24)%nat -> (k < 36)%nat -> let w := nth (2 * is + 4) (line_words fout_debug (36 * i + k)) 0 in
       half_of (2 * k) (nth is hists []) = low16 w /\ half_of (2 * k + 1) (nth is hists []) = high16 w) /\
    (forall is ic, (is < 24)%nat -> (ic < 36)%nat -> let o := nth is (nth (ic / 2) clocks []) (mkTk 0 0 0 0 0 false) in
       let w := nth (2 * is) (line_words fin_debug (36 * i + ic)) 0 in
       fetch_bin_ref (t_z0 o) = mkZbin (w mod 2 ^ 28) (2 ^ 28 <=? w) /\
       wrapS 32 (nth (2 * is + 1) (line_words fin_debug (36 * i + ic)) 0) = t_pt o / 2).

(** ** Regionizers *)
(** test [i]: the words of its 18 clocks in [fin] decode to the objects on the
    fibres (12 for hadronic, 12 for em clusters, 24 for tracks, 4 for muons),
    those in [fout] to the objects of the 18 regions, and the regionizers turn
    the former into the latter whatever their memory holds *)
Definition regions_replay (c : config) (fin fout : list (Z * list Z)) (i : nat) : Prop :=
  let inp ic := test_words 2 fin (18 * i + ic) in let out ir := test_words 2 fout (18 * i + ir) in
  exists had em tk mu had' em' tk' mu',
    mapM (fun ic => mp7_unpack_had 12 0 (inp ic)) (seq 0 15) = Ok had /\
    mapM (fun ic => mp7_unpack_em 12 24 (inp ic)) (seq 0 12) = Ok em /\
    mapM (fun ic => mp7_unpack_tk 24 48 (inp ic)) (seq 0 10) = Ok tk /\
    mapM (fun ic => mp7_unpack_mu 4 96 (inp ic)) (seq 0 (NMU c)) = Ok mu /\
    mapM (fun ir => mp7_unpack_had (NCALO c) 0 (out ir)) (seq 0 18) = Ok had' /\
    mapM (fun ir => mp7_unpack_em (NEMCALO c) (2 * NCALO c) (out ir)) (seq 0 18) = Ok em' /\
    mapM (fun ir => mp7_unpack_tk (NTRACK c) (2 * NCALO c + 2 * NEMCALO c) (out ir)) (seq 0 18) = Ok tk' /\
    mapM (fun ir => mp7_unpack_mu (NMU c) (2 * NCALO c + 2 * NEMCALO c + 2 * NTRACK c) (out ir)) (seq 0 18) = Ok mu' /\
    gives (0, false) 15 7 (NCALO c) 1 (map (map r_of_had) (link_by_link (mkHad 0 0 0 0 false) 12 had)) (map (map r_of_had) had') /\
    gives 0 12 7 (NEMCALO c) 1 (map (map r_of_em) (link_by_link (mkEm 0 0 0 0) 12 em)) (map (map r_of_em) em') /\
    gives (0, 0, false) 20 9 (NTRACK c) 2 (map (map r_of_tk) (link_by_link (mkTk 0 0 0 0 0 false) 24 tk)) (map (map r_of_tk) tk') /\
    gives_muons 0 (NMU c) (map (map r_of_mu) (link_by_link (mkMu 0 0 0 0) 4 mu)) (map (map r_of_mu) mu').
