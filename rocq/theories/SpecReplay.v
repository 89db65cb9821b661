(** Replaying the pattern files of the particle-flow test program. *)
From Verif Require Import Base Data PFHw Encoding SpecOut Discrete Convert DiscreteIO RegionLoop PFTest SpecTest.

(** the words of test i in a multiplexed file, each test taking [ii] lines: word j is in
    column j / ii of line j mod ii *)
Definition test_words (ii : nat) (file : list (Z * list Z)) (i : nat) : list Z :=
  map (fun j => nth (j / ii) (snd (nth (ii * i + j mod ii) file (0, []))) 0) (seq 0 MP7_NCHANN).
(** the words of line i *)
Definition line_words (file : list (Z * list Z)) (i : nat) : list Z := snd (nth i file (0, [])).

(** [input] decodes to the region of test [t]; the wrapped firmware, whatever was in its memory,
    turns [input] into [output]; [output] decodes to the particles the test program compared *)
Definition replays (b : board) (c : config) (input output : list Z) (t : pfrun) : Prop :=
  mp7wrapped_unpack_in MP7_NCHANN (NEMCALO c) (NCALO c) (NTRACK c) (NMU c) input =
    Ok (fw_emcalo (pr_region t), fw_calo (pr_region t), fw_track (pr_region t), fw_muon (pr_region t)) /\
  (forall mem, mp7wrapped_pfalgo3_full MP7_NCHANN (NEMCALO c) (NCALO c) (NTRACK c) (NMU c) (NSELCALO c) mem input (repeat 0 (out_size b)) = Ok output) /\
  (forall pho ne, length pho = NEMCALO c -> length ne = NSELCALO c ->
   exists pho' ne', mp7wrapped_unpack_out MP7_NCHANN (NTRACK c) (NMU c) output pho ne = Ok (o_ch (pr_hw t), pho', ne', o_mu (pr_hw t)) /\
     Forall2 same_ne (o_pho (pr_hw t)) pho' /\ Forall2 same_ne (o_ne (pr_hw t)) ne').
