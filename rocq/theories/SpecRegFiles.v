(** Specification of the text files of the regionizer test program: a reader
    of "Frame <n> : <integers>" lines and the tables it should find. *)
From Coq Require Import Ascii String.
From Verif Require Import Base Data PFHw Encoding SpecEnc SerText SpecHR SpecRegion Regionizer RegTest RegFiles SpecTest.
Local Open Scope string_scope.
Local Open Scope list_scope.
Local Open Scope Z_scope.

(** ** The reader *)
Fixpoint all_integers (ws : list (list ascii)) : option (list Z) :=
  match ws with
  | [] => Some []
  | w :: r => match integer w, all_integers r with Some v, Some vs => Some (v :: vs) | _, _ => None end
  end.
(** the words "Frame", a number, ":", and then only integers *)
Definition read_frame (l : list ascii) : option (Z * list Z) :=
  match split_words [] l with
  | f :: n :: colon :: ws =>
    if (string_of_list_ascii f =? "Frame")%string && (string_of_list_ascii colon =? ":")%string
    then match integer n, all_integers ws with Some n, Some vs => Some (n, vs) | _, _ => None end else None
  | _ => None
  end.
Definition read_frames (text : list ascii) : list (option (Z * list Z)) := map read_frame (split_lines [] text).

(** ** What the files should contain *)
Definition had_vals (o : HadCalo) : list Z := [h_pt o; h_eta o; h_phi o; h_empt o; if h_isem o then 1 else 0].
Definition em_vals (o : EmCalo) : list Z := [e_pt o; e_eta o; e_phi o; e_pterr o].
Definition tk_vals (o : Tk) : list Z := [t_pt o; t_eta o; t_phi o; t_pterr o; t_z0 o].
Definition mu_vals (o : Mu) : list Z := [m_pt o; m_eta o; m_phi o; m_pterr o].
(** 36 frames per test, numbered from 1 over the whole file *)
Definition frames {T} (vals : nat -> T -> nat -> list Z) (tests : list T) : list (option (Z * list Z)) :=
  List.concat (mapi (fun k t => map (fun ic => Some (Z.of_nat (36 * k + ic + 1), vals (S k) t ic)) (seq 0 36)) tests).
(** the objects of region [ir], then a 1 *)
Definition region_vals (t : rtest) (ir : nat) : list Z :=
  flat_map had_vals (nth ir (rt_calo t) []) ++ flat_map em_vals (nth ir (rt_em t) []) ++ flat_map tk_vals (nth ir (rt_tk t) []) ++ flat_map mu_vals (nth ir (rt_mu t) []) ++ [1].
(** dump_out.txt: every region on two successive frames *)
Definition out_table (tests : list rtest) : list (option (Z * list Z)) := frames (fun _ t ic => region_vals t (ic / 2)) tests.
(** dump_in.txt: on the even frames, object ic/2 of every sector; on the odd
    ones, cleared objects.  Of the tracks, those numbered ic and ic+1, if
    below ten. *)
Definition slot {T} (clr : T) (ic n i : nat) (row : list T) : T := if (ic mod 2 =? 0)%nat && (i <? n)%nat then nth i row clr else clr.
Definition in_vals (c : config) (test : nat) (t : rtest) (ic : nat) : list Z :=
  let i := rt_ins t in
  [Z.of_nat test; Z.of_nat (ic / 2)] ++
  flat_map (fun row => had_vals (slot (mkHad 0 0 0 0 false) ic 15 (ic / 2) row)) (ri_calo i) ++
  flat_map (fun row => em_vals (slot (mkEm 0 0 0 0) ic 12 (ic / 2) row)) (ri_em i) ++
  flat_map (fun row => tk_vals (slot (mkTk 0 0 0 0 0 false) ic 10 ic row) ++ tk_vals (slot (mkTk 0 0 0 0 0 false) ic 10 (ic + 1) row)) (ri_tk i) ++
  flat_map (fun row => mu_vals (slot (mkMu 0 0 0 0) ic (NMU c) (ic / 2) row)) (ri_mu i).
Definition in_table (c : config) (tests : list rtest) : list (option (Z * list Z)) := frames (in_vals c) tests.

(** the arrays of a test have the declared sizes; their fields are in range *)
Definition test_sized (c : config) (t : rtest) : Prop :=
  let i := rt_ins t in
  dims2 12 15 (ri_calo i) /\ dims2 12 12 (ri_em i) /\ dims2 12 20 (ri_tk i) /\ dims2 12 (NMU c) (ri_mu12 i) /\ dims2 4 (NMU c) (ri_mu i) /\
  dims2 18 (NCALO c) (rt_calo t) /\ dims2 18 (NEMCALO c) (rt_em t) /\ dims2 18 (NTRACK c) (rt_tk t) /\ dims2 18 (NMU c) (rt_mu t).
Definition test_ok (t : rtest) : Prop :=
  let i := rt_ins t in
  Forall (Forall had_ok) (ri_calo i) /\ Forall (Forall em_ok) (ri_em i) /\ Forall (Forall tk_ok) (ri_tk i) /\ Forall (Forall mu_ok) (ri_mu i) /\
  Forall (Forall had_ok) (rt_calo t) /\ Forall (Forall em_ok) (rt_em t) /\ Forall (Forall tk_ok) (rt_tk t) /\ Forall (Forall mu_ok) (rt_mu t).
(** a track without its quality, which no file shows *)
Definition no_tight (t : Tk) : Tk := mkTk (t_pt t) (t_pterr t) (t_eta t) (t_phi t) (t_z0 t) false.
Definition regions_shown (t : rtest) : list (list HadCalo) * list (list EmCalo) * list (list Tk) * list (list Mu) :=
  (rt_calo t, rt_em t, map (map no_tight) (rt_tk t), rt_mu t).
(** the inputs with only the first ten tracks of each sector *)
Definition inputs_shown (t : rtest) : list (list HadCalo) * list (list EmCalo) * list (list Tk) * list (list Mu) :=
  (ri_calo (rt_ins t), ri_em (rt_ins t), map (fun row => map no_tight (firstn 10 row)) (ri_tk (rt_ins t)), ri_mu (rt_ins t)).

(** ** The words of the pattern files *)
(** object [j] of every sector *)
Definition column {T} (clr : T) (j : nat) (rows : list (list T)) : list T := map (fun row => nth j row clr) rows.
(** the words of [objs] at the clocks below [n], as many zeros after *)
Definition block {T} (words : T -> list Z) (n ic : nat) (objs : list T) : list Z := if (ic <? n)%nat then flat_map words objs else repeat 0 (2 * length objs).
(** the words of the 144 channels at clock [ic] in mp7_input.txt and its
    calo-only, track-only and muon-only versions: an object takes two links,
    sectors follow one another, a sector sends two tracks per clock *)
Definition in_event (c : config) (t : rtest) (ic : nat) : list Z * list Z * list Z * list Z :=
  let i := rt_ins t in
  let calo := block had_words 15 ic (column (mkHad 0 0 0 0 false) ic (ri_calo i)) in
  let em := block em_words 12 ic (column (mkEm 0 0 0 0) ic (ri_em i)) in
  let tk := block tk_words 10 ic (flat_map (fun row => [nth (2 * ic) row (mkTk 0 0 0 0 0 false); nth (2 * ic + 1) row (mkTk 0 0 0 0 0 false)]) (ri_tk i)) in
  let mu := block mu_words (NMU c) ic (column (mkMu 0 0 0 0) ic (ri_mu i)) in
  (padded 144 (calo ++ em ++ tk ++ mu), padded 144 calo, padded 144 tk, padded 144 mu).
(** and in mp7_output.txt and its versions: region [ir] at clock [ir] *)
Definition out_event (t : rtest) (ir : nat) : list Z * list Z * list Z * list Z :=
  let calo := flat_map had_words (nth ir (rt_calo t) []) in let em := flat_map em_words (nth ir (rt_em t) []) in
  let tk := flat_map tk_words (nth ir (rt_tk t) []) in let mu := flat_map mu_words (nth ir (rt_mu t) []) in
  (padded 144 (calo ++ em ++ tk ++ mu), padded 144 calo, padded 144 tk, padded 144 mu).
(** the transposed arrays have the declared sizes *)
Definition trans_ok (c : config) (t : rtrans) : Prop := dims2 15 12 (tr_calo t) /\ dims2 12 12 (tr_em t) /\ dims2 10 24 (tr_tk t) /\ dims2 (NMU c) 4 (tr_mu t).
(** the regions of the configuration fit on the board *)
Definition out_fits (c : config) : Prop := (2 * (NCALO c + NEMCALO c + NTRACK c + NMU c) <= 144)%nat.
(** eighteen clocks per test *)
Definition in_stream (c : config) (tests : list rtest) : list (list Z * list Z * list Z * list Z) := flat_map (fun t => map (in_event c t) (seq 0 18)) tests.
Definition out_stream (tests : list rtest) : list (list Z * list Z * list Z * list Z) := flat_map (fun t => map (out_event t) (seq 0 18)) tests.
(** a file of 72 links at twice the rate: words 0, 2, 4, ... of a clock on one
    line, words 1, 3, 5, ... on the next *)
Definition mux_file (words : list (list Z)) : list (Z * list Z) :=
  map (fun f => (Z.of_nat f, map (fun l => nth (2 * l + f mod 2) (nth (f / 2) words []) 0) (seq 0 72))) (seq 0 (2 * length words)).
(** a file of 144 links, with every line written twice *)
Definition nomux_file (words : list (list Z)) : list (Z * list Z) := map (fun f => (Z.of_nat f, nth (f / 2) words [])) (seq 0 (2 * length words)).
Definition mux_files (ws : list (list Z * list Z * list Z * list Z)) : list (list (Z * list Z)) :=
  [mux_file (map (fun w => fst (fst (fst w))) ws); mux_file (map (fun w => snd (fst (fst w))) ws); mux_file (map (fun w => snd (fst w)) ws); mux_file (map (fun w => snd w) ws)].
Definition nomux_files (ws : list (list Z * list Z * list Z * list Z)) : list (list (Z * list Z)) :=
  [nomux_file (map (fun w => snd (fst (fst w))) ws); nomux_file (map (fun w => snd (fst w)) ws)].
(** all the objects of a test *)
Definition region_objects (t : rtest) : list (list HadCalo) * list (list EmCalo) * list (list Tk) * list (list Mu) := (rt_calo t, rt_em t, rt_tk t, rt_mu t).
Definition input_objects (t : rtest) : list (list HadCalo) * list (list EmCalo) * list (list Tk) * list (list Mu) := (ri_calo (rt_ins t), ri_em (rt_ins t), ri_tk (rt_ins t), ri_mu (rt_ins t)).
