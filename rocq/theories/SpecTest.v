(** Vocabulary for the test programs. *)
From Verif Require Import Base Data PFHw PFRef Encoding SpecEnc Discrete Convert DiscreteIO SpecIO SpecOut RegionLoop PFTest.

(** the regions a test program sees: those of the dump, in order, at most [n] *)
Definition tested (c : config) (special : Z -> Z) (n : nat) (evs : list event) : list fwregion :=
  firstn n (map (fun p => fw_arrays c special (fst p) (snd p)) (all_regions event_regions evs)).
(** firmware and reference on a region *)
Definition hw_on (c : config) (m : pfmem) (r : fwregion) : res pfout := pfalgo3_full m (NSELCALO c) (fw_emcalo r) (fw_calo r) (fw_track r) (fw_muon r).
Definition ref_on (c : config) (m : pfmem) (r : fwregion) : res pfout := pfalgo3_full_ref m (NSELCALO c) (fw_emcalo r) (fw_calo r) (fw_track r) (fw_muon r).
(** builds whose arrays fit the words of their board (all three of data.h: C57_builds) *)
Definition build_ok (b : board) (c : config) : Prop :=
  Z.of_nat (NTRACK c + NEMCALO c + NSELCALO c + NMU c) < 2 ^ 31 /\
  match b with
  | Plain => True
  | _ => (2 * (NEMCALO c + NCALO c + NTRACK c + NMU c) <= Nat.min MP7_NCHANN (in_size b))%nat /\
         (2 * (NTRACK c + NEMCALO c + NSELCALO c + NMU c) <= Nat.min MP7_NCHANN (out_size b))%nat
  end.
(** uninitialised memory holds values of its types *)
Definition mem_typed (m : pfmem) : Prop := forall i, ne_ok (junk_tmp m i).

(** equal up to hwPtPuppi, which no pf algorithm writes and no word carries *)
Definition same_out (o q : pfout) : Prop :=
  o_ch o = o_ch q /\ Forall2 same_ne (o_pho o) (o_pho q) /\ Forall2 same_ne (o_ne o) (o_ne q) /\ o_mu o = o_mu q.
(** the words of a region and of its outputs, followed by zeros *)
Definition padded (n : nat) (l : list Z) : list Z := l ++ repeat 0 (n - length l).
Definition region_words (r : fwregion) : list Z :=
  flat_map em_words (fw_emcalo r) ++ flat_map had_words (fw_calo r) ++ flat_map tk_words (fw_track r) ++ flat_map mu_words (fw_muon r).
Definition output_words (o : pfout) : list Z :=
  flat_map ch_words (o_ch o) ++ flat_map ne_words (o_pho o) ++ flat_map ne_words (o_ne o) ++ flat_map ch_words (o_mu o).

(** [run] is a faithful record of the test on region [r] *)
Definition run_ok (b : board) (c : config) (mh mr : pfmem) (r : fwregion) (run : pfrun) : Prop :=
  pr_region run = r /\ ref_on c mr r = Ok (pr_ref run) /\
  exists o, hw_on c mh r = Ok o /\ same_out o (pr_hw run) /\
    match b with
    | Plain => pr_in run = [] /\ pr_out run = []
    | _ => pr_in run = padded (in_size b) (region_words r) /\ pr_out run = padded (out_size b) (output_words o)
    end.
(** builds that compare at all *)
Definition compares (b : board) (validate : bool) : bool := match b with Plain => true | _ => validate end.
(** the tests a program makes of a list of regions, and its exit code: it stops at the first disagreement *)
Definition outcome (b : board) (validate : bool) (c : config) (mh mr : nat -> pfmem) (first : nat) (regions : list fwregion) (runs : list pfrun) (code : Z) : Prop :=
  (forall i run, nth_error runs i = Some run -> exists r, nth_error regions i = Some r /\ run_ok b c (mh (first + i)%nat) (mr (first + i)%nat) r run) /\
  ((code = 0 /\ length runs = length regions /\ (compares b validate = true -> Forall (fun t => agree (pr_ref t) (pr_hw t)) runs)) \/
   (code = 1 /\ compares b validate = true /\ exists before bad, runs = before ++ [bad] /\ Forall (fun t => agree (pr_ref t) (pr_hw t)) before /\ ~ agree (pr_ref bad) (pr_hw bad))).
(** the first of two runs that is undefined, in the order in which they are made *)
Definition first_undefined (x y : res pfout) (k : ubkind) : Prop := x = UB k \/ exists o, x = Ok o /\ y = UB k.
(** the boards run the firmware first, the plain build the reference *)
Definition undefined_on (b : board) (c : config) (mh mr : pfmem) (r : fwregion) (k : ubkind) : Prop :=
  match b with
  | Plain => first_undefined (ref_on c mr r) (hw_on c mh r) k
  | _ => first_undefined (hw_on c mh r) (ref_on c mr r) k
  end.
(** the program reaches a region on which one of the two algorithms is undefined, having found no disagreement before it *)
Definition reaches_undefined (b : board) (validate : bool) (c : config) (mh mr : nat -> pfmem) (first : nat) (regions : list fwregion) (k : ubkind) : Prop :=
  exists runs r, nth_error regions (length runs) = Some r /\ undefined_on b c (mh (first + length runs)%nat) (mr (first + length runs)%nat) r k /\
    (forall i run, nth_error runs i = Some run -> exists r, nth_error regions i = Some r /\ run_ok b c (mh (first + i)%nat) (mr (first + i)%nat) r run) /\
    (compares b validate = true -> Forall (fun t => agree (pr_ref t) (pr_hw t)) runs).
