(** Vocabulary for the regionizer test program. *)
From Verif Require Import Base Data Discrete Convert DiscreteIO SpecIO Regionizer SpecRegion RegTest.

(** ** What it should do with a dump *)
(** some cluster among the first 15 of a sector has a negative pt *)
Definition negative_calo (e : event) : bool :=
  existsb (fun r => existsb (fun cl => cl_pt cl <? 0) (firstn 15 (rg_calo r))) (ev_regions e).
Definition twelve (e : event) : bool := (length (ev_regions e) =? 12)%nat.
(** the exit code (or undefined behaviour) on the events [evs] when a region
    has room for [ncalo] clusters *)
Fixpoint verdict (ncalo : nat) (evs : list event) : res Z :=
  match evs with
  | [] => Ok 0
  | e :: evs =>
    if negb (twelve e) then Ok 2
    else if negative_calo e then UB AssertFail
    else if (ncalo <? 7)%nat then UB OutOfBounds
    else verdict ncalo evs
  end.
(** the events before the first one that does not have twelve sectors *)
Fixpoint leading (evs : list event) : list event :=
  match evs with e :: evs => if twelve e then e :: leading evs else [] | [] => [] end.

(** ** What it should record for an event *)
(** the input arrays: the first objects of each sector, cleared slots after *)
Definition calo_arrays (e : event) : list (list HadCalo) := map (fun r => filled fw_had (mkHad 0 0 0 0 false) 15 (rg_calo r)) (ev_regions e).
Definition em_arrays (e : event) : list (list EmCalo) := map (fun r => filled fw_em (mkEm 0 0 0 0) 12 (rg_emcalo r)) (ev_regions e).
Definition tk_arrays (e : event) : list (list Tk) := map (fun r => filled fw_tk (mkTk 0 0 0 0 0 false) 20 (rg_track r)) (ev_regions e).
Definition mu_arrays (nmu : nat) (e : event) : list (list Mu) := map (fun r => filled fw_mu (mkMu 0 0 0 0) nmu (rg_muon r)) (ev_regions e).
(** [regions] holds, for each of the 18 regions, [n] slots with the content
    C37's specification gives for the objects [arrays] of the sectors *)
Definition regions_of {T A} (to_r : T -> robj A) (d : A) (nsec n : nat) (arrays regions : list (list T)) : Prop :=
  dims2 18 n regions /\
  forall ie ip, (ie < 3)%nat -> (ip < 6)%nat -> region_spec d nsec n (fun s => map to_r (nth s arrays [])) ie ip (map to_r (nth (6 * ie + ip) regions [])).
(** [t] is a faithful record of the test on event [e] *)
Definition test_of (c : config) (e : event) (t : rtest) : Prop :=
  let i := rt_ins t in
  ri_calo i = calo_arrays e /\ ri_em i = em_arrays e /\ ri_tk i = tk_arrays e /\ ri_mu12 i = mu_arrays (NMU c) e /\
  (dims2 4 (NMU c) (ri_mu i) /\ forall m, (m < 4)%nat -> let row k := map r_of_mu (nth (3 * m + k) (ri_mu12 i) []) in
     kept 0 (NMU c) (shifted (-120) (row 0%nat) ++ shifted 0 (row 1%nat) ++ shifted 120 (row 2%nat)) (map r_of_mu (nth m (ri_mu i) []))) /\
  regions_of r_of_had (0, false) 7 (NCALO c) (ri_calo i) (rt_calo t) /\
  regions_of r_of_em 0 7 (NEMCALO c) (ri_em i) (rt_em t) /\
  regions_of r_of_tk (0, 0, false) 9 (NTRACK c) (ri_tk i) (rt_tk t) /\
  (dims2 18 (NMU c) (rt_mu t) /\
   forall work regions, dims3 4 3 (NMU c) work -> dims2 18 (NMU c) regions -> exists static,
     regionize_muon_ref 0 (NMU c) work (map (map r_of_mu) (ri_mu i)) regions = Ok (map (map r_of_mu) (rt_mu t), repeat [] 4, static)).

(** arrays of the declared dimensions (the contents are arbitrary) *)
Definition ins_ok (c : config) (i : rins) : Prop :=
  dims2 12 15 (ri_calo i) /\ dims2 12 12 (ri_em i) /\ dims2 12 20 (ri_tk i) /\ dims2 12 (NMU c) (ri_mu12 i) /\ dims2 4 (NMU c) (ri_mu i).
Definition chan_ok {A} (nsec slots n : nat) (ch : chan A) : Prop :=
  dims2 18 n (ch_reg ch) /\ dims2 18 n (ch_regr ch) /\ dims3 nsec 3 slots (ch_static ch).
Definition memory_ok (c : config) (st : rstate) : Prop :=
  ins_ok c (rs_ins st) /\ chan_ok 12 7 (NCALO c) (rs_calo st) /\ chan_ok 12 7 (NEMCALO c) (rs_em st) /\ chan_ok 12 9 (NTRACK c) (rs_tk st) /\ chan_ok 4 (NMU c) (NMU c) (rs_mu st).
