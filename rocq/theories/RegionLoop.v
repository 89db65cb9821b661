(** The loop shared by the testbench programs: for each test, reset the input
    arrays, fetch the next region or stop, run the body. *)
From Verif Require Import Base Data Discrete Convert DiscreteIO.

(** e.g. simple_fullpfalgo_test.cpp:44-61, 143: [clear] is the
    initialisation of the input arrays, [body test state region] the rest of
    the loop body, which may make main return ([Some code]).  [None]: the
    search for the next region is not finished after [fuel] rounds. *)
Fixpoint region_loop {S} (c : config) (special : Z -> Z) (tail : res bool) (fuel : nat) (clear : fwregion -> fwregion)
    (body : nat -> S -> fwregion -> res (S * option Z)) (n test : nat) (st : S) (arr : fwregion) (s : inputs) : option (res (S * option Z)) :=
  match n with
  | O => Some (Ok (st, None))
  | Datatypes.S n' =>
    match next_region_fw c special tail fuel (clear arr) s with
    | None => None
    | Some (UB k) => Some (UB k)
    | Some (Ok (false, _, _)) => Some (Ok (st, None))
    | Some (Ok (true, arr1, s1)) =>
      match body test st arr1 with
      | UB k => Some (UB k)
      | Ok (st1, Some code) => Some (Ok (st1, Some code))
      | Ok (st1, None) => region_loop c special tail fuel clear body n' (Datatypes.S test) st1 arr1 s1
      end
    end
  end.

(** simple_fullpfalgo_test.cpp:47-58 (also puppi/simple_pfpuppi_test.cpp:44-56):
    hwTightQuality keeps its value *)
Definition clear_arrays (r : fwregion) : fwregion :=
  mkFw (map (fun _ => had0) (fw_calo r)) (map (fun _ => em0) (fw_emcalo r)) (map (fun t => mkTk 0 0 0 0 0 (t_tight t)) (fw_track r)) (map (fun _ => mu0) (fw_muon r)) (fw_zpv r).
