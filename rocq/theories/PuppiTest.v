(** The PUPPI test program: puppi/simple_pfpuppi_test.cpp. *)
From Verif Require Import Base Data PFHw PFRef Puppi Bhv Vtx Discrete Convert DiscreteIO RegionLoop.

(** simple_pfpuppi_test.cpp:10 *)
Definition PP_NTEST : nat := 50.
(** firmware/data.h:15-19: NPOW 6, NALLTRACK 1 << NPOW *)
Definition NALLTRACK : nat := 64.

(** the fields of a TkObj used by simple_vtx_ref.cpp:17-21 *)
Definition vtk (t : Tk) : vtrack := mkVtrack (t_pt t) (t_z0 t).
(** one printed line, simple_pfpuppi_test.cpp:88: hwPt, hwPtPuppi, hwPtPuppi of the reference *)
Definition pp_lines (a b : list PFNe) : list (Z * Z * Z) := map (fun '(x, y) => (n_pt x, n_puppi x, n_puppi y)) (combine a b).
(** simple_pfpuppi_test.cpp:61-91.  The state is what has been printed, test by
    test.  [mr] is the uninitialised memory of the reference in each test,
    [vold] the uninitialised vertex object (line 79).  [nall] is the number of
    tracks simple_vtx_ref reads, NALLTRACK in the program, from track[NTRACK]:
    line 80 reads beyond the array if there are fewer.  hwPtPuppi is set to 0
    in the merged arrays (lines 65-74). *)
Definition pp_body (c : config) (tab : list Z) (nall : nat) (mr : nat -> pfmem) (vold : nat -> vtxobj) (test : nat) (st : list (list (Z * Z * Z))) (r : fwregion)
    : res (list (list (Z * Z * Z)) * option Z) :=
  do q <- pfalgo3_full_ref (mr test) (NSELCALO c) (fw_emcalo r) (fw_calo r) (fw_track r) (fw_muon r);
  let allne := map (fun n => mkNe (n_pt n) (n_eta n) (n_phi n) (n_id n) 0) (o_pho q ++ o_ne q) in
  do tks <- mapM (fun i => rmap vtk (rd (fw_track r) i)) (seq 0 nall);
  do v <- simple_vtx_ref tks (vold test);
  do ref <- simple_puppi_ref tab (o_ch q) allne (x_z0 v);
  do hw <- simple_puppi_hw tab (o_ch q) allne (x_z0 v);
  Ok (st ++ [pp_lines hw ref], None).

(** simple_pfpuppi_test.cpp:13-96: the exit code and what is printed; main has
    no other return than line 95 *)
Definition pp_main (c : config) (special : Z -> Z) (tail : res bool) (fuel : nat) (tab : list Z) (nall : nat) (mr : nat -> pfmem) (vold : nat -> vtxobj) (g : Z) (arr : fwregion) (file : option (list Z))
    : option (res (Z * list (list (Z * Z * Z)))) :=
  match inputs_open g file with
  | UB k => Some (UB k)
  | Ok s =>
    match region_loop c special tail fuel clear_arrays (pp_body c tab nall mr vold) PP_NTEST 1 [] arr s with
    | None => None
    | Some (UB k) => Some (UB k)
    | Some (Ok (out, _)) => Some (Ok (0, out))
    end
  end.
