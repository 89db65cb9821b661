(** What the PUPPI test program should print. *)
From Verif Require Import Base Data PFHw PFRef Puppi SpecPuppi Bhv Vtx PuppiTest Convert DiscreteIO SpecTest.

(** the neutrals of the pf reference, each with its pt and, twice, the puppi pt
    for the vertex found among the first [nall] tracks *)
Definition report (c : config) (tab : list Z) (nall : nat) (mem : pfmem) (vold : vtxobj) (r : fwregion) (lines : list (Z * Z * Z)) : Prop :=
  exists q v, ref_on c mem r = Ok q /\ simple_vtx_ref (firstn nall (map vtk (fw_track r))) vold = Ok v /\
    lines = map (fun n => let p := puppi_pt tab (n_pt n) (alpha_sum (x_z0 v) (o_ch q) n) in (n_pt n, p, p)) (o_pho q ++ o_ne q).
(** everything the test computes for a region is defined *)
Definition computable (c : config) (nall : nat) (mem : pfmem) (vold : vtxobj) (r : fwregion) : Prop :=
  exists q v, ref_on c mem r = Ok q /\ simple_vtx_ref (firstn nall (map vtk (fw_track r))) vold = Ok v /\
    (forall n, In n (o_pho q ++ o_ne q) -> alpha_sum (x_z0 v) (o_ch q) n < 2147483648).
