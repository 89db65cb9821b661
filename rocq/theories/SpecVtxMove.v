(** Specification of how the vertex of the simple finder responds to changes
    of the tracks, stated on the tracks alone. *)
From Verif Require Import Base Bhv Vtx SpecVtx.

(** [o] is found, whatever the output held before *)
Definition vertex_is (tracks : list vtrack) (o : vtxobj) : Prop := forall old, simple_vtx_ref tracks old = Ok o.

(** tracks the reference handles, few enough for its 16-bit sums *)
Definition vtracks_ok (tracks : list vtrack) : Prop := Forall vt_ok tracks /\ Z.of_nat (length tracks) <= 163.

(** the slices are regular from 0 to 299, and the first one takes negative z0 too *)
Definition regular (t : vtrack) : Prop := 0 <= v_z0 t < 300.
Definition sensible (t : vtrack) : Prop := -340 < v_z0 t < 300.

(** the track counts for a vertex at [z] *)
Definition belongs (z : Z) (t : vtrack) : Prop := z - 10 <= v_z0 t < z + 10 \/ (z = 10 /\ v_z0 t < 0).

Definition along (d : Z) (t : vtrack) : vtrack := mkVtrack (v_pt t) (v_z0 t + d).
