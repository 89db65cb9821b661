(** Specification of how the vertex found responds to changes of the tracks,
    stated on the tracks alone. *)
From Verif Require Import Base Bhv SpecBhv.

(** both implementations find [r] *)
Definition finds (sectors : list (list vtrack)) (r : Z * Z * Z) : Prop :=
  hw_vertex sectors = Ok r /\ bhv_find_pv_ref sectors = Ok r.

(** tracks the finders accept, in at most 64 sectors *)
Definition sectors_ok (sectors : list (list vtrack)) : Prop :=
  Forall (Forall track_ok) sectors /\ Z.of_nat (length sectors) <= 64.

(** the track displaced along the beam *)
Definition displaced (d : Z) (t : vtrack) : vtrack := mkVtrack (v_pt t) (v_z0 t + d).

(** a track that weighs anything at all has pt of at least 2 counts; the
    histogram reaches from -288 to 287 *)
Definition weighs (t : vtrack) : Prop := 2 <= v_pt t.
Definition covered (t : vtrack) : Prop := -288 <= v_z0 t <= 287.

(** the weight of all tracks of bin [b], in whatever sector, unsaturated *)
Definition weight_in (b : Z) (ts : list vtrack) : Z :=
  sumZ (map (fun t => if (-288 + 8 * b <=? v_z0 t) && (v_z0 t <? -288 + 8 * b + 8) then Z.min 100 (v_pt t / 2) else 0) ts).
