(* Vocabulary for the meshes of a well with Voronoi cells. *)
From Coq Require Import Reals.
From Verif Require Import Prelude Volume_model Volume_spec Lines_spec Unstr_spec Well3_spec.
Open Scope nat_scope.

(* the cell is the wedge, hexahedron or polyhedron over the polygon ps (type ty of VTK), between the heights z and z'; the points of
   the polygon are numbered 0, 1, ... at the bottom and on from there at the top *)
Definition column (tol : R) (pts : list (R * R * R)) (cell : vcell) (ty : nat) (ps : list (R * R * R)) (z z' : R) : Prop :=
  exists cell0 f, extruded true (length ps) 0 (ty, seq 0 (length ps)) cell0 /\ cell = rename f cell0 /\
    forall i p, nth_error ps i = Some p ->
      (exists r, nth_error pts (f i) = Some r /\ within tol (at_height z p) r) /\
      (exists r, nth_error pts (f (i + length ps)) = Some r /\ within tol (at_height z' p) r).
