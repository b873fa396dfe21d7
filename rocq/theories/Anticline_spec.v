(* Vocabulary of the property C158. *)
From Coq Require Import Reals.
From Verif Require Import Prelude Grid Surface_model Surface_spec Volume_spec.
Open Scope R_scope.

(* stations along the section *)
Definition station (i : nat) : R := -314 / 100 + INR i * (628 / 4100).

(* elevations of the six horizons: a flat base, the crest 1 + cos x, three horizons half a unit apart, the last one of
   them cut by the flat top *)
Definition horizon (x : R) (j : nat) : R :=
  nth j [0; 1 + cos x; 3 / 2 + cos x; 2 + cos x; Rmin (5 / 2 + cos x) (34 / 10); 34 / 10] 0.
Definition sublayers : list nat := [4; 2; 2; 2; 4]%nat.
Definition layer_names : list string := ["Layer 1"; "Layer 2"; "Layer 3"; "Layer 4"; "Layer 5"]%string.

(* the three points are on a line *)
Definition flat_triangle (a b c : R * R * R) : Prop :=
  let '(ax, ay, az) := a in let '(bx, by_, bz) := b in let '(cx, cy, cz) := c in
  (by_ - ay) * (cz - az) = (bz - az) * (cy - ay) /\
  (bz - az) * (cx - ax) = (bx - ax) * (cz - az) /\
  (bx - ax) * (cy - ay) = (by_ - ay) * (cx - ax).

(* the area reported for a cell is zero exactly when both its triangles are flat *)
Definition measures_flat (areas : shape3 -> list pt -> list R) : Prop :=
  forall nx nz pts i k a b c d, (i + 1 < nx)%nat -> (k + 1 < nz)%nat ->
    at_coord (nx, 1, nz)%nat pts (i, 0, k)%nat = Some a -> at_coord (nx, 1, nz)%nat pts (i + 1, 0, k)%nat = Some b ->
    at_coord (nx, 1, nz)%nat pts (i + 1, 0, k + 1)%nat = Some c -> at_coord (nx, 1, nz)%nat pts (i, 0, k + 1)%nat = Some d ->
    forall w, at_coord (cell_shape (nx, 1, nz)%nat) (areas (nx, 1, nz)%nat pts) (i, 0, k)%nat = Some w ->
      (w = 0 <-> flat_triangle a b c /\ flat_triangle a c d).
