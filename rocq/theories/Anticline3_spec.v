(* Vocabulary of the property C161. *)
From Coq Require Import Reals.
From Verif Require Import Prelude Grid Surface_model Surface_spec Volume_spec.
Open Scope R_scope.

(* the volume reported for a cell with vertical sides and two faces in planes of constant y is zero exactly when the cell
   has no height along any of its edges *)
Definition measures_slabs (volumes : shape3 -> list pt -> list R) : Prop :=
  forall nx ny nz pts i r k x x' y y' zl zh zl' zh',
    (i + 1 < nx)%nat -> (r + 1 < ny)%nat -> (k + 1 < nz)%nat -> x < x' -> y < y' -> zl <= zh -> zl' <= zh' ->
    (forall s t, (s = r /\ t = y) \/ (s = (r + 1)%nat /\ t = y') ->
       at_coord (nx, ny, nz) pts (i, s, k) = Some (x, t, zl) /\
       at_coord (nx, ny, nz) pts ((i + 1)%nat, s, k) = Some (x', t, zl') /\
       at_coord (nx, ny, nz) pts (i, s, (k + 1)%nat) = Some (x, t, zh) /\
       at_coord (nx, ny, nz) pts ((i + 1)%nat, s, (k + 1)%nat) = Some (x', t, zh')) ->
    forall w, at_coord (cell_shape (nx, ny, nz)) (volumes (nx, ny, nz) pts) (i, r, k) = Some w ->
      (w = 0 <-> zl = zh /\ zl' = zh').
