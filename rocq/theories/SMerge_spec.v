(* Specification vocabulary for merging structured grids along an axis. *)
From Coq Require Import Reals.
From Verif Require Import Grid Surface_model Surface_spec Volume_spec.

(* a structured grid as VTK holds it: one row per point or cell, distinct array names,
   at least two points along [axis] *)
Definition wf_grid {D} (axis : nat) (g : sgrid D) : Prop :=
  let '(nx, ny, nz) := sg_dims g in
  (1 <= nx /\ 1 <= ny /\ 1 <= nz)%nat /\ (2 <= comp axis (sg_dims g))%nat /\
  length (sg_pts g) = size3 (sg_dims g) /\
  NoDup (map fst (sg_cd g)) /\
  (forall k v, In (k, v) (sg_cd g) -> length v = n_cells (sg_dims g)) /\
  length (sg_ghost g) = n_cells (sg_dims g).

(* number of layers of cells before block j *)
Definition offset {D} (axis : nat) (l : list (sgrid D)) (j : nat) : nat :=
  list_sum (map (fun g => comp axis (sg_dims g) - 1) (firstn j l)).

(* shift a coordinate along an axis *)
Definition shifted (axis n : nat) (c : shape3) : shape3 := setc axis (n + comp axis c) c.

(* a and b coincide up to the np.allclose tolerance where they meet *)
Definition interface_ok {D} (axis : nat) (a b : sgrid D) : Prop :=
  setc axis 0 (sg_dims a) = setc axis 0 (sg_dims b) /\
  forall c p q, in_shape (setc axis 1 (sg_dims a)) c ->
    at_coord (sg_dims a) (sg_pts a) (setc axis (comp axis (sg_dims a) - 1) c) = Some p ->
    at_coord (sg_dims b) (sg_pts b) (setc axis 0 c) = Some q -> near p q.

Fixpoint chain {X} (P : X -> X -> Prop) (l : list X) : Prop :=
  match l with
  | x :: (y :: _) as l' => P x y /\ chain P l'
  | _ => True
  end.
