(* Vocabulary for the areas of the cells of geometric objects and for objects that fit together. *)
From Coq Require Import Reals.
From Verif Require Import Prelude Perc_model Perc_spec Grid Surface_model Surface_spec Objects_model Objects_spec.
Open Scope R_scope.

(* n equal subdivisions are asked *)
Definition equally (s : sub) (n : nat) : Prop :=
  (0 < n)%nat /\ sb_res s = ResInt (Z.of_nat n) /\ names_method (sb_method s) Constant.

Fixpoint sum_to (n : nat) (f : nat -> R) : R :=
  match n with O => 0 | S n' => sum_to n' f + f n' end.

(* area of cell (i, j), and of all cells *)
Definition cell_area {D} (g : sgrid D) (i j : nat) : R :=
  match node g i j, node g (S i) j, node g (S i) (S j), node g i (S j) with
  | Some a, Some b, Some c, Some d => Rabs (twice_area4 a b c d) / 2
  | _, _, _, _ => 0
  end.
Definition mesh_area {D} (g : sgrid D) : R :=
  let '(nx, ny, _) := sg_dims g in sum_to (nx - 1) (fun i => sum_to (ny - 1) (cell_area g i)).

(* area of the triangles of a fan *)
Definition triangle_area (m : tmesh) (k : nat) : R :=
  match nth_error (t_cells m) k with
  | Some [a; b; c] =>
      match nth_error (t_pts m) a, nth_error (t_pts m) b, nth_error (t_pts m) c with
      | Some a, Some b, Some c => Rabs (twice_area3 a b c) / 2
      | _, _, _ => 0
      end
  | _ => 0
  end.
Definition fan_area (m : tmesh) : R := sum_to (length (t_cells m)) (triangle_area m).
