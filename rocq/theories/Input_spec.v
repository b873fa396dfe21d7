(* Specification vocabulary for arguments given as arrays. *)
From Coq Require Import Reals.
From Verif Require Import Prelude Input_model.

(* rows of the announced size *)
Definition proper (a : parray) : Prop :=
  match a with Arr2 n rows => Forall (fun r => length r = n) rows | _ => True end.

(* the shapes that hold points of the plane or of space *)
Definition point_shape (a : parray) : Prop :=
  match a with
  | Arr1 l => length l = 2 \/ length l = 3
  | Arr2 n _ => n = 2 \/ n = 3
  | ArrN => False
  end.

Definition rows_of_array (a : parray) : list (list R) :=
  match a with Arr1 l => [l] | Arr2 _ rows => rows | ArrN => [] end.

(* p is the point of space described by a row: its own coordinates, or those of the plane normal to
   the axis with zero along it *)
Definition coordinate (i : nat) (p : R * R * R) : R :=
  let '(x, y, z) := p in match i with 0 => x | 1 => y | _ => z end.
Definition described (axis : nat) (row : list R) (p : R * R * R) : Prop :=
  let '(x, y, z) := p in
  row = [x; y; z] \/
  (length row = 2 /\ coordinate axis p = 0%R /\
   row = match axis with 0 => [y; z] | 1 => [x; z] | _ => [x; y] end).

(* the line documented for a list of positions: along Z for axis 0, Y for axis 1, X for axis 2
   (core/stack.py:30-34) *)
Definition documented (axis : nat) (t : R) : R * R * R :=
  match axis with 0 => (0, 0, t) | 1 => (0, t, 0) | _ => (t, 0, 0) end%R.

(* q is p moved to the plane normal to the axis *)
Definition grounded (axis : nat) (p q : R * R * R) : Prop :=
  coordinate axis q = 0%R /\ forall i, i <= 2 -> i <> axis -> coordinate i q = coordinate i p.

(* on the outline of the half stadium: the half circle, or one of the two corners below it *)
Definition on_stadium (p : R * R * R) : Prop :=
  let '(x, y, z) := p in (z = 0%R \/ z = 1%R) /\
  (x * x + y * y = 1 /\ 0 <= y \/ x * x = 1 /\ y = -1)%R.
