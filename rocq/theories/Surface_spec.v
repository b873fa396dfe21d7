(* Specification vocabulary for surfaces between two lines. *)
From Verif Require Import Grid.

(* (axis along the line, axis of the levels) of each plane name *)
Inductive plane_axes : string -> nat -> nat -> Prop :=
| pa_xy : plane_axes "xy"%string 0 1
| pa_yx : plane_axes "yx"%string 1 0
| pa_xz : plane_axes "xz"%string 0 2
| pa_zx : plane_axes "zx"%string 2 0
| pa_yz : plane_axes "yz"%string 1 2
| pa_zy : plane_axes "zy"%string 2 1.

(* planes in which the line axis comes before the level axis *)
Inductive direct_plane : string -> Prop :=
| dp_xy : direct_plane "xy"%string | dp_xz : direct_plane "xz"%string | dp_yz : direct_plane "yz"%string.

(* grid coordinates of (line index i, level j) *)
Definition grid_coord (la lb i j : nat) : shape3 := setc la i (setc lb j (0, 0, 0)).

(* dimensions of a surface of n x m points *)
Definition grid_dims (la lb n m : nat) : shape3 := setc la n (setc lb m (1, 1, 1)).

(* row of a data array at grid coordinates *)
Definition at_coord {A} (s : shape3) (v : list A) (c : shape3) : option A :=
  nth_error v (fidx s c).
