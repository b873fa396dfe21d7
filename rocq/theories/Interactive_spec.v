(* Specification vocabulary for interactive selections. *)
From Coq Require Import Reals Sorted Ascii.
From Verif Require Import Prelude.
Local Open Scope string_scope.
Open Scope nat_scope.


(* number of clicks on id i *)
Definition clicks_on (i : Z) (clicks : list Z) : nat := count_occ Z.eq_dec clicks i.

(* k is the position of the last click on i *)
Definition last_click (clicks : list Z) (i : Z) (k : nat) : Prop :=
  nth_error clicks k = Some i /\ forall j, k < j -> nth_error clicks j <> Some i.

(* x comes before y in l *)
Definition comes_before (l : list Z) (x y : Z) : Prop :=
  exists a b, a < b /\ nth_error l a = Some x /\ nth_error l b = Some y.

(* coordinates of a point in the plane of a view, in the order used for the lasso *)
Inductive view_plane : string -> (R * R * R -> R * R) -> Prop :=
| vp_xy : view_plane "xy" (fun p => let '(x, y, z) := p in (x, y))
| vp_yx : view_plane "yx" (fun p => let '(x, y, z) := p in (x, y))
| vp_xz : view_plane "xz" (fun p => let '(x, y, z) := p in (x, z))
| vp_zx : view_plane "zx" (fun p => let '(x, y, z) := p in (x, z))
| vp_yz : view_plane "yz" (fun p => let '(x, y, z) := p in (y, z))
| vp_zy : view_plane "zy" (fun p => let '(x, y, z) := p in (y, z))
| vp_minus v f : view_plane v f -> view_plane (String "-"%char v) f.

(* the same for the views of the horizontal plane *)
Inductive horizontal_view : string -> Prop :=
| hv_xy : horizontal_view "xy" | hv_yx : horizontal_view "yx"
| hv_nxy : horizontal_view "-xy" | hv_nyx : horizontal_view "-yx".

(* full statement, for the projection [proj] of the view *)
Definition lasso_selects (proj : R * R * R -> R * R) (inside : R * R -> bool) (items : list (R * R * R)) (ids : list nat) : Prop :=
  StronglySorted lt ids /\
  forall i, In i ids <-> exists p, nth_error items i = Some p /\ inside (proj p) = true.

(* the unit square of the plane *)
Definition unit_square : list (R * R) := [(0, 0); (1, 0); (1, 1); (0, 1)]%R.
(* the outcome of shapely on the unit square *)
Definition unit_square_inside (polygon : list (R * R) -> res (R * R -> bool)) : Prop :=
  exists f, polygon unit_square = Ok f /\ forall x y, f (x, y) = true <-> (0 < x < 1 /\ 0 < y < 1)%R.


(* a known view, or a minus sign before a known view *)
Inductive names_view (known : string -> bool) : string -> Prop :=
| nv_plain v : known v = true -> (forall w, v <> String "-"%char w) -> names_view known v
| nv_minus v : known v = true -> names_view known (String "-"%char v).

(* name of the view and whether it is seen from the other side *)
Inductive looks : string -> string * bool -> Prop :=
| lk_plain v : (forall w, v <> String "-"%char w) -> looks v (v, false)
| lk_minus v : looks (String "-"%char v) (v, true).
