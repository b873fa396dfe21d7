(* Specification vocabulary for the meshes returned by VoronoiMesh2D. *)
From Coq Require Import Reals Sorted.
From Verif Require Import Prelude Surface_model Polygon_model Lines_spec Groups_spec Voronoi_model Voronoi_spec Unstr_spec VFinal_model.
Open Scope nat_scope.

(* a point of the plane in space, with zero along the axis *)
Definition lifted (axis : nat) (p : R * R) : pt :=
  let '(x, y) := p in
  (match axis with O => (0, x, y) | S O => (x, 0, y) | _ => (x, y, 0) end)%R.

(* clean only renames the points, up to the tolerance; cells, their types and their order are kept *)
Definition tidies (tol : R) (clean : list pt * list fcell -> list pt * list fcell) : Prop :=
  forall pts cells, exists f,
    snd (clean (pts, cells)) = map (fun c => (fst c, map f (snd c))) cells /\
    forall c i p, In c cells -> In i (snd c) -> nth_error pts i = Some p ->
      exists q, nth_error (fst (clean (pts, cells))) (f i) = Some q /\ within tol p q.

(* the points of the cell are those of the list, up to the tolerance *)
Definition outlined (tol : R) (pts : list pt) (c : fcell) (ps : list pt) : Prop :=
  exists qs, picks pts (snd c) qs /\ Forall2 (within tol) ps qs.

(* the polygon of cell i *)
Definition polygon_at (m : vmesh) (i : nat) (ps : list (R * R)) : Prop :=
  exists cell, nth_error (vm_cells m) i = Some cell /\ picks (vm_points m) cell ps.

(* f is the mesh of the polygons, in space *)
Definition mesh_of (axis : nat) (m : vmesh) (f : fmesh pt frow) : Prop :=
  f_pts f = map (lifted axis) (vm_points m) /\ map snd (f_cells f) = vm_cells m /\
  (forall c, In c (f_cells f) -> fst c = match length (snd c) with 3 => 5 | 4 => 9 | _ => 7 end) /\
  map fst (f_data f) = vm_groups m /\ map snd (f_data f) = vm_xyz m.

(* the center of cell i lies in the circle *)
Definition enclosed (t : vtools) (axis : nat) (m : vmesh) (circle : pt -> bool) (i : nat) : Prop :=
  exists ps, polygon_at m i ps /\ circle (k_center t (map (lifted axis) ps)) = true.

Definition first_of (P : nat -> Prop) (i : nat) : Prop := P i /\ forall j, P j -> i <= j.
Definition listing (P : nat -> Prop) (ids : list nat) : Prop :=
  StronglySorted lt ids /\ forall i, In i ids <-> P i.

(* every circle holds the center of a cell, no cell is in two circles *)
Definition apart (t : vtools) (axis : nat) (m : vmesh) (circles : list (pt -> bool)) : Prop :=
  (forall circle, In circle circles -> exists i, enclosed t axis m circle i) /\
  (forall j j' c c' i, nth_error circles j = Some c -> nth_error circles j' = Some c' ->
     enclosed t axis m c i -> enclosed t axis m c' i -> j = j').

(* the boundary found for the cells of a circle runs through a point once *)
Definition simple_boundary (t : vtools) (axis : nat) (m : vmesh) (circles : list (pt -> bool)) : Prop :=
  forall f circle ids poly, mesh_of axis m f -> In circle circles -> listing (enclosed t axis m circle) ids ->
    k_boundary t f ids = [poly] -> NoDup poly.

(* the mesh returned (r) keeps the cells of the tessellation (m) except the later ones of a circle, in their
   order and with their data; those in no circle keep their polygon *)
Definition remaining (tol : R) (t : vtools) (axis : nat) (circles : list (pt -> bool)) (m : vmesh) (r : vreturned) (kept : list nat) : Prop :=
  StronglySorted lt kept /\
  (forall i, In i kept <-> i < length (vm_cells m) /\
     forall circle, In circle circles -> enclosed t axis m circle i -> first_of (enclosed t axis m circle) i) /\
  length (vr_cells r) = length kept /\ picks (vm_xyz m) kept (vr_xyz r) /\ length (vr_groups r) = length kept /\
  forall k i, nth_error kept k = Some i ->
    (forall name, named (vm_labels m) (vm_groups m) i name <-> named (vr_labels r) (vr_groups r) k name) /\
    exists c, nth_error (vr_cells r) k = Some c /\
      ((forall circle, In circle circles -> ~ enclosed t axis m circle i) ->
         forall ps, polygon_at m i ps -> outlined tol (vr_pts r) c (map (lifted axis) ps)).

(* every circle has a cell, the polygon around its cells in the place of the first of them *)
Definition fused_circles (tol : R) (t : vtools) (axis : nat) (circles : list (pt -> bool)) (m : vmesh) (r : vreturned) : Prop :=
  exists kept, remaining tol t axis circles m r kept /\
    forall circle, In circle circles -> exists k i c f ids poly,
      nth_error kept k = Some i /\ first_of (enclosed t axis m circle) i /\ nth_error (vr_cells r) k = Some c /\ fst c = 7 /\
      mesh_of axis m f /\ listing (enclosed t axis m circle) ids /\ k_boundary t f ids = [poly] /\ outlined tol (vr_pts r) c poly.

(* the cells of the circle can be fused: their boundary is one polygon through points of the mesh *)
Definition joined (t : vtools) (axis : nat) (m : vmesh) (circle : pt -> bool) : Prop :=
  forall f ids, mesh_of axis m f -> listing (enclosed t axis m circle) ids ->
    k_dimension t f ids = 2 /\ exists poly, k_boundary t f ids = [poly] /\ forall q, In q poly -> In q (f_pts f).
