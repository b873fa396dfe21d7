(* Vocabulary for the cells of a Voronoi diagram. *)
From Coq Require Import Reals.
From Verif Require Import Prelude Voronoi_model Voronoi_spec.
Open Scope R_scope.

(* a is one of the points of the list nearest to x *)
Definition nearest (pts : list pt2) (a x : pt2) : Prop := forall q, In q pts -> dist2 x a <= dist2 x q.

(* all points are on one side of the line ab *)
Definition one_side (pts : list pt2) (a b : pt2) : Prop :=
  (forall q, In q pts -> 0 <= cross (minus b a) (minus q a)) \/ (forall q, In q pts -> cross (minus b a) (minus q a) <= 0).

(* the diagram is that of its points: the vertices of the region and of the ridges of a point are nearest to it, and the
   ridges that go to infinity are those of the sides of the convex hull *)
Definition voronoi_diagram (d : diagram) : Prop :=
  (forall p a r v w, nth_error (d_points d) p = Some a -> region_of d p r -> In v r -> (0 <= v)%Z ->
     nth_error (d_vertices d) (Z.to_nat v) = Some w -> nearest (d_points d) a w) /\
  (forall p a q b v w, nth_error (d_points d) p = Some a -> In (q, v) (open_ridges d p) -> nth_error (d_points d) q = Some b ->
     nth_error (d_vertices d) (Z.to_nat v) = Some w -> nearest (d_points d) a w /\ one_side (d_points d) a b).

(* x is in the convex hull of the points *)
Definition weighted (ws xs : list R) : R := fold_right Rplus 0 (map (fun '(w, x) => w * x) (combine ws xs)).
Definition in_hull (ps : list pt2) (x : pt2) : Prop :=
  exists ws, length ws = length ps /\ Forall (fun w => 0 <= w) ws /\ fold_right Rplus 0 ws = 1 /\
    fst x = weighted ws (map fst ps) /\ snd x = weighted ws (map snd ps).
