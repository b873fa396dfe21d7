(* Vocabulary for the meshes that VoronoiMesh2D.generate_mesh can build. *)
From Coq Require Import Reals.
From Verif Require Import Prelude Voronoi_model Voronoi_spec.
Open Scope nat_scope.

(* scipy.spatial.Voronoi returns a diagram of the points it is given; every point has a region with a vertex, and a region
   with a vertex at infinity has a ridge to close it *)
Definition tessellates (vo : voptions) : Prop :=
  forall vpts, vpts <> [] -> let d := v_diagram vo vpts in
    proper_diagram d /\ d_points d = vpts /\
    forall p r, region_of d p r -> r <> [] /\ (In (-1)%Z r -> open_ridges d p <> []).

(* the KDTree returns pairs of different vertices *)
Definition close_pairs (vo : voptions) : Prop :=
  forall verts pairs i j, v_pairs vo verts = Some pairs -> In (i, j) pairs -> i <> j /\ i < length verts /\ j < length verts.
