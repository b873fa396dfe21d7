(* Model of examples/examples.py: the meshes of a well with voronoi=True. *)
From Coq Require Import Reals.
From Verif Require Export Well3_model.
From Verif Require Import Lines_model Voronoi_model VFinal_model Topo_model SMerge_model.
Open Scope R_scope.

(* the background mesh of VoronoiMesh2D(mesh) with its default axis 2 and preference "cell" (core/voronoi.py:44-60): the
   points are copied at height 0.  A cell is the list of its points; a number of a point that is not in the mesh
   is an IndexError. *)
Definition well_background {D} (int : D -> Z) (g : uvol D) (groups : dict) : res (vbase (list pt)) :=
  let points := map (fun '(x, y, _) => (x, y, 0)) (uv_pts g) in
  let! cells := flat_cells (uv_types g) (uv_stream g) in
  let! cells := mapM (fun c => take points (snd c)) cells in
  Ok (mkVB (mkG cells (option_map (map int) (lookup "CellGroup"%string (uv_cd g))) (Some groups)) points PrefCell).

(* the mesh of polygons (core/voronoi.py:487-499) as the base mesh of an extrusion: [real] gives the coordinates X, Y, Z of
   the cell data; it has no point data and no flags *)
Definition voronoi_ubase {D} (num : Z -> D) (real : R -> D) (r : vreturned) : ubase D :=
  mkUbase (mkUsurf (vr_pts r) (vr_cells r) []
      [("CellGroup", map num (vr_groups r)); ("X", map (fun '(x, _, _) => real x) (vr_xyz r));
       ("Y", map (fun '(_, y, _) => real y) (vr_xyz r)); ("Z", map (fun '(_, _, z) => real z) (vr_xyz r))]%string None)
    (Some (vr_groups r)) (Some (vr_labels r)).

Section Well.
Context {D : Type} (num : Z -> D) (real : R -> D) (int : D -> Z) (areas : shape3 -> list pt -> list R).
Context (pvmerge : list (uvol D) -> res (uvol D)) (clean : R -> uvol D -> uvol D) (pick : list nat -> uvol D -> uvol D).
Context (geo : vgeo (list pt)) (vo : voptions) (tools : vtools).

(* examples/examples.py:178-179 *)
Definition load_voronoi_2d : res vreturned :=
  let! r := load_well_2d num int areas pvmerge clean in
  let '(g2, groups) := r in
  let! b := well_background int g2 groups in
  generate_voronoi geo (mk_options "" []) b [] [] vo tools.

(* examples/examples.py:184-215 with voronoi=True *)
Definition load_voronoi_3d : res (uvol D * dict) :=
  let! r := load_voronoi_2d in
  raise_well num int pvmerge clean pick (voronoi_ubase num real r) (vr_labels r).
End Well.
