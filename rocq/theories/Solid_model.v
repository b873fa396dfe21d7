(* Model of examples/examples.py:74-75, 98-99: the volume between a polygon and its translate. *)
From Coq Require Import Reals.
From Verif Require Import Prelude Surface_model Volume_model Polygon_model Input_model.
Open Scope R_scope.

(* examples/examples.py:74-75, 98-99, as in Input_model.half_stadium *)
Definition polygon_prism (gm : gmsh) (result : list gop -> gmsh_mesh) (invert : bool) (ps : list (list R)) : res (uvol unit) :=
  let! m := snd (polygon gm result false None "gmsh" None ps []) in
  match m with
  | Meshed _ _ => Err ValueError
  | OneCell points ids =>
      let base := array_points (Arr2 3 points) in
      let surface := fun pts => mkUsurf pts [(POLYGON, ids)] [] [] None in
      generate_volume_unstructured (surface base)
        (surface (map (fun p => Stack_model.add3 p (0, 0, 1)) base)) ResNone None invert
  end.

(* examples/examples.py:66-73 *)
Definition concave_outline : list (list R) := [[0; 0; 0]; [5; 0; 0]; [5; 1; 0]; [1; 1; 0]; [1; 7; 0]; [0; 7; 0]].
(* examples/examples.py:54-78 *)
Definition concave_polyhedron gm result invert : res (uvol unit) := polygon_prism gm result invert concave_outline.
