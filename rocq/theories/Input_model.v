(* Model of arguments given as arrays: MeshBase._check_point_array (core/_base.py:84-118) and its use
   by VoronoiMesh2D.add (core/voronoi.py:62-101), the base line of MeshStack2D given as positions
   (core/stack.py:60-63), set_transition with an integer (core/stack.py:106-131), the defaults of
   StructuredSurface (core/geometric_objects.py:1183-1221) and load_half_stadium
   (examples/examples.py:81-104). *)
From Coq Require Import Reals.
From Verif Require Export Prelude.
From Verif Require Import Grid Perc_model Surface_model Volume_model Groups_model Lines_model Polygon_model
  Voronoi_model Objects_model Seeds_model Stack_model Trans_model.
Open Scope nat_scope.

(* Arrays: one dimension, two dimensions with the number of columns, others.  The rows of an array of two
   dimensions all have as many entries as there are columns. *)
Inductive parray :=
| Arr1 (entries : list R)
| Arr2 (columns : nat) (rows : list (list R))
| ArrN.

(* np.insert(row, axis, 0.0) on two entries; NumPy rejects positions beyond the end *)
Definition insert_zero (axis : nat) (l : list R) : res (list R) :=
  if axis <=? length l then Ok (firstn axis l ++ 0%R :: skipn axis l) else Err IndexError.

(* core/_base.py:84-118 *)
Definition check_point_array (axis : nat) (a : parray) : res parray :=
  match a with
  | Arr1 l =>
      let! l := (if length l =? 2 then insert_zero axis l else Ok l) in    (* 93 *)
      if length l =? 3 then Ok (Arr1 l) else Err ValueError                (* 95-98 *)
  | Arr2 n rows =>
      let! nr := (if n =? 2 then let! rows := mapM (insert_zero axis) rows in Ok (3, rows)
                  else Ok (n, rows)) in                                    (* 101-105 *)
      let '(n, rows) := nr in
      if n =? 3 then Ok (Arr2 n rows) else Err ValueError                  (* 107-110 *)
  | ArrN => Err ValueError                                                 (* 112-115 *)
  end.

(* the points of pv.PolyData(array): a row of three entries is one point *)
Definition array_points (a : parray) : list pt :=
  let point := fun r => (nth 0 r 0%R, nth 1 r 0%R, nth 2 r 0%R) in
  match a with
  | Arr1 l => [point l]
  | Arr2 _ rows => map point rows
  | ArrN => []
  end.

(* core/voronoi.py:62-101, an array is given: vertices *)
Definition add_array (axis : nat) (s : seeds) (a : parray) (priority : Z) (group : string)
  : seeds * res unit :=
  match check_point_array axis a with
  | Ok a => (add_mesh axis s (mkG (map (fun p => [p]) (array_points a)) None None) true priority group, Ok tt)
  | Err e => (s, Err e)
  end.

(* core/stack.py:60-63.  pv.lines_from_points makes one LINE cell per pair of consecutive points. *)
Definition positions_line {D} (axis : nat) (xs : list R) : lmesh pt D :=
  mkL (map (fun x => pset ((axis + 1) mod 3) x origin) xs) (segments (seq 0 (length xs))) [] [].

(* core/stack.py:58-73: the base line of MeshStack2D, from positions or from a polydata *)
Definition stack2d_line {D} (axis : nat) (arg : list R + lmesh pt D) : res (lmesh pt D) :=
  match arg with
  | inl xs => Ok (positions_line axis xs)
  | inr m => base_line m
  end.

(* core/stack.py:122-131: the new base line, from an integer or from a polydata *)
Definition new_line {D} other (current : lmesh pt D) (arg : Z + lmesh pt D) : res (lmesh pt D) :=
  match arg with
  | inl n =>
      let! pts := RegularLine other (l_pts current) (Some n) in            (* 124-127 *)
      transition_line (mkL pts [seq 0 (length pts)] [] [])                 (* 128 *)
  | inr m => transition_line m
  end.

(* core/geometric_objects.py:1183-1221 *)
Definition StructuredSurface {D} areas (line_a line_b : option (line_arg D)) (plane : string)
  (r : resolution) (method : option string) : res (sgrid D) :=
  let a := match line_a with Some l => l | None => LineArr [(0, 0, 0); (1, 0, 0)]%R end in
  let b := match line_b with Some l => l | None => LineArr [(0, 1, 0); (1, 1, 0)]%R end in
  generate_surface_from_two_lines areas a b plane r method.

(* examples/examples.py:93-97: the outline of the half stadium *)
Definition stadium_outline (resolution : Z) : res (list (list R)) :=
  if (resolution + 1 <? 0)%Z then Err ValueError                           (* np.linspace *)
  else
    let theta := map deg2rad (linspace 0 180 (Z.to_nat (resolution + 1))) in
    let points := map (fun t => [cos t; sin t; 0%R]) theta in
    match points with
    | [] => Err IndexError                                                 (* points[0] *)
    | p :: _ =>
        let lower := fun r => map2 Rplus r [0; -1; 0]%R in
        Ok (lower p :: points ++ [lower (last points p)])
    end.

(* examples/examples.py:81-104.  [gm] and [result] as in Polygon_model, [invert] is the default of
   invert_polyhedron_faces. *)
Definition half_stadium (gm : gmsh) (result : list gop -> gmsh_mesh) (invert : bool) (resolution : Z)
  : res (uvol unit) :=
  let! ps := stadium_outline resolution in
  let! m := snd (polygon gm result false None "gmsh" None ps []) in        (* 98 *)
  match m with
  | Meshed _ _ => Err ValueError                                           (* not for one polygon *)
  | OneCell points ids =>
      let base := array_points (Arr2 3 points) in
      let surface := fun pts => mkUsurf pts [(POLYGON, ids)] [] [] None in
      generate_volume_unstructured (surface base)
        (surface (map (fun p => Stack_model.add3 p (0, 0, 1)%R) base)) ResNone None invert  (* 99 *)
  end.
