(* Model of the end of VoronoiMesh2D.generate_mesh (core/voronoi.py:487-507): the mesh of polygons,
   fuse_cells and _clean.  get_cell_centers, get_dimension and extract_boundary_polygons on the
   polygons and UnstructuredGrid.clean (VTK) are parameters; clean keeps the field data (user_dict). *)
From Coq Require Import Reals.
From Verif Require Export Prelude.
From Verif Require Import Surface_model Groups_model Polygon_model Voronoi_model Seeds_model.
Open Scope nat_scope.

(* a cell of the mesh: type and point ids; a row of cell data: CellGroup and X, Y, Z *)
Notation fcell := (nat * list nat)%type.
Notation frow := (Z * pt)%type.

(* vtkPolyData: triangles and quadrangles are recognised by their number of points (488) *)
Definition face_type (n : nat) : nat := match n with 3 => 5 | 4 => 9 | _ => 7 end.

(* equality of the points compared in fuse_cells *)
Definition same_point (p q : pt) : bool :=
  let '(x, y, z) := p in let '(x', y', z') := q in
  (if Req_EM_T x x' then true else false) && (if Req_EM_T y y' then true else false)
  && (if Req_EM_T z z' then true else false).

(* 486-499; _check_point_array rejects a list without points *)
Definition polygon_mesh (axis : nat) (m : vmesh) : res (fmesh pt frow) :=
  match vm_points m with
  | [] => Err ValueError
  | points => Ok (mkF (map (insert_axis axis) points)
                      (map (fun c => (face_type (length c), c)) (vm_cells m))
                      (combine (vm_groups m) (vm_xyz m)))
  end.

(* what VTK provides; [k_center] is the center of a cell with these points, [k_tidy] the clean() of
   fuse_cells and [k_clean] that of _clean *)
Record vtools := mkVT {
  k_center : list pt -> pt;
  k_dimension : fmesh pt frow -> list nat -> nat;
  k_boundary : fmesh pt frow -> list nat -> list (list pt);
  k_tidy : list pt * list fcell -> list pt * list fcell;
  k_clean : list pt * list fcell -> list pt * list fcell }.

(* 503: get_cell_centers *)
Definition cell_points (m : fmesh pt frow) (c : fcell) : list pt :=
  map (fun i => nth i (f_pts m) (0, 0, 0)%R) (snd c).

(* 504 and np.flatnonzero (utils/_misc.py:615): cells with their center in the circle *)
Definition selected (t : vtools) (m : fmesh pt frow) (func : pt -> bool) : list nat :=
  mask_get (map (fun c => func (k_center t (cell_points m c))) (f_cells m)) (seq 0 (length (f_cells m))).

Definition cleaned (clean : list pt * list fcell -> list pt * list fcell) (m : fmesh pt frow) : fmesh pt frow :=
  let '(pts, cells) := clean (f_pts m, f_cells m) in mkF pts cells (f_data m).

(* the mesh returned: points, cells, CellGroup, X, Y, Z and the table of groups *)
Record vreturned := mkVR {
  vr_pts : list pt; vr_cells : list fcell; vr_groups : list Z; vr_xyz : list pt; vr_labels : dict }.

(* 501-507 and core/_base.py:201-230 *)
Definition finish_voronoi (t : vtools) (fuse : list (pt -> bool)) (m : fmesh pt frow) (groups : dict)
  : res vreturned :=
  let! m := (match fuse with
             | [] => Ok m
             | _ => let! f := fuse_cells pt frow same_point (k_dimension t m) (k_boundary t m) m (map (selected t m) fuse) in
                    Ok (cleaned (k_tidy t) f)
             end) in
  let m := cleaned (k_clean t) m in
  let! cl := clean_groups (Some (map fst (f_data m))) (Some groups) in
  let '(cg, labels) := cl in
  Ok (mkVR (f_pts m) (f_cells m) (match cg with Some v => v | None => map fst (f_data m) end)
           (map snd (f_data m)) (match labels with Some d => d | None => groups end)).

(* core/voronoi.py:324-507 *)
Definition generate_voronoi {A} (g : vgeo A) (o : options) (b : vbase A) (items : list (vitem A))
  (fuse : list (pt -> bool)) (vo : voptions) (t : vtools) : res vreturned :=
  let! m := voronoi_mesh g o b items vo in
  let! f := polygon_mesh (v_axis vo) m in
  finish_voronoi t fuse f (vm_labels m).

(* the same with the items and functions left by add, add_circle and add_polyline *)
Definition generate_seeds (g : vgeo cell) (o : options) (b : vbase cell) (s : seeds) (vo : voptions) (t : vtools)
  : res vreturned :=
  generate_voronoi g o b (s_items s) (s_fuse s) vo t.
