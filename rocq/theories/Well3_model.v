(* Model of examples/examples.py load_well_3d without voronoi. *)
From Coq Require Import Reals.
From Verif Require Export Well_model Sweep2_model.
From Verif Require Import Topo_model.
Open Scope R_scope.

(* cells of types other than polyhedron in a VTK stream: their numbers of points, then their points *)
Fixpoint flat_cells (types stream : list nat) : res (list (nat * list nat)) :=
  match types, stream with
  | [], _ => Ok []
  | ty :: types', n :: s =>
      let! r := flat_cells types' (skipn n s) in Ok ((ty, firstn n s) :: r)
  | _ :: _, [] => Err ValueError
  end.

(* an unstructured grid of flat cells as the base mesh of an extrusion: vtkGhostType is absent when there is no flag,
   the group numbers are those of CellGroup *)
Definition as_ubase {D} (int : D -> Z) (g : uvol D) (labels : dict) : res (ubase D) :=
  let! cells := flat_cells (uv_types g) (uv_stream g) in
  Ok (mkUbase (mkUsurf (uv_pts g) cells (uv_pd g) (uv_cd g) (match uv_ghost g with [] => None | gh => Some gh end))
        (option_map (map int) (lookup "CellGroup"%string (uv_cd g))) (Some labels)).

(* utils/_misc.py:483-529 with a mask, on unstructured grids.  [pick ids g] is mesh.extract_cells (VTK) on the mesh
   without its ghost array, without the arrays vtkOriginalCellIds and vtkOriginalPointIds that it adds. *)
Definition without_ghost {D} (g : uvol D) : uvol D :=
  mkUvol (uv_pts g) (uv_stream g) (uv_types g) (uv_pd g) (uv_cd g) [] (uv_input_cells g).
Definition extract_mask {D} (pick : list nat -> uvol D -> uvol D) (mask : list bool) (g : uvol D) : uvol D :=
  let ids := mask_ids mask in
  let r := pick ids (without_ghost g) in                                                 (* 513-518 *)
  mkUvol (uv_pts r) (uv_stream r) (uv_types r) (uv_pd r) (uv_cd r)
    (match uv_ghost g with [] => [] | gh => mask_get mask gh end) (uv_input_cells r).    (* 520-523 *)

(* x["CellGroup"] in {a, b}, examples/examples.py:199-201; the meshes given to it have group numbers *)
Definition either_group (a b : Z) (x : gmesh nat) : npmask :=
  match gm_cg x with
  | Some cg => MBool (map (fun n => (n =? a)%Z || (n =? b)%Z)%bool cg)
  | None => MBool []
  end.

Section Well.
Context {D : Type} (num : Z -> D) (int : D -> Z) (areas : shape3 -> list pt -> list R).
Context (pvmerge : list (uvol D) -> res (uvol D)) (clean : R -> uvol D -> uvol D) (pick : list nat -> uvol D -> uvol D).

(* examples/examples.py:197-213.  The table of groups (user_dict) is assumed to be kept by extract_cells. *)
Definition raise_well (m : ubase D) (groups : dict) : res (uvol D * dict) :=
  let m := setp (uops num) (map (fun '(x, y, _) => (x, y, - 30)) (getp (uops num) m)) m in (* 197 *)
  match dget "Cement" groups, dget "Matrix" groups with
  | Some a, Some b =>
      let! q := extrude_uprogram num int (mk_options "" []) pvmerge (clean (/ 10 ^ 8)) None None m
                  [mkCall [0; 0; 30] (ResInt 10) None None None GNone;
                   mkCall [0; 0; 3] (ResInt 3) None None None (GDict [("Inactive", SelCall (either_group a b))])] in (* 203-208 *)
      let '(g, labels) := q in
      match lookup "CellGroup"%string (uv_cd g), dget "Inactive" labels with
      | Some cg, Some n => Ok (extract_mask pick (map (fun x => negb (int x =? n)%Z) cg) g, labels) (* 209-213 *)
      | _, _ => Err KeyError
      end
  | _, _ => Err KeyError
  end%string.

(* examples/examples.py:184-215 *)
Definition load_well_3d : res (uvol D * dict) :=
  let! r := load_well_2d num int areas pvmerge clean in                                  (* 196 *)
  let '(g2, groups) := r in
  let! m := as_ubase int g2 groups in
  raise_well m groups.
End Well.
