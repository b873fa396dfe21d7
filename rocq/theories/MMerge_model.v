(* Model of the mesh returned by MeshMerge.generate_mesh (core/merge.py:74-110): points, cells, cell data and
   groups.  pv.merge and UnstructuredGrid.clean are VTK filters, given as parameters. *)
From Verif Require Export Groups_model Unstr_model.
Open Scope nat_scope.

(* core/merge.py:62-71: a mesh as an unstructured grid (its cells, points and data) with the table of groups of
   its user_dict; the default group of the item, "" for None *)
Record mmesh (D : Type) := mkMM { mm_vol : uvol D; mm_labels : option dict }.
Arguments mkMM {D}. Arguments mm_vol {D}. Arguments mm_labels {D}.
Notation mitem D := (mmesh D * string)%type.

(* the part of the mesh that _initialize_group_array reads *)
Definition group_view {D} (int : D -> Z) (m : mmesh D) : gmesh nat :=
  mkG (seq 0 (length (uv_types (mm_vol m)))) (option_map (map int) (lookup "CellGroup"%string (uv_cd (mm_vol m)))) (mm_labels m).

(* core/merge.py:96-98: CellGroup is overwritten in place *)
Definition with_groups {D} (num : Z -> D) (arr : list Z) (g : uvol D) : uvol D :=
  mkUvol (uv_pts g) (uv_stream g) (uv_types g) (uv_pd g) (aput "CellGroup"%string (map num arr) (uv_cd g))
    (uv_ghost g) (uv_input_cells g).

(* core/merge.py:94-104 *)
Fixpoint merge_meshes {D} (num : Z -> D) (int : D -> Z) (o : options) (pvmerge : list (uvol D) -> res (uvol D))
  (items : list (mitem D)) (acc : option (uvol D)) (groups : dict) : res (option (uvol D) * dict) :=
  match items with
  | [] => Ok (acc, groups)
  | (mesh, group) :: its =>
      let! ag := initialize_group_array o (group_view int mesh) groups GNone group in   (* 96-98 *)
      let '(arr, groups) := ag in
      let b := with_groups num arr (mm_vol mesh) in
      let! g := (match acc with
                 | Some a => pvmerge [a; b]                                             (* 100-101 *)
                 | None => Ok b                                                         (* 103-104 *)
                 end) in
      merge_meshes num int o pvmerge its (Some g) groups
  end.

(* core/merge.py:74-110 *)
Definition merge_mesh {D} (num : Z -> D) (int : D -> Z) (o : options) (pvmerge : list (uvol D) -> res (uvol D))
  (clean : uvol D -> uvol D) (items : list (mitem D)) : res (uvol D * dict) :=
  let! r := merge_meshes num int o pvmerge items None [] in
  match r with
  | (Some g, groups) => finish_unstructured num int clean g groups                      (* 106-110 *)
  | (None, _) => Err ValueError                                                         (* 89-90 *)
  end.
