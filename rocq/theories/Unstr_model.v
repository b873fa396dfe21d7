(* Model of the meshes returned by generate_mesh for unstructured base meshes: merge
   (utils/_misc.py:915-916 and 985-986) and MeshBase._clean (core/_base.py:201-230) on
   unstructured grids.  pv.merge and UnstructuredGrid.clean are VTK filters, given as
   parameters; UnstructuredGrid.clean is assumed to keep the field data (user_dict). *)
From Verif Require Export Stack_model Final_model.
Open Scope nat_scope.

(* utils/_misc.py:915-916, 985-986 *)
Definition merge_unstructured {D} (pvmerge : list (uvol D) -> res (uvol D)) (bs : list (uvol D)) : res (uvol D) :=
  match bs with
  | [] => Err IndexError                                                   (* dataset[0] *)
  | [b] => Ok b
  | _ => pvmerge bs
  end.

(* core/_base.py:201-230 and 506-511 on an unstructured grid; [clean] is mesh.clean with the
   tolerance of the call *)
Definition finish_unstructured {D} (num : Z -> D) (int : D -> Z) (clean : uvol D -> uvol D) (g : uvol D) (groups : dict)
  : res (uvol D * dict) :=
  let g := clean g in                                                      (* 205-206 *)
  let ghost := clean_ghost (uv_ghost g) in                                 (* 208-210 *)
  let! cl := clean_groups (option_map (map int) (lookup "CellGroup" (uv_cd g))) (Some groups) in (* 212-228 *)
  let '(cg, labels) := cl in
  let cd := match cg with
            | Some v => aput "CellGroup" (map num v) (uv_cd g)
            | None => uv_cd g end in
  Ok (mkUvol (uv_pts g) (uv_stream g) (uv_types g) (uv_pd g) cd ghost (uv_input_cells g),
      match labels with Some t => t | None => groups end).

(* core/stack.py:248-261 with core/_base.py:434-511, unstructured base mesh: the mesh returned, its
   group table and the items after the call *)
Definition stack3d_umesh {D} (num : Z -> D) (int : D -> Z) (o : options) (ax : nat) (bottom_up invert : bool)
  (pvmerge : list (uvol D) -> res (uvol D)) (clean : uvol D -> uvol D) (items : list (item (ubase D)))
  : res (uvol D * dict * list (item (ubase D))) :=
  let! r := stack3d_unstructured num o ax bottom_up invert (merge_unstructured pvmerge) items in
  let '(g, groups, _, js) := r in
  let! f := finish_unstructured num int clean g groups in
  let '(g', labels) := f in Ok (g', labels, js).

(* core/extrude.py:152-206, unstructured base mesh; 181-183: faces are inverted (default) *)
Definition extrude_umesh {D} (num : Z -> D) (int : D -> Z) (o : options)
  (pvmerge : list (uvol D) -> res (uvol D)) (clean : uvol D -> uvol D) (items : list (item (ubase D)))
  : res (uvol D * dict) :=
  let! r := extrude_unstructured num o true (merge_unstructured pvmerge) items in
  let '(g, groups, _) := r in finish_unstructured num int clean g groups.
