(* Model of MeshBase._clean (core/_base.py:201-230) on structured grids and of the meshes
   returned by generate_mesh (core/_base.py:505-511, core/extrude.py:199-205). *)
From Verif Require Export Stack_model.
Open Scope nat_scope.

(* core/_base.py:208-210: the ghost array is dropped when no cell is flagged; [] stands for
   its absence *)
Definition clean_ghost (ghost : list nat) : list nat :=
  if forallb (Nat.eqb 0) ghost then [] else ghost.

(* core/_base.py:201-230 on a structured grid (205-206 only concerns unstructured grids).
   [int] reads the numbers of "CellGroup" back and [num] writes them; [labels] is
   mesh.user_dict["CellGroup"]. *)
Definition clean_grid {D} (num : Z -> D) (int : D -> Z) (g : sgrid D) (labels : option dict)
  : res (sgrid D * option dict) :=
  let ghost := clean_ghost (sg_ghost g) in
  let! cl := clean_groups (option_map (map int) (lookup "CellGroup" (sg_cd g))) labels in
  let '(cg, labels') := cl in
  let cd := match cg with
            | Some v => aput "CellGroup" (map num v) (sg_cd g)
            | None => sg_cd g end in
  Ok (mkSgrid (sg_dims g) (sg_pts g) (sg_pd g) cd ghost, labels').

(* core/_base.py:506-511: the group table is attached to the merged mesh, which is cleaned *)
Definition finish {D} (num : Z -> D) (int : D -> Z) (g : sgrid D) (groups : dict)
  : res (sgrid D * dict) :=
  let! r := clean_grid num int g (Some groups) in
  let '(g', labels) := r in
  Ok (g', match labels with Some t => t | None => groups end).

(* core/stack.py:248-261, structured base mesh: the mesh returned, its group table and the
   items after the call *)
Definition stack3d_mesh {D} (num : Z -> D) (int : D -> Z) (volumes : shape3 -> list pt -> list R)
  (o : options) (ax : nat) (bottom_up : bool) (items : list (item (sbase D)))
  : res (sgrid D * dict * list (item (sbase D))) :=
  let! r := stack3d_structured num volumes o ax bottom_up items in
  let '(g, groups, _, js) := r in
  let! f := finish num int g groups in
  let '(g', labels) := f in Ok (g', labels, js).

(* core/extrude.py:152-205, structured base mesh: the mesh returned and its group table *)
Definition extrude_mesh {D} (num : Z -> D) (int : D -> Z) (volumes : shape3 -> list pt -> list R)
  (o : options) (items : list (item (sbase D))) : res (sgrid D * dict) :=
  let! r := extrude_structured num volumes o items in
  let '(g, groups, _) := r in finish num int g groups.

(* core/stack.py:76-93: the mesh returned by a stack of lines without transition *)
Definition stack2d_mesh {D} (num : Z -> D) (int : D -> Z) (areas : shape3 -> list pt -> list R)
  (o : options) (ax : nat) (bottom_up : bool) (items : list (item (lbase D)))
  : res (sgrid D * dict * list (item (lbase D))) :=
  let! r := stack2d num areas o ax bottom_up items in
  let '(g, groups, _, js) := r in
  let! f := finish num int g groups in
  let '(g', labels) := f in Ok (g', labels, js).
