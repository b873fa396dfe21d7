(* Model of the meshes returned by MeshStack2D with transitions: merge (utils/_misc.py:915-988) of grids and of meshes of
   gmsh, and _clean (core/_base.py:201-230).  pv.merge and UnstructuredGrid.clean are VTK filters, given as parameters. *)
From Coq Require Import Reals.
From Verif Require Export Pile4_model Unstr_model.
From Verif Require Import Lines_model Polygon_model.
Open Scope nat_scope.

(* the quadrilaterals of a flat structured grid, in the order of its cells; (a, b) are the numbers of points along the two
   directions of the plane *)
Definition plane_dims (d : shape3) : nat * nat :=
  let '(nx, ny, nz) := d in if nz =? 1 then (nx, ny) else if ny =? 1 then (nx, nz) else (ny, nz).
Definition plane_quads (a b : nat) : list (list nat) :=
  flat_map (fun j => map (fun i => [i + a * j; S i + a * j; S i + a * S j; i + a * S j]) (seq 0 (a - 1))) (seq 0 (b - 1)).

(* What pv.merge reads: flat grids are cast to unstructured grids of quadrilaterals (9); cells of gmsh are triangles (5) or
   quadrilaterals, without ghost flags and point arrays.  core/geometric_objects.py:628-641 for the latter. *)
Definition cast_block {D} (b : block D) : uvol D :=
  match b with
  | BGrid g =>
      let cells := plane_quads (fst (plane_dims (sg_dims g))) (snd (plane_dims (sg_dims g))) in
      mkUvol (sg_pts g) (flat_map (fun c => 4 :: c) cells) (map (fun _ => 9) cells) (sg_pd g) (sg_cd g) (sg_ghost g) []
  | BTri pts tris cd =>
      mkUvol pts (flat_map (fun c => length c :: map Z.to_nat c) tris)
        (map (fun c : list Z => if length c =? 3 then 5 else 9) tris) [] cd [] []
  end.

(* utils/_misc.py:915-988: a grid, or an unstructured mesh *)
Definition merge_mixed {D} (pvmerge : list (uvol D) -> res (uvol D)) (ax : nat) (bs : list (block D)) : res (sgrid D + uvol D) :=
  match bs with
  | [] => Err IndexError                                                   (* dataset[0] *)
  | [BGrid g] => Ok (inl g)                                                (* 915-916 *)
  | [BTri _ _ _ as b] => Ok (inr (cast_block b))
  | _ => match grids_of bs with
         | Some gs => let! g := merge_structured gs (Some ax) in Ok (inl g)     (* 918-983 *)
         | None => let! g := pvmerge (map cast_block bs) in Ok (inr g)          (* 985-986 *)
         end
  end.

(* core/_base.py:201-230 and 506-511 *)
Definition finish_mixed {D} (num : Z -> D) (int : D -> Z) (clean : uvol D -> uvol D) (m : sgrid D + uvol D) (groups : dict)
  : res ((sgrid D + uvol D) * dict) :=
  match m with
  | inl g => let! r := finish num int g groups in Ok (inl (fst r), snd r)
  | inr g => let! r := finish_unstructured num int clean g groups in Ok (inr (fst r), snd r)
  end.

(* core/_base.py:434-511 with core/stack.py:76-104; Stack_model stack_generate with the two kinds of merged meshes *)
Definition mixed_generate {D} (num : Z -> D) (int : D -> Z) (gm : gmsh) (result : list gop -> gmsh_mesh)
  (areas : shape3 -> list pt -> list R) (pvmerge : list (uvol D) -> res (uvol D)) (clean : uvol D -> uvol D)
  (o : options) (ax : nat) (bottom_up : bool) (items : list (item (lbase D))) : res ((sgrid D + uvol D) * dict) :=
  match items with
  | [] | [_] => Err ValueError                                             (* 441-442 *)
  | i1 :: rest =>
      let! js := cut_loop (tops num) ax bottom_up i1 rest in               (* 444-460 *)
      match js with
      | [] => Err ValueError (* impossible *)
      | j1 :: rest' =>
          let! r := gen_loop (tops num) o "StackItem"
                      (fun a b r m => let! g := generate_surface_from_two_lines areas (LinePoly (lb_line a))
                                                  (LinePoly (lb_line b)) (stack2d_plane ax) r m in Ok (BGrid g))
                      (transition num gm result o) 0 0 [] j1 rest' in      (* 462-503 *)
          let '(bs, groups, _) := r in
          let! m := merge_mixed pvmerge ax bs in                           (* 506 *)
          finish_mixed num int clean m groups                              (* 507-511 *)
      end
  end.

(* MeshStack2D(mesh, axis, bottom_up, ...), calls of add and set_transition, generate_mesh(tolerance): the mesh returned and
   its table of groups.  [clean] is mesh.clean with the tolerance. *)
Definition transition_mesh {D} (num : Z -> D) (int : D -> Z) (gm : gmsh) (result : list gop -> gmsh_mesh) other
  (areas : shape3 -> list pt -> list R) (pvmerge : list (uvol D) -> res (uvol D)) (clean : uvol D -> uvol D)
  (interpolate : list pt -> list pt -> res (list R)) (o : options) (axis : Z) (bottom_up : bool)
  (arg : list R + lmesh pt D) (l : list (tr_call D)) : res ((sgrid D + uvol D) * dict) :=
  let! ai := transition_items num int other interpolate axis bottom_up arg l in
  let '(ax, items) := ai in
  mixed_generate num int gm result areas pvmerge clean o ax bottom_up items.
