(* Model of MeshStack2D (core/stack.py:14-131) with transition items. *)
From Coq Require Import Reals.
From Verif Require Export Prelude.
From Verif Require Import Grid Perc_model Surface_model SMerge_model Groups_model Lines_model Polygon_model Stack_model.
Open Scope nat_scope.

(* A block of the stack: a structured grid between two lines, or the mesh of a transition. *)
Inductive block (D : Type) :=
| BGrid (g : sgrid D)
| BTri (pts : list pt) (cells : list (list Z)) (cd : list (string * list D)).
Arguments BGrid {D}. Arguments BTri {D}.

(* points as the rows of an array of three columns *)
Definition row (p : pt) : list R := let '(x, y, z) := p in [x; y; z].

(* core/stack.py:100: np.vstack((mesh_a.points, mesh_b.points[::-1])) *)
Definition transition_ring {D} (a b : lbase D) : list (list R) :=
  map row (ln_pts (lb_line a) ++ rev (ln_pts (lb_line b))).

Section T.
Context {D : Type} (num : Z -> D).
(* gmsh and its meshes, as in Polygon_model *)
Context (gm : gmsh) (result : list gop -> gmsh_mesh).

(* meshes of lines and blocks: Stack_model lops, with two kinds of blocks *)
Definition tops : mesh_ops (lbase D) (block D) := mkOps
  (getp (lops num)) (setp (lops num)) (ncM (lops num)) (gview (lops num)) (set_cg (lops num))
  (fun b => match b with
            | BGrid g => ncB (lops num) g
            | BTri _ cells _ => length cells
            end)
  (fun k v b => match b with
                | BGrid g => BGrid (put_ids (lops num) k v g)
                | BTri p c cd => BTri p c (aput k (map num v) cd)
                end).

(* core/stack.py:95-104.  Polygon(points, celltype="triangle"): default cellsize, optimization
   and engine.  The mesh of gmsh has no group yet. *)
Definition transition (o : options) (a b : lbase D) (groups : dict) (group : group_arg nat)
  : res (block D * dict) :=
  let! m := snd (polygon gm result false None "gmsh" (Some "triangle"%string) (transition_ring a b) []) in
  match m with
  | OneCell _ _ => Err ValueError                                          (* not for triangles *)
  | Meshed pts cells =>
      let tris := flat_map snd cells in
      let! ag := initialize_group_array o (mkG (seq 0 (length tris)) None None) groups group "" in (* 102 *)
      Ok (BTri pts tris [("CellGroup"%string, map num (fst ag))], snd ag)
  end.

(* utils/_misc.py:915-988: one mesh is returned as it is, structured grids are merged along the
   axis, other meshes are given to pv.merge (VTK, [pvmerge]) *)
Fixpoint grids_of (bs : list (block D)) : option (list (sgrid D)) :=
  match bs with
  | [] => Some []
  | BGrid g :: bs' => option_map (cons g) (grids_of bs')
  | BTri _ _ _ :: _ => None
  end.

Definition merge_blocks (pvmerge : list (block D) -> res (block D)) (ax : nat) (bs : list (block D))
  : res (block D) :=
  match bs with
  | [] => Err IndexError                                                   (* dataset[0] *)
  | [b] => Ok b                                                            (* 915-916 *)
  | _ => match grids_of bs with
         | Some gs => let! g := merge_structured gs (Some ax) in Ok (BGrid g)  (* 918-983 *)
         | None => pvmerge bs                                              (* 985-986 *)
         end
  end.

(* core/stack.py:76-93 with core/_base.py:434-511, up to _clean *)
Definition stack2d_generate (areas : shape3 -> list pt -> list R) (pvmerge : list (block D) -> res (block D))
  (o : options) (ax : nat) (bottom_up : bool) (items : list (item (lbase D)))
  : res (block D * dict * nat * list (item (lbase D))) :=
  stack_generate tops o ax bottom_up
    (fun a b r m => let! g := generate_surface_from_two_lines areas (LinePoly (lb_line a))
                                (LinePoly (lb_line b)) (stack2d_plane ax) r m in Ok (BGrid g))
    (transition o) (merge_blocks pvmerge ax) items.

(* ---- building a stack: a sequence of calls (core/_base.py:309-429, core/stack.py:106-131) ---- *)
(* set_transition with a line: split_lines(mesh)[0] *)
Inductive build_op :=
| OpAdd (arg : add_arg) (ao : add_opts)
| OpTransition (m : lbase D).

Definition run_op (ax : nat) (bottom_up : bool) (interpolate : list pt -> list pt -> res (list R))
  (st : stack (lbase D)) (op : build_op) : res (stack (lbase D)) :=
  match op with
  | OpAdd arg ao => stack_add tops ax bottom_up interpolate st arg ao
  | OpTransition m => Ok (set_transition m st)
  end.

Fixpoint run_ops ax bottom_up interpolate (st : stack (lbase D)) (l : list build_op) : res (stack (lbase D)) :=
  match l with
  | [] => Ok st
  | op :: l' => let! st := run_op ax bottom_up interpolate st op in run_ops ax bottom_up interpolate st l'
  end.
End T.
Arguments OpAdd {D}. Arguments OpTransition {D}.

(* ---- base line ---- *)
(* core/stack.py:60-73: a polydata without lines is rejected; the first line of the others *)
Definition base_line {D} (m : lmesh pt D) : res (lmesh pt D) :=
  if length (l_cells m) =? 0 then Err ValueError
  else let! ls := split_lines true m in at_res ls 0.
(* core/stack.py:128: split_lines(mesh)[0] *)
Definition transition_line {D} (m : lmesh pt D) : res (lmesh pt D) :=
  let! ls := split_lines true m in at_res ls 0.
