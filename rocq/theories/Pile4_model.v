(* Model of the class MeshStack2D as a sequence of calls with transitions (core/stack.py:23-131, core/_base.py:278-511), up
   to _clean (core/_base.py:510), which is left out: on unstructured meshes it starts with the clean filter of VTK. *)
From Coq Require Import Reals.
From Verif Require Export Pile3_model Trans_model.
From Verif Require Import Lines_model Polygon_model Objects_model.
Open Scope nat_scope.

(* one call: add (core/_base.py:308-429) or set_transition (core/stack.py:106-131) *)
Inductive tr_call (D : Type) :=
| TrAdd (c : st_call)
| TrSet (mesh_or_resolution : Z + lmesh pt D).
Arguments TrAdd {D}. Arguments TrSet {D}.

(* core/_base.py:308-429, core/stack.py:106-131.  The points of the current base line are those of the mesh of the stack. *)
Definition tr_step {D} (num : Z -> D) (int : D -> Z) other (ax : nat) (bottom_up : bool)
  (interpolate : list pt -> list pt -> res (list R)) (st : stack (lbase D)) (c : tr_call D) : res (stack (lbase D)) :=
  match c with
  | TrAdd c => stack_add (tops num) ax bottom_up interpolate st (sc_arg c) (sc_opts c)
  | TrSet arg =>
      let! l := new_line other (mkL (ln_pts (lb_line (st_base st))) [] [] []) arg in      (* core/stack.py:122-128 *)
      Ok (set_transition (line_base int l) st)                                            (* 128-129 *)
  end.

Fixpoint tr_calls {D} (num : Z -> D) (int : D -> Z) other (ax : nat) (bottom_up : bool)
  (interpolate : list pt -> list pt -> res (list R)) (st : stack (lbase D)) (l : list (tr_call D)) : res (stack (lbase D)) :=
  match l with
  | [] => Ok st
  | c :: l' =>
      let! st' := tr_step num int other ax bottom_up interpolate st c in
      tr_calls num int other ax bottom_up interpolate st' l'
  end.

(* MeshStack2D(mesh, axis, bottom_up, ...) followed by calls of add and set_transition: the axis and the items *)
Definition transition_items {D} (num : Z -> D) (int : D -> Z) other (interpolate : list pt -> list pt -> res (list R)) (axis : Z)
  (bottom_up : bool) (arg : list R + lmesh pt D) (l : list (tr_call D)) : res (nat * list (item (lbase D))) :=
  let! line := stack2d_line (Z.to_nat axis) arg in                           (* core/stack.py:58-71 *)
  let! ma := stack_init (line_base int line) None axis in                    (* 73 *)
  let '(mesh, ax) := ma in
  let! st := tr_calls num int other ax bottom_up interpolate (mkStack mesh [] false) l in
  Ok (ax, st_items st).

(* The same calls followed by generate_mesh(): the merged mesh and the table of groups given to _clean.
   [gm], [result] are gmsh, [pvmerge] is pv.merge. *)
Definition transition_program {D} (num : Z -> D) (int : D -> Z) (gm : gmsh) (result : list gop -> gmsh_mesh) other
  (areas : shape3 -> list pt -> list R) (pvmerge : list (block D) -> res (block D))
  (interpolate : list pt -> list pt -> res (list R)) (o : options) (axis : Z) (bottom_up : bool)
  (arg : list R + lmesh pt D) (l : list (tr_call D)) : res (block D * dict) :=
  let! ai := transition_items num int other interpolate axis bottom_up arg l in
  let '(ax, items) := ai in
  let! r := stack2d_generate num gm result areas pvmerge o ax bottom_up items in         (* core/_base.py:434-507 *)
  let '(g, groups, _, _) := r in Ok (g, groups).
