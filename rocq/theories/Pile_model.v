(* Model of the class MeshStack3D as a sequence of calls (core/stack.py:154-261, core/_base.py:278-429), structured base mesh. *)
From Coq Require Import Reals.
From Verif Require Export Stack_model Final_model.

(* arguments of one call of MeshStackBase.add (core/_base.py:308-317) *)
Record st_call := mkStCall { sc_arg : add_arg; sc_opts : add_opts }.

(* core/_base.py:308-429: add called again and again *)
Fixpoint stack_calls {M B} (ops : mesh_ops M B) (ax : nat) (bottom_up : bool)
  (interpolate : list pt -> list pt -> res (list R)) (st : stack M) (l : list st_call) : res (stack M) :=
  match l with
  | [] => Ok st
  | c :: l' =>
      let! st' := stack_add ops ax bottom_up interpolate st (sc_arg c) (sc_opts c) in
      stack_calls ops ax bottom_up interpolate st' l'
  end.

(* MeshStack3D(mesh, axis, bottom_up, ...).add(...) ... .generate_mesh(); core/stack.py:167-180 for the checks of the mesh.
   Images and rectilinear grids are cast to structured grids (core/_base.py:295-296). *)
Definition stack3d_program {D} (num : Z -> D) (int : D -> Z) (volumes : shape3 -> list pt -> list R)
  (interpolate : list pt -> list pt -> res (list R)) (o : options) (axis : Z) (bottom_up : bool)
  (m : sbase D) (l : list st_call) : res (sgrid D * dict) :=
  if negb (structured_dimension (ss_dims (sb_surf m)) =? 2)%nat then Err ValueError
  else
    let! ma := stack_init m (Some (ss_dims (sb_surf m))) axis in
    let '(mesh, ax) := ma in
    let! st := stack_calls (sops num) ax bottom_up interpolate (mkStack mesh [] false) l in
    let! r := stack3d_mesh num int volumes o ax bottom_up (st_items st) in
    let '(g, labels, _) := r in Ok (g, labels).
