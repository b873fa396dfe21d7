(* Model of the class MeshStack3D as a sequence of calls (core/stack.py:154-261, core/_base.py:278-429), unstructured base mesh. *)
From Coq Require Import Reals.
From Verif Require Export Pile_model Unstr_model.
From Verif Require Import Topo_model.

(* MeshStack3D(mesh, axis, bottom_up, ...).add(...) ... .generate_mesh(tolerance, invert); core/stack.py:167-180 for the checks
   of the mesh, get_dimension as in Topo_model on the types of the cells *)
Definition stack3d_uprogram {D} (num : Z -> D) (int : D -> Z) (interpolate : list pt -> list pt -> res (list R)) (o : options)
  (pvmerge : list (uvol D) -> res (uvol D)) (clean : uvol D -> uvol D) (axis : Z) (bottom_up invert : bool)
  (m : ubase D) (l : list st_call) : res (uvol D * dict) :=
  let! dim := get_dimension (DCells (mkV (map fst (us_cells (ub_surf m))) [] [] [])) in
  if negb (dim =? 2)%Z then Err ValueError                                              (* 174-175 *)
  else
    let! ma := stack_init m None axis in                                                (* 182 *)
    let '(mesh, ax) := ma in
    let! st := stack_calls (uops num) ax bottom_up interpolate (mkStack mesh [] false) l in
    let! r := stack3d_umesh num int o ax bottom_up invert pvmerge clean (st_items st) in
    let '(g, labels, _) := r in Ok (g, labels).
