(* Model of the class MeshExtrude as a sequence of calls (core/extrude.py:43-205), unstructured base mesh. *)
From Coq Require Import Reals.
From Verif Require Export Sweep_model Unstr_model.
From Verif Require Import Topo_model.

(* core/extrude.py:43-66, unstructured grids; get_dimension as in Topo_model, on the types of the cells *)
Definition extrude_uinit {D} (m : ubase D) : res (list (item (ubase D))) :=
  let! dim := get_dimension (DCells (mkV (map fst (us_cells (ub_surf m))) [] [] [])) in
  if negb (dim =? 2)%Z then Err ValueError
  else Ok [mkItem m ResNone None 0%Z 0 GNone false].

(* core/extrude.py:119-140: the last mesh is copied and moved *)
Definition extrude_ucall {D} (num : Z -> D) (scale angle : option R) (items : list (item (ubase D))) (c : ex_call)
  : res (list (item (ubase D))) :=
  match rev items with
  | [] => Err IndexError
  | last :: _ =>
      let! q := extrude_add scale angle (getp (uops num) (it_mesh last)) (ec_vector c) (ec_scale c) (ec_angle c) in
      Ok (items ++ [mkItem (setp (uops num) q (it_mesh last)) (ec_res c) (ec_method c) 0%Z 0 (ec_group c) false])
  end.

Fixpoint extrude_ucalls {D} (num : Z -> D) (scale angle : option R) (items : list (item (ubase D))) (l : list ex_call)
  : res (list (item (ubase D))) :=
  match l with
  | [] => Ok items
  | c :: l' => let! items' := extrude_ucall num scale angle items c in extrude_ucalls num scale angle items' l'
  end.

(* MeshExtrude(mesh, scale, angle, ...).add(...) ... .generate_mesh() *)
Definition extrude_uprogram {D} (num : Z -> D) (int : D -> Z) (o : options) (pvmerge : list (uvol D) -> res (uvol D))
  (clean : uvol D -> uvol D) (scale angle : option R) (m : ubase D) (l : list ex_call) : res (uvol D * dict) :=
  let! items := extrude_uinit m in
  let! items := extrude_ucalls num scale angle items l in
  extrude_umesh num int o pvmerge clean items.
