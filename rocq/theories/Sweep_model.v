(* Model of the class MeshExtrude as a sequence of calls (core/extrude.py:43-205), structured base mesh. *)
From Coq Require Import Reals.
From Verif Require Export Stack_model Final_model.

(* arguments of one call of MeshExtrude.add (core/extrude.py:68-76) *)
Record ex_call := mkCall {
  ec_vector : list R; ec_res : resolution; ec_method : option string;
  ec_scale : option R; ec_angle : option R; ec_group : group_arg nat }.

(* core/extrude.py:43-66, structured grids; images and rectilinear grids are cast to structured grids (58-59) *)
Definition extrude_init {D} (m : sbase D) : res (list (item (sbase D))) :=
  if negb (structured_dimension (ss_dims (sb_surf m)) =? 2)%nat then Err ValueError
  else Ok [mkItem m ResNone None 0%Z 0 GNone false].

(* core/extrude.py:119-140: the last mesh is copied and moved *)
Definition extrude_call {D} (num : Z -> D) (scale angle : option R) (items : list (item (sbase D))) (c : ex_call)
  : res (list (item (sbase D))) :=
  match rev items with
  | [] => Err IndexError
  | last :: _ =>
      let! q := extrude_add scale angle (getp (sops num) (it_mesh last)) (ec_vector c) (ec_scale c) (ec_angle c) in
      Ok (items ++ [mkItem (setp (sops num) q (it_mesh last)) (ec_res c) (ec_method c) 0%Z 0 (ec_group c) false])
  end.

Fixpoint extrude_calls {D} (num : Z -> D) (scale angle : option R) (items : list (item (sbase D))) (l : list ex_call)
  : res (list (item (sbase D))) :=
  match l with
  | [] => Ok items
  | c :: l' => let! items' := extrude_call num scale angle items c in extrude_calls num scale angle items' l'
  end.

(* MeshExtrude(mesh, scale, angle, ...).add(...) ... .generate_mesh() *)
Definition extrude_program {D} (num : Z -> D) (int : D -> Z) (volumes : shape3 -> list pt -> list R) (o : options)
  (scale angle : option R) (m : sbase D) (l : list ex_call) : res (sgrid D * dict) :=
  let! items := extrude_init m in
  let! items := extrude_calls num scale angle items l in
  extrude_mesh num int volumes o items.
