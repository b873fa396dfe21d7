(* Model of load_anticline_3d (examples/examples.py:36-52). *)
From Coq Require Import Reals.
From Verif Require Export Anticline_model Sweep_model.

(* A mesh returned by generate_mesh given to another class: its groups are the array "CellGroup" and the table kept in
   user_dict (core/_base.py:137-148 reads both). *)
Definition as_surface {D} (int : D -> Z) (r : sgrid D * dict) : sbase D :=
  let '(g, labels) := r in
  mkSbase (mkSsurf (sg_dims g) (sg_pts g) (sg_pd g) (sg_cd g)
             (match sg_ghost g with [] => None | gh => Some gh end))
          (option_map (map int) (lookup "CellGroup" (sg_cd g))) (Some labels).

(* examples/examples.py:48 *)
Definition load_anticline_3d {D} (num : Z -> D) (int : D -> Z) (areas volumes : shape3 -> list pt -> list R)
  interpolate arrays : res (sgrid D * dict) :=
  let! r := load_anticline_2d num int areas interpolate arrays in
  extrude_program num int volumes (mk_options "" []) None None (as_surface int r)
    [mkCall [0; 628 / 100; 0]%R (ResInt 10) None None None GNone].
