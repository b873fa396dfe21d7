From Verif Require Import RealAux Perc_model Perc_spec Surface_model Surface_spec
  Volume_model Volume_spec SMerge_model SMerge_spec Groups_model Groups_spec
  Stack_model Stack_spec Stack3_proof Stack6_proof Final_model Final_spec Final4_proof Final_props Nodes_spec Nodes_proof.
From Coq Require Import Lra.
Open Scope nat_scope.

(* C159: the points of the mesh returned by a stack or an extrusion of structured surfaces *)
Theorem C159_stack_nodes :
  forall (D : Type) (num : Z -> D) (int : D -> Z) volumes o ax bu d items g labels js,
  ax <= 2 -> unit_along ax d ->
  Forall (fun i => wf_base d (it_mesh i)) items ->
  Forall (fun it => it_trans it = false) (tl items) ->
  stack3d_mesh num int volumes o ax bu items = Ok (g, labels, js) ->
  Forall2 (only_points (sops num)) items js /\
  exists nsubs, layer_counts (tl items) nsubs /\ nodes_follow ax d js nsubs g.
Proof. exact @stack_nodes. Qed.
Print Assumptions C159_stack_nodes.

Theorem C159_extrude_nodes :
  forall (D : Type) (num : Z -> D) (int : D -> Z) volumes o ax d items g labels,
  ax <= 2 -> unit_along ax d ->
  Forall (fun i => wf_base d (it_mesh i)) items ->
  Forall (fun it => it_trans it = false) (tl items) ->
  extrude_mesh num int volumes o items = Ok (g, labels) ->
  exists nsubs, layer_counts (tl items) nsubs /\ nodes_follow ax d items nsubs g.
Proof. exact @extrude_nodes. Qed.
Print Assumptions C159_extrude_nodes.

Theorem C159_stack_even :
  forall (D : Type) (num : Z -> D) (int : D -> Z) volumes o ax bu d items ns g labels js,
  ax <= 2 -> unit_along ax d ->
  Forall (fun i => wf_base d (it_mesh i)) items ->
  Forall (fun it => it_trans it = false) (tl items) -> Forall2 even_item (tl items) ns ->
  stack3d_mesh num int volumes o ax bu items = Ok (g, labels, js) ->
  Forall2 (only_points (sops num)) items js /\ nodes_even ax d js ns g.
Proof. exact @stack_even. Qed.
Print Assumptions C159_stack_even.

Theorem C159_extrude_even :
  forall (D : Type) (num : Z -> D) (int : D -> Z) volumes o ax d items ns g labels,
  ax <= 2 -> unit_along ax d ->
  Forall (fun i => wf_base d (it_mesh i)) items ->
  Forall (fun it => it_trans it = false) (tl items) -> Forall2 even_item (tl items) ns ->
  extrude_mesh num int volumes o items = Ok (g, labels) -> nodes_even ax d items ns g.
Proof. exact @extrude_even. Qed.
Print Assumptions C159_extrude_even.

Lemma fx_even : Forall2 even_item (tl fx_items) [2; 2].
Proof. do 2 (constructor; [split; [reflexivity|right; exists 2%Z; split; reflexivity]|]). constructor. Qed.

(* the node in the middle of the second item *)
Example C159_example : exists g labels, extrude_mesh zz zz fx_volumes cx_opt fx_items = Ok (g, labels) /\
  sg_dims g = (3, 2, 5) /\ at_coord (3, 2, 5) (sg_pts g) (1, 1, 3) = Some (1, 1, 3 / 2)%R.
Proof.
  destruct fx_extrude as (g & labels & H). exists g, labels. split; [exact H|].
  destruct fx_all as [Hw _].
  destruct (C159_extrude_even Z zz zz fx_volumes cx_opt 2 (3, 2, 1) fx_items [2; 2] g labels
    (le_n 2) fx_unit Hw fx_trans fx_even H) as (Hd & _ & HN).
  split; [exact Hd|].
  pose proof (HN 1 _ _ 2 (1, 1, 0) 1 _ _ _ _ _ _ eq_refl eq_refl eq_refl ltac:(lia) ltac:(unfold in_shape; cbn; lia) eq_refl eq_refl) as E.
  rewrite Hd in E. cbn [firstn list_sum fold_right Nat.add setc] in E. rewrite E. cbn [INR]. f_equal.
  apply injective_projections; [apply injective_projections|]; cbn [fst snd]; lra.
Qed.
