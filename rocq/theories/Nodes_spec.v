(* Specification vocabulary for the points of the meshes returned by stacks and extrusions of structured surfaces. *)
From Coq Require Import Reals.
From Verif Require Import Prelude Grid Surface_model Surface_spec Volume_spec SMerge_spec Stack_spec.
From Verif Require Import Stack_model.
Open Scope nat_scope.

(* The surfaces are layers of the grid and the points between two surfaces are at the positions of the subdivision;
   where two items meet, the points of the lower one are kept. *)
Definition nodes_follow {D} (ax : nat) (d : shape3) (items : list (item (sbase D))) (nsubs : list nat) (g : sgrid D) : Prop :=
  sg_dims g = setc ax (S (list_sum nsubs)) d /\ length (sg_pts g) = size3 (sg_dims g) /\
  forall j a b perc c k t p q, nth_error items j = Some a -> nth_error items (S j) = Some b ->
    resolution_to_perc (it_res b) (it_method b) = Ok perc -> nth_error perc k = Some t ->
    in_shape d c ->
    at_coord d (ss_pts (sb_surf (it_mesh a))) c = Some p -> at_coord d (ss_pts (sb_surf (it_mesh b))) c = Some q ->
    exists r, at_coord (sg_dims g) (sg_pts g) (setc ax (list_sum (firstn j nsubs) + k) c) = Some r /\
      near r (on_way t p q) /\ (j = 0 \/ 0 < k -> r = on_way t p q).

(* an item cut in n layers of equal thickness *)
Definition even_item {M} (it : item M) (n : nat) : Prop :=
  it_method it = None /\
  ((it_res it = ResNone /\ n = 1) \/ (exists z, it_res it = ResInt z /\ n = Z.to_nat (Z.max 1 z))).

(* Between two surfaces the points of a column are equally spaced, both surfaces included. *)
Definition nodes_even {D} (ax : nat) (d : shape3) (items : list (item (sbase D))) (ns : list nat) (g : sgrid D) : Prop :=
  sg_dims g = setc ax (S (list_sum ns)) d /\ length (sg_pts g) = size3 (sg_dims g) /\
  forall j a b n c k x y z x' y' z', nth_error items j = Some a -> nth_error items (S j) = Some b ->
    nth_error ns j = Some n -> k <= n -> in_shape d c ->
    at_coord d (ss_pts (sb_surf (it_mesh a))) c = Some (x, y, z) ->
    at_coord d (ss_pts (sb_surf (it_mesh b))) c = Some (x', y', z') ->
    at_coord (sg_dims g) (sg_pts g) (setc ax (list_sum (firstn j ns) + k) c) =
      Some (x + INR k / INR n * (x' - x), y + INR k / INR n * (y' - y), z + INR k / INR n * (z' - z))%R.
