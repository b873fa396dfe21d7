(* Specification vocabulary for stacks and extrusions. *)
From Coq Require Import Reals.
From Verif Require Import Grid Surface_spec Volume_spec SMerge_spec Stack_model.
Open Scope R_scope.

(* coordinate of a point *)
Definition coord (ax : nat) (p : R * R * R) : R :=
  match ax with 0%nat => fst (fst p) | 1%nat => snd (fst p) | _ => snd p end.

(* p and q differ at most along ax *)
Definition same_column (ax : nat) (p q : R * R * R) : Prop :=
  forall a, (a <= 2)%nat -> a <> ax -> coord a p = coord a q.

(* the points of a mesh are those last written; nothing else depends on them *)
Definition lawful {M B} (ops : mesh_ops M B) : Prop :=
  (forall p m, getp ops (setp ops p m) = p) /\
  (forall m, setp ops (getp ops m) m = m) /\
  (forall p q m, setp ops p (setp ops q m) = setp ops p m) /\
  (forall p m, ncM ops (setp ops p m) = ncM ops m) /\
  (forall p m, gview ops (setp ops p m) = gview ops m).

Definition points {M B} (ops : mesh_ops M B) (i : item M) : list (R * R * R) := getp ops (it_mesh i).

(* [j] is [i] with other points *)
Definition only_points {M B} (ops : mesh_ops M B) (i j : item M) : Prop :=
  it_mesh j = setp ops (points ops j) (it_mesh i) /\
  it_res j = it_res i /\ it_method j = it_method i /\ it_prio j = it_prio i /\
  it_thick j = it_thick i /\ it_group j = it_group i /\ it_trans j = it_trans i.

(* in every column the upper surface is at least its minimum thickness above the lower one;
   nothing is asked of a transition item *)
Definition above {M B} (ops : mesh_ops M B) (ax : nat) (lo up : item M) : Prop :=
  it_trans up = false ->
  forall k p q, nth_error (points ops lo) k = Some p -> nth_error (points ops up) k = Some q ->
    coord ax q - coord ax p >= it_thick up.

Definition below {M B} (ops : mesh_ops M B) (ax : nat) (up lo : item M) : Prop :=
  it_trans lo = false ->
  forall k p q, nth_error (points ops up) k = Some p -> nth_error (points ops lo) k = Some q ->
    coord ax p - coord ax q >= it_thick lo.

(* the later item has the lower priority (it is the one that moves) *)
Definition yields {M} (i j : item M) : Prop := it_trans j = false -> (it_prio j < it_prio i)%Z.

(* base surfaces of a structured stack: same dimensions, one unit axis, complete arrays *)
Definition unit_along (ax : nat) (d : shape3) : Prop :=
  comp ax d = 1%nat /\ forall a, (a <= 2)%nat -> a <> ax -> (2 <= comp a d)%nat.

Definition wf_base {D} (d : shape3) (m : sbase D) : Prop :=
  ss_dims (sb_surf m) = d /\
  length (ss_pts (sb_surf m)) = size3 d /\
  NoDup (map fst (ss_cd (sb_surf m))) /\
  (forall k v, In (k, v) (ss_pd (sb_surf m)) -> length v = size3 d) /\
  (forall k v, In (k, v) (ss_cd (sb_surf m)) -> length v = n_cells d) /\
  (forall g, ss_ghost (sb_surf m) = Some g -> length g = n_cells d) /\
  (forall cg, sb_cg m = Some cg -> length cg = n_cells d).

(* number of layers of the items of a list: one less than their positions *)
Definition layers_of {M} (it : item M) (n : nat) : Prop :=
  exists perc, resolution_to_perc (it_res it) (it_method it) = Ok perc /\ n = (length perc - 1)%nat.

(* layer l lies in item j, given the numbers of layers of the items *)
Definition layer_in (ns : list nat) (l j : nat) : Prop :=
  (list_sum (firstn j ns) <= l < list_sum (firstn (S j) ns))%nat.

Open Scope nat_scope.
(* numbers of layers of the items *)
Definition layer_counts {M} (rest : list (item M)) (nsubs : list nat) : Prop :=
  length nsubs = length rest /\
  forall j b, nth_error rest j = Some b -> exists ns, nth_error nsubs j = Some ns /\ layers_of b ns.

(* identifiers of a stack along the third axis: column, layer and item of every cell *)
Definition ids_of {D} (num : Z -> D) (d : shape3) (name : string) (g : sgrid D) (nsubs : list nat) : Prop :=
  exists col lay itm,
    In ("ColumnId"%string, col) (sg_cd g) /\ In ("LayerId"%string, lay) (sg_cd g) /\
    In (name, itm) (sg_cd g) /\
    forall x y l, in_shape (cell_shape (sg_dims g)) (x, y, l) ->
      at_coord (cell_shape (sg_dims g)) col (x, y, l)
        = Some (num (Z.of_nat (fidx (cell_shape d) (x, y, 0)))) /\
      at_coord (cell_shape (sg_dims g)) lay (x, y, l) = Some (num (Z.of_nat l)) /\
      exists j, layer_in nsubs l j /\
        at_coord (cell_shape (sg_dims g)) itm (x, y, l) = Some (num (Z.of_nat j)).

(* the subdivision of the item goes from 0 to 1 *)
Definition positions_span {M} (it : item M) : Prop :=
  exists perc, resolution_to_perc (it_res it) (it_method it) = Ok perc /\ 2 <= length perc /\
    nth_error perc 0 = Some 0%R /\ nth_error perc (length perc - 1) = Some 1%R.

(* no group or one name for the whole item *)
Definition group_by_name {M} (it : item M) : Prop := it_group it = GNone \/ exists s, it_group it = GStr s.

(* the group array has one entry per cell *)
Definition ub_aligned {D} (m : ubase D) : Prop :=
  forall cg, ub_cg m = Some cg -> length cg = length (us_cells (ub_surf m)).

(* identifiers of one unstructured block: cell c of layer l is at row l * nc + c *)
Definition block_ids {D} (num : Z -> D) (name : string) (nsub nc off j : nat)
  (cd : list (string * list D)) : Prop :=
  exists col lay itm,
    In ("ColumnId"%string, col) cd /\ In ("LayerId"%string, lay) cd /\ In (name, itm) cd /\
    length col = nsub * nc /\ length lay = nsub * nc /\ length itm = nsub * nc /\
    forall l c, l < nsub -> c < nc ->
      nth_error col (l * nc + c) = Some (num (Z.of_nat c)) /\
      nth_error lay (l * nc + c) = Some (num (Z.of_nat (off + l))) /\
      nth_error itm (l * nc + c) = Some (num (Z.of_nat j)).

(* a line of at least two points, one cell per segment *)
Definition wf_lbase {D} (m : lbase D) : Prop :=
  2 <= length (ln_ids (lb_line m)) /\ lb_nc m = length (ln_ids (lb_line m)) - 1 /\
  forall cg, lb_cg m = Some cg -> length cg = lb_nc m.

(* identifiers of one block of a stack of lines *)
Definition line_block_ids {D} (num : Z -> D) (name : string) (ax ns nc off j : nat) (g : sgrid D) : Prop :=
  sg_dims g = grid_dims 0 ax (S nc) (S ns) /\
  exists col lay itm,
    In ("ColumnId"%string, col) (sg_cd g) /\ In ("LayerId"%string, lay) (sg_cd g) /\ In (name, itm) (sg_cd g) /\
    forall i l, i < nc -> l < ns ->
      at_coord (cell_shape (sg_dims g)) col (grid_coord 0 ax i l) = Some (num (Z.of_nat i)) /\
      at_coord (cell_shape (sg_dims g)) lay (grid_coord 0 ax i l) = Some (num (Z.of_nat (off + l))) /\
      at_coord (cell_shape (sg_dims g)) itm (grid_coord 0 ax i l) = Some (num (Z.of_nat j)).

(* squared distance *)
Definition dist2 (p q : R * R * R) : R :=
  (let '(x, y, z) := p in let '(x', y', z') := q in
   (x - x') * (x - x') + (y - y') * (y - y') + (z - z') * (z - z'))%R.

(* the subdivision of the item has at least two positions *)
Definition has_positions {M} (it : item M) : Prop :=
  exists perc, resolution_to_perc (it_res it) (it_method it) = Ok perc /\ 2 <= length perc.

(* the point at fraction t of the way from p to q *)
Definition on_way (t : R) (p q : R * R * R) : R * R * R :=
  (let '(x, y, z) := p in let '(x', y', z') := q in
   ((1 - t) * x + t * x', (1 - t) * y + t * y', (1 - t) * z + t * z'))%R.

(* the last position of the block between a and b and the first position of the block between
   b and c give close points *)
Definition junction_ok {M} (pts : item M -> list (R * R * R)) (a b c : item M) : Prop :=
  forall pb pc t u k p q r,
    resolution_to_perc (it_res b) (it_method b) = Ok pb ->
    resolution_to_perc (it_res c) (it_method c) = Ok pc ->
    nth_error pb (length pb - 1) = Some t -> nth_error pc 0 = Some u ->
    nth_error (pts a) k = Some p -> nth_error (pts b) k = Some q -> nth_error (pts c) k = Some r ->
    near (on_way t p q) (on_way u q r).

Definition junctions_ok {M} (pts : item M -> list (R * R * R)) (items : list (item M)) : Prop :=
  forall j a b c, nth_error items j = Some a -> nth_error items (S j) = Some b ->
    nth_error items (S (S j)) = Some c -> junction_ok pts a b c.
