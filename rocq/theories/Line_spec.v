(* Specification vocabulary for the meshes returned by stacks of lines. *)
From Coq Require Import Reals.
From Verif Require Import Prelude Grid Perc_model Surface_spec Volume_spec SMerge_spec Groups_spec Stack_model Stack_spec Final_spec.
Import Groups_model(group_arg(..), options).
Open Scope nat_scope.

(* p is point i of the line, in the order of its segments *)
Definition line_point {D} (m : lbase D) (i : nat) (p : R * R * R) : Prop :=
  exists v, nth_error (ln_ids (lb_line m)) i = Some v /\ nth_error (ln_pts (lb_line m)) v = Some p.

(* a line of nc segments and nc + 1 points with complete arrays *)
Definition wf_line {D} (nc : nat) (m : lbase D) : Prop :=
  1 <= nc /\ lb_nc m = nc /\ length (ln_pts (lb_line m)) = S nc /\ length (ln_ids (lb_line m)) = S nc /\
  (forall v, In v (ln_ids (lb_line m)) -> v < S nc) /\
  NoDup (map fst (ln_cd (lb_line m))) /\
  (forall k v, In (k, v) (ln_pd (lb_line m)) -> length v = S nc) /\
  (forall k v, In (k, v) (ln_cd (lb_line m)) -> length v = nc) /\
  (forall g, ln_ghost (lb_line m) = Some g -> length g = nc) /\
  (forall cg, lb_cg m = Some cg -> length cg = nc).

(* axis of the grid along the lines *)
Definition across (ax : nat) : nat := match ax with 0 => 1 | _ => 0 end.

(* The lines are rows of the grid and the points between two lines are at the positions of the subdivision;
   where two items meet, the points of the lower one are kept. *)
Definition lnodes_follow {D} (ax nc : nat) (items : list (item (lbase D))) (nsubs : list nat) (g : sgrid D) : Prop :=
  sg_dims g = grid_dims (across ax) ax (S nc) (S (list_sum nsubs)) /\
  length (sg_pts g) = S nc * S (list_sum nsubs) /\
  forall j a b perc i k t p q, nth_error items j = Some a -> nth_error items (S j) = Some b ->
    resolution_to_perc (it_res b) (it_method b) = Ok perc -> nth_error perc k = Some t ->
    line_point (it_mesh a) i p -> line_point (it_mesh b) i q ->
    exists r, at_coord (sg_dims g) (sg_pts g)
                (grid_coord (across ax) ax i (list_sum (firstn j nsubs) + k)) = Some r /\
      near r (on_way t p q) /\ (j = 0 \/ 0 < k -> r = on_way t p q).

Definition lbase_view {D} (m : lbase D) : gmesh nat :=
  Groups_model.mkG (seq 0 (lb_nc m)) (lb_cg m) (lb_labels m).

(* segment i of layer l *)
Definition seg_at (ax i l : nat) : shape3 := grid_coord (across ax) ax i l.

(* [seg ns i l]: the segment of the lower line that cell (i, l) of an item of ns layers belongs to;
   [lev ns i l]: the layer of the item that it belongs to *)
Definition own_seg : nat -> nat -> nat -> nat := fun _ i _ => i.
Definition own_lev : nat -> nat -> nat -> nat := fun _ _ l => l.
(* what is written when the arrays, one line after the other, are read along the first axis *)
Definition swapped_seg (nc : nat) : nat -> nat -> nat -> nat := fun ns i l => (l + ns * i) mod nc.
Definition swapped_lev (nc : nat) : nat -> nat -> nat -> nat := fun ns i l => (l + ns * i) / nc.

Definition lgroups_follow {D} (seg : nat -> nat -> nat -> nat) (int : D -> Z) (o : options) (ax nc : nat) (items : list (item (lbase D)))
  (nsubs : list nat) (g : sgrid D) (labels : Groups_model.dict) : Prop :=
  numbered labels /\ NoDup (map fst (sg_cd g)) /\
  exists cg names, In ("CellGroup"%string, cg) (sg_cd g) /\
    Groups_model.get_cell_group (Some (map int cg)) (Some labels) = Ok (Some (inl names)) /\
    length names = n_cells (sg_dims g) /\
    (forall k, In k (map fst labels) <-> In k names) /\
    forall i l, i < nc -> l < list_sum nsubs ->
      exists j ns a b k, layer_in nsubs l j /\ nth_error nsubs j = Some ns /\
        nth_error items j = Some a /\ nth_error items (S j) = Some b /\
        at_coord (cell_shape (sg_dims g)) names (seg_at ax i l) = Some k /\
        item_name o (lbase_view (it_mesh a)) (it_group b) (seg ns i (l - list_sum (firstn j nsubs))) k.

(* [pts] are the points of the strip between two lines *)
Definition strip_between {D} (ax nc : nat) (perc : list R) (a b : lbase D) (pts : list (R * R * R)) : Prop :=
  length pts = S nc * length perc /\
  forall i k t p q, nth_error perc k = Some t -> line_point a i p -> line_point b i q ->
    at_coord (grid_dims (across ax) ax (S nc) (length perc)) pts (grid_coord (across ax) ax i k) = Some (on_way t p q).

Definition lghosts_follow {D} (seg : nat -> nat -> nat -> nat) (areas : shape3 -> list (R * R * R) -> list R) (ax nc : nat)
  (items : list (item (lbase D))) (nsubs : list nat) (g : sgrid D) : Prop :=
  (sg_ghost g = [] \/
   length (sg_ghost g) = n_cells (sg_dims g) /\
   exists i l, i < nc /\ l < list_sum nsubs /\ flag_at (cell_shape (sg_dims g)) (sg_ghost g) (seg_at ax i l) <> 0) /\
  forall i l, i < nc -> l < list_sum nsubs ->
    exists j ns a b perc pts w, layer_in nsubs l j /\ nth_error nsubs j = Some ns /\
      nth_error items j = Some a /\ nth_error items (S j) = Some b /\
      resolution_to_perc (it_res b) (it_method b) = Ok perc /\
      strip_between ax nc perc (it_mesh a) (it_mesh b) pts /\
      let d := grid_dims (across ax) ax (S nc) (length perc) in
      at_coord (cell_shape d) (areas d pts) (seg_at ax i (l - list_sum (firstn j nsubs))) = Some w /\
      (w = 0%R -> flag_at (cell_shape (sg_dims g)) (sg_ghost g) (seg_at ax i l) = 32) /\
      (w <> 0%R -> flag_at (cell_shape (sg_dims g)) (sg_ghost g) (seg_at ax i l) =
                   match ln_ghost (lb_line (it_mesh a)) with Some gh => nth (seg ns i (l - list_sum (firstn j nsubs))) gh 0 | None => 0 end).

Definition lcells_follow {D} (seg : nat -> nat -> nat -> nat) (ax nc : nat) (items : list (item (lbase D)))
  (nsubs : list nat) (g : sgrid D) : Prop :=
  (forall k, In k (map fst (sg_cd g)) <->
     In k ["ColumnId"; "LayerId"; "StackItem"; "CellGroup"]%string \/
     forall j a b, nth_error items j = Some a -> nth_error items (S j) = Some b ->
       In k (map fst (ln_cd (lb_line (it_mesh a))))) /\
  forall k x, In (k, x) (sg_cd g) -> ~ In k ["ColumnId"; "LayerId"; "StackItem"; "CellGroup"]%string ->
    length x = n_cells (sg_dims g) /\
    forall i l, i < nc -> l < list_sum nsubs ->
      exists j ns a v, layer_in nsubs l j /\ nth_error nsubs j = Some ns /\ nth_error items j = Some a /\
        In (k, v) (ln_cd (lb_line (it_mesh a))) /\
        at_coord (cell_shape (sg_dims g)) x (seg_at ax i l) =
        nth_error v (seg ns i (l - list_sum (firstn j nsubs))).

(* column, layer and item of every cell *)
Definition lids_follow {D} (seg lev : nat -> nat -> nat -> nat) (num : Z -> D) (ax nc : nat)
  (nsubs : list nat) (g : sgrid D) : Prop :=
  exists col lay itm,
    In ("ColumnId"%string, col) (sg_cd g) /\ In ("LayerId"%string, lay) (sg_cd g) /\ In ("StackItem"%string, itm) (sg_cd g) /\
    forall i l, i < nc -> l < list_sum nsubs ->
      exists j ns, layer_in nsubs l j /\ nth_error nsubs j = Some ns /\
        let off := list_sum (firstn j nsubs) in
        at_coord (cell_shape (sg_dims g)) col (seg_at ax i l) = Some (num (Z.of_nat (seg ns i (l - off)))) /\
        at_coord (cell_shape (sg_dims g)) lay (seg_at ax i l) = Some (num (Z.of_nat (off + lev ns i (l - off)))) /\
        at_coord (cell_shape (sg_dims g)) itm (seg_at ax i l) = Some (num (Z.of_nat j)).
