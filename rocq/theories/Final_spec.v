(* Specification vocabulary for the meshes returned by stacks and extrusions. *)
From Coq Require Import Reals Ascii.
From Verif Require Import Prelude Grid Surface_model Surface_spec Volume_spec SMerge_spec Groups_spec Stack_spec.
From Verif Require Import Stack_model.
Import Groups_model(group_arg(..), options).

(* the entries of a group dictionary are masks, index arrays or functions returning masks *)
Definition array_entries (mesh : gmesh nat) (d : list (string * selector nat)) : Prop :=
  forall e, In e d ->
    (exists m, snd e = Groups_model.SelArr m) \/
    (exists f b, snd e = Groups_model.SelCall f /\ f mesh = Groups_model.MBool b).

(* k is a name that the group argument of an item gives to cell c of its base mesh:
   nothing given (or nothing but a complement of everything) keeps the base name, a string
   names all cells, the last matching entry of a dictionary wins *)
Definition item_name (o : options) (mesh : gmesh nat) (group : group_arg nat) (c : nat) (k : string) : Prop :=
  let base := base_name (labelled mesh) (Groups_model.ignore_groups o) (the_default o "") c k in
  match group with
  | Groups_model.GNone => base
  | Groups_model.GStr s =>
      (s = ""%string -> base) /\
      (forall s', s = String "~"%char s' -> base) /\
      (s <> ""%string -> plain s -> k = s)
  | Groups_model.GDict d =>
      array_entries mesh d ->
      (exists e, last_such (fun e => entry_selects mesh e c) d e /\ key_name (fst e) k) \/
      (Forall (fun e => ~ entry_selects mesh e c) d /\ base)
  end.

Open Scope nat_scope.

(* ghost flag of a cell, 0 without ghost array *)
Definition flag_at (s : shape3) (ghost : list nat) (c : shape3) : nat :=
  match at_coord s ghost c with Some x => x | None => 0 end.

Definition base_flag (s : shape3) (ghost : option (list nat)) (c : shape3) : nat :=
  match ghost with Some g => flag_at s g c | None => 0 end.

(* [pts] are the points of the block between two surfaces: row l is at position perc[l] *)
Definition block_between (ax : nat) (d : shape3) (perc : list R) (pa pb pts : list (R * R * R)) : Prop :=
  length pts = size3 (setc ax (length perc) d) /\
  forall c t p q, in_shape (setc ax (length perc) d) c -> nth_error perc (comp ax c) = Some t ->
    at_coord d pa (setc ax 0 c) = Some p -> at_coord d pb (setc ax 0 c) = Some q ->
    at_coord (setc ax (length perc) d) pts c =
      Some (let '(x, y, z) := p in let '(x', y', z') := q in
            (x + t * (x' - x), y + t * (y' - y), z + t * (z' - z)))%R.

(* the cells of a base surface with their groups *)
Definition base_view {D} (m : sbase D) : gmesh nat :=
  Groups_model.mkG (seq 0 (n_cells (ss_dims (sb_surf m)))) (sb_cg m) (sb_labels m).

(* Groups of a mesh made of layers between consecutive surfaces: every cell has a name, given by the
   group of the upper surface to the cell below it in the lower surface; the table lists the names in
   use and nothing else. *)
Definition groups_follow {D} (int : D -> Z) (o : options) (ax : nat) (d : shape3) (items : list (item (sbase D)))
  (nsubs : list nat) (g : sgrid D) (labels : Groups_model.dict) : Prop :=
  numbered labels /\ NoDup (map fst (sg_cd g)) /\
  exists cg names, In ("CellGroup"%string, cg) (sg_cd g) /\
    Groups_model.get_cell_group (Some (map int cg)) (Some labels) = Ok (Some (inl names)) /\
    length names = n_cells (sg_dims g) /\
    (forall k, In k (map fst labels) <-> In k names) /\
    forall c, in_shape (cell_shape (sg_dims g)) c ->
      exists j a b k, layer_in nsubs (comp ax c) j /\
        nth_error items j = Some a /\ nth_error items (S j) = Some b /\
        at_coord (cell_shape (sg_dims g)) names c = Some k /\
        item_name o (base_view (it_mesh a)) (it_group b) (fidx (cell_shape d) (setc ax 0 c)) k.

(* Ghost flags: 32 for the cells without volume in the block they belong to, otherwise the flag of the
   lower surface; no array when no cell is flagged.  [items] are the surfaces that bound the blocks. *)
Definition ghosts_follow {D} (volumes : shape3 -> list (R * R * R) -> list R) (ax : nat) (d : shape3)
  (items : list (item (sbase D))) (nsubs : list nat) (g : sgrid D) : Prop :=
  (sg_ghost g = [] \/
   length (sg_ghost g) = n_cells (sg_dims g) /\
   exists c, in_shape (cell_shape (sg_dims g)) c /\ flag_at (cell_shape (sg_dims g)) (sg_ghost g) c <> 0) /\
  forall c, in_shape (cell_shape (sg_dims g)) c ->
    exists j a b perc pts w, layer_in nsubs (comp ax c) j /\
      nth_error items j = Some a /\ nth_error items (S j) = Some b /\
      resolution_to_perc (it_res b) (it_method b) = Ok perc /\
      block_between ax d perc (ss_pts (sb_surf (it_mesh a))) (ss_pts (sb_surf (it_mesh b))) pts /\
      at_coord (cell_shape (setc ax (length perc) d)) (volumes (setc ax (length perc) d) pts)
        (setc ax (comp ax c - list_sum (firstn j nsubs)) c) = Some w /\
      (w = 0%R -> flag_at (cell_shape (sg_dims g)) (sg_ghost g) c = 32) /\
      (w <> 0%R -> flag_at (cell_shape (sg_dims g)) (sg_ghost g) c =
                   base_flag (cell_shape d) (ss_ghost (sb_surf (it_mesh a))) (setc ax 0 c)).

(* Cell arrays: those common to all the lower surfaces, besides the identifiers and the groups; each
   cell has the value of the cell below it in the lower surface. *)
Definition cells_follow {D} (name : string) (ax : nat) (d : shape3) (items : list (item (sbase D)))
  (nsubs : list nat) (g : sgrid D) : Prop :=
  (forall k, In k (map fst (sg_cd g)) <->
     In k ["ColumnId"; "LayerId"; name; "CellGroup"]%string \/
     forall j a b, nth_error items j = Some a -> nth_error items (S j) = Some b ->
       In k (map fst (ss_cd (sb_surf (it_mesh a))))) /\
  forall k x, In (k, x) (sg_cd g) -> ~ In k ["ColumnId"; "LayerId"; name; "CellGroup"]%string ->
    length x = n_cells (sg_dims g) /\
    forall c, in_shape (cell_shape (sg_dims g)) c ->
      exists j a v, layer_in nsubs (comp ax c) j /\ nth_error items j = Some a /\
        In (k, v) (ss_cd (sb_surf (it_mesh a))) /\
        at_coord (cell_shape (sg_dims g)) x c = at_coord (cell_shape d) v (setc ax 0 c).

(* Point arrays: those of the lowest surface, each point having the value of the point of the
   surface in the same column. *)
Definition points_follow {D} (ax : nat) (d : shape3) (base : sbase D) (g : sgrid D) : Prop :=
  map fst (sg_pd g) = map fst (ss_pd (sb_surf base)) /\
  forall k v, In (k, v) (ss_pd (sb_surf base)) ->
    exists w, In (k, w) (sg_pd g) /\ length w = size3 (sg_dims g) /\
      forall c, in_shape (sg_dims g) c -> at_coord (sg_dims g) w c = at_coord d v (setc ax 0 c).
