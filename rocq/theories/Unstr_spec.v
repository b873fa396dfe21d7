(* Specification vocabulary for the meshes returned with unstructured base meshes. *)
From Coq Require Import Reals Permutation.
From Verif Require Import Prelude Grid Perc_model Volume_model Volume_spec Lines_spec Groups_spec Stack_model Stack_spec Final_spec.
From Verif Require Export Vec_spec.
Import Groups_model(group_arg(..), options).
Open Scope nat_scope.

(* a cell whose ids are renamed *)
Definition rename (f : nat -> nat) (c : vcell) : vcell :=
  match c with Plain ty ids => Plain ty (map f ids) | Poly faces => Poly (map (map f) faces) end.

Definition cells_of {D} (g : uvol D) (cells : list vcell) : Prop := decode (uv_types g) (uv_stream g) = Some cells.

(* cells of consecutive meshes, ids counted from the points of the previous ones *)
Fixpoint stacked {D} (off : nat) (bs : list (uvol D)) (cells : list (list vcell)) : list vcell :=
  match bs, cells with
  | b :: bs', cs :: cells' => map (rename (fun i => off + i)) cs ++ stacked (off + length (uv_pts b)) bs' cells'
  | _, _ => []
  end.

(* g is the mesh made of the meshes bs one after the other, with the cell arrays (and flags) that they share;
   points may be renumbered, which merges those that coincide *)
Definition appended {D} (bs : list (uvol D)) (g : uvol D) : Prop :=
  (forall cells, Forall2 cells_of bs cells -> exists f, cells_of g (map (rename f) (stacked 0 bs cells)) /\
     forall i p, In i (flat_map vcell_ids (stacked 0 bs cells)) -> nth_error (flat_map uv_pts bs) i = Some p ->
       nth_error (uv_pts g) (f i) = Some p) /\
  NoDup (map fst (uv_cd g)) /\
  (forall k, In k (map fst (uv_cd g)) <-> forall b, In b bs -> In k (map fst (uv_cd b))) /\
  (forall k x, In (k, x) (uv_cd g) -> exists xs, Forall2 (fun b v => In (k, v) (uv_cd b)) bs xs /\ x = concat xs) /\
  ((forall b, In b bs -> length (uv_ghost b) = length (uv_types b)) -> uv_ghost g = flat_map uv_ghost bs) /\
  ((exists b, In b bs /\ uv_types b <> [] /\ uv_ghost b = []) -> uv_ghost g = []).

(* pv.merge appends the meshes, in an order of its own *)
Definition appends {D} (pvmerge : list (uvol D) -> res (uvol D)) : Prop :=
  forall bs g, pvmerge bs = Ok g ->
    exists order bs', Permutation order (seq 0 (length bs)) /\ picks bs order bs' /\ appended bs' g.

(* points within a tolerance *)
Definition within (tol : R) (p q : R * R * R) : Prop :=
  let '(x, y, z) := p in let '(x', y', z') := q in
  (Rabs (x - x') <= tol /\ Rabs (y - y') <= tol /\ Rabs (z - z') <= tol)%R.

(* mesh.clean only renames the points, up to the tolerance; cells, their order and their data are kept *)
Definition cleans {D} (tol : R) (clean : uvol D -> uvol D) : Prop :=
  forall g cells, cells_of g cells -> exists f,
    cells_of (clean g) (map (rename f) cells) /\
    uv_cd (clean g) = uv_cd g /\ uv_ghost (clean g) = uv_ghost g /\
    forall i p, In i (flat_map vcell_ids cells) -> nth_error (uv_pts g) i = Some p ->
      exists q, nth_error (uv_pts (clean g)) (f i) = Some q /\ within tol p q.

(* base meshes: ids of points, one group number and one ghost flag per cell, no array given twice *)
Definition wf_ubase {D} (m : ubase D) : Prop :=
  ub_aligned m /\ NoDup (map fst (us_cd (ub_surf m))) /\
  forall base x, In base (us_cells (ub_surf m)) -> In x (snd base) -> x < length (us_pts (ub_surf m)).

Definition n_base {D} (i : item (ubase D)) : nat := length (us_cells (ub_surf (it_mesh i))).

(* Where the cells come from: (j, l, c) is the cell above cell c of surface j, in layer l of the block
   between surfaces j and j + 1.  Every such cell is there once. *)
Definition placed {D} (items : list (item (ubase D))) (nsubs : list nat) (place : list (nat * nat * nat)) : Prop :=
  NoDup place /\
  forall j l c, In (j, l, c) place <->
    exists ns a, nth_error nsubs j = Some ns /\ nth_error items j = Some a /\ l < ns /\ c < n_base a.

(* the identifiers tell where the cells come from *)
Definition identified {D} (num : Z -> D) (name : string) (nsubs : list nat) (place : list (nat * nat * nat)) (g : uvol D) : Prop :=
  exists col lay itm,
    In ("ColumnId"%string, col) (uv_cd g) /\ In ("LayerId"%string, lay) (uv_cd g) /\ In (name, itm) (uv_cd g) /\
    length col = length place /\ length lay = length place /\ length itm = length place /\
    forall i j l c, nth_error place i = Some (j, l, c) ->
      nth_error col i = Some (num (Z.of_nat c)) /\
      nth_error lay i = Some (num (Z.of_nat (list_sum (firstn j nsubs) + l))) /\
      nth_error itm i = Some (num (Z.of_nat j)).

(* the cells are those extruded from the base cells, their points being between the two surfaces *)
Definition extruded_cells {D} (invert : bool) (tol : R) (items : list (item (ubase D))) (place : list (nat * nat * nat))
  (g : uvol D) : Prop :=
  exists cells, cells_of g cells /\ length cells = length place /\
    forall i j l c, nth_error place i = Some (j, l, c) ->
      exists a b perc base cell f,
        nth_error items j = Some a /\ nth_error items (S j) = Some b /\
        resolution_to_perc (it_res b) (it_method b) = Ok perc /\
        nth_error (us_cells (ub_surf (it_mesh a))) c = Some base /\
        let np := length (us_pts (ub_surf (it_mesh a))) in
        extruded invert np l base cell /\ nth_error cells i = Some (rename f cell) /\
        forall v h t p q, In v (snd base) -> h <= 1 -> nth_error perc (l + h) = Some t ->
          nth_error (us_pts (ub_surf (it_mesh a))) v = Some p -> nth_error (us_pts (ub_surf (it_mesh b))) v = Some q ->
          exists r, nth_error (uv_pts g) (f (v + (l + h) * np)) = Some r /\
            within tol (let '(x, y, z) := p in let '(x', y', z') := q in
                        (x + t * (x' - x), y + t * (y' - y), z + t * (z' - z)))%R r.

(* the cells of a base surface with their groups *)
Definition ubase_view {D} (m : ubase D) : gmesh nat :=
  Groups_model.mkG (seq 0 (length (us_cells (ub_surf m)))) (ub_cg m) (ub_labels m).

Definition ugroups_follow {D} (int : D -> Z) (o : options) (items : list (item (ubase D)))
  (place : list (nat * nat * nat)) (g : uvol D) (labels : Groups_model.dict) : Prop :=
  numbered labels /\ NoDup (map fst (uv_cd g)) /\
  exists cg names, In ("CellGroup"%string, cg) (uv_cd g) /\
    Groups_model.get_cell_group (Some (map int cg)) (Some labels) = Ok (Some (inl names)) /\
    length names = length place /\
    (forall k, In k (map fst labels) <-> In k names) /\
    forall i j l c, nth_error place i = Some (j, l, c) ->
      exists a b k, nth_error items j = Some a /\ nth_error items (S j) = Some b /\
        nth_error names i = Some k /\ item_name o (ubase_view (it_mesh a)) (it_group b) c k.

(* the extruded cell is flat between the first two positions *)
Definition flat_first {D} (a b : item (ubase D)) (perc : list R) (base : nat * list nat) : Prop :=
  forall v t t' p q, In v (snd base) -> nth_error perc 0 = Some t -> nth_error perc 1 = Some t' ->
    nth_error (us_pts (ub_surf (it_mesh a))) v = Some p -> nth_error (us_pts (ub_surf (it_mesh b))) v = Some q ->
    near (vline t p q) (vline t' p q).

Definition flag_of (ghost : list nat) (i : nat) : nat := nth i ghost 0.

Definition ughosts_follow {D} (items : list (item (ubase D))) (place : list (nat * nat * nat)) (g : uvol D) : Prop :=
  (uv_ghost g = [] \/ length (uv_ghost g) = length place /\ exists i, i < length place /\ flag_of (uv_ghost g) i <> 0) /\
  forall i j l c, nth_error place i = Some (j, l, c) ->
    exists a b perc base, nth_error items j = Some a /\ nth_error items (S j) = Some b /\
      resolution_to_perc (it_res b) (it_method b) = Ok perc /\
      nth_error (us_cells (ub_surf (it_mesh a))) c = Some base /\
      (flat_first a b perc base -> flag_of (uv_ghost g) i = 32) /\
      (~ flat_first a b perc base -> flag_of (uv_ghost g) i =
         match us_ghost (ub_surf (it_mesh a)) with Some gh => flag_of gh c | None => 0 end).

Definition ucells_follow {D} (name : string) (items : list (item (ubase D))) (place : list (nat * nat * nat)) (g : uvol D) : Prop :=
  (forall k, In k (map fst (uv_cd g)) <->
     In k ["ColumnId"; "LayerId"; name; "CellGroup"]%string \/
     forall j a b, nth_error items j = Some a -> nth_error items (S j) = Some b ->
       In k (map fst (us_cd (ub_surf (it_mesh a))))) /\
  forall k x, In (k, x) (uv_cd g) -> ~ In k ["ColumnId"; "LayerId"; name; "CellGroup"]%string ->
    length x = length place /\
    forall i j l c, nth_error place i = Some (j, l, c) ->
      exists a v, nth_error items j = Some a /\ In (k, v) (us_cd (ub_surf (it_mesh a))) /\
        nth_error x i = nth_error v c.

(* base meshes from which volumes can be generated, all with np points and cells of these types *)
Definition regular_ubase {D} (np : nat) (types : list nat) (m : ubase D) : Prop :=
  wf_ubase m /\ types <> [] /\
  length (us_pts (ub_surf m)) = np /\ map fst (us_cells (ub_surf m)) = types /\
  (forall ct ids, In (ct, ids) (us_cells (ub_surf m)) ->
     ct = 5 \/ ct = 9 \/ (ct = 7 /\ 3 <= length ids) \/ (ct = 8 /\ length ids = 4)) /\
  (forall k x, In (k, x) (us_pd (ub_surf m)) -> length x = np) /\
  (forall k x, In (k, x) (us_cd (ub_surf m)) -> length x = length types) /\
  (forall gh, us_ghost (ub_surf m) = Some gh -> length gh = length types).

(* cells between surfaces that coincide at the base cell are flagged *)
Definition coincident_flagged {D} (items : list (item (ubase D))) (place : list (nat * nat * nat)) (g : uvol D) : Prop :=
  forall i j l c a b base, nth_error place i = Some (j, l, c) ->
    nth_error items j = Some a -> nth_error items (S j) = Some b ->
    nth_error (us_cells (ub_surf (it_mesh a))) c = Some base ->
    (forall v, In v (snd base) -> nth_error (us_pts (ub_surf (it_mesh a))) v = nth_error (us_pts (ub_surf (it_mesh b))) v) ->
    flag_of (uv_ghost g) i = 32.
