(* Specification vocabulary for stacks of lines with transitions. *)
From Coq Require Import Reals.
From Verif Require Import Prelude Grid Surface_model Surface_spec Groups_model Groups_spec Polygon_model Stack_model Stack_spec Trans_model.
Open Scope nat_scope.

(* the axis of the grid along which the points of a line are laid *)
Definition line_axis (ax : nat) : nat := match ax with 0 => 1 | _ => 0 end.

(* a line of np points in one cell each, with complete arrays; the order of the points along
   the line is any order *)
Definition wf_line {D} (np : nat) (m : lbase D) : Prop :=
  2 <= np /\ length (ln_pts (lb_line m)) = np /\ length (ln_ids (lb_line m)) = np /\
  Forall (fun k => k < np) (ln_ids (lb_line m)) /\ lb_nc m = np - 1 /\
  NoDup (map fst (ln_cd (lb_line m))) /\
  (forall k v, In (k, v) (ln_pd (lb_line m)) -> length v = np) /\
  (forall k v, In (k, v) (ln_cd (lb_line m)) -> length v = np - 1) /\
  (forall g, ln_ghost (lb_line m) = Some g -> length g = np - 1) /\
  (forall cg, lb_cg m = Some cg -> length cg = np - 1).

(* point i along a line *)
Definition along {D} (m : lbase D) (i : nat) : option (R * R * R) :=
  match nth_error (ln_ids (lb_line m)) i with
  | Some k => nth_error (ln_pts (lb_line m)) k
  | None => None
  end.

(* every cell of a block has these identifiers *)
Definition uniform_ids {D} (num : Z -> D) (name : string) (nc : nat) (column layer item : Z)
  (cd : list (string * list D)) : Prop :=
  exists col lay itm,
    In ("ColumnId"%string, col) cd /\ In ("LayerId"%string, lay) cd /\ In (name, itm) cd /\
    length col = nc /\ length lay = nc /\ length itm = nc /\
    forall c, c < nc ->
      nth_error col c = Some (num column) /\ nth_error lay c = Some (num layer) /\
      nth_error itm c = Some (num item).

(* the block is a grid *)
Definition is_grid {D} (b : block D) : Prop := exists g, b = BGrid g.

(* consecutive lines have the same number of points, except at transitions *)
Definition same_sizes {D} (items : list (item (lbase D))) : Prop :=
  forall j a b, nth_error items j = Some a -> nth_error items (S j) = Some b -> it_trans b = false ->
    length (ln_pts (lb_line (it_mesh a))) = length (ln_pts (lb_line (it_mesh b))).

(* a scalar is added right after set_transition *)
Fixpoint scalar_after_transition {D} (l : list (@build_op D)) : Prop :=
  match l with
  | OpTransition _ :: ((OpAdd (ArgScalar _) _ :: _) as l') => True
  | _ :: l' => scalar_after_transition l'
  | [] => False
  end.

(* the points of the first line in order, then those of the second backwards *)
Definition around {A} (a b ring : list A) : Prop :=
  length ring = length a + length b /\
  (forall k, k < length a -> nth_error ring k = nth_error a k) /\
  forall k, k < length b -> nth_error ring (length a + (length b - 1 - k)) = nth_error b k.

(* gmsh never raises and its elements are points, lines, triangles and quadrangles *)
Definition gmsh_works (gm : gmsh) (result : list gop -> gmsh_mesh) : Prop :=
  (forall t o, gm t o <> None) /\
  forall t ty elements, In (ty, elements) (snd (result t)) -> In ty [1; 2; 3; 15].

(* the cells of a transition between the items below and b: identifiers, and the group of b *)
Definition transition_cells {D} (num : Z -> D) (groups : table) (default : string) (b : item (lbase D))
  (off j : nat) (blk : block D) : Prop :=
  exists pts cells cd cg,
    blk = BTri pts cells cd /\
    uniform_ids num "StackItem" (length cells) (-1) (Z.of_nat off) (Z.of_nat j) cd /\
    In ("CellGroup"%string, map num cg) cd /\ length cg = length cells /\
    (it_group b = GNone -> forall c, c < length cells -> named groups cg c default) /\
    forall s, it_group b = GStr s -> s <> ""%string -> plain s ->
      forall c, c < length cells -> named groups cg c s.

(* points of a line *)
Definition size {D} (i : item (lbase D)) : nat := length (ln_pts (lb_line (it_mesh i))).
