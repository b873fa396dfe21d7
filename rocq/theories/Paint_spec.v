(* Vocabulary for meshes seen as coloured polygons: outlines of the cells, names of their groups, areas. *)
From Coq Require Import Reals Permutation.
From Verif Require Import Prelude Grid Volume_model Volume_spec Groups_spec Objects_spec Unstr_spec MMerge_model MMerge_spec.
Import Groups_model(options).
Open Scope R_scope.

(* VTK's types of cells for polygons of that many corners: triangle, quadrilateral, polygon *)
Definition polygon_type (ty n : nat) : Prop := (ty = 5 /\ n = 3)%nat \/ (ty = 9 /\ n = 4)%nat \/ ty = 7%nat.

(* the cells of the mesh are polygons with these corners, in order *)
Definition drawn {D} (g : uvol D) (ps : list (list pt)) : Prop :=
  exists cells, cells_of g cells /\
    Forall2 (fun c p => exists ty ids, c = Plain ty ids /\ polygon_type ty (length p) /\
      Forall2 (fun i q => nth_error (uv_pts g) i = Some q) ids p) cells ps.

(* the names of the groups of the cells *)
Definition names_of {D} (int : D -> Z) (g : uvol D) (labels : Groups_model.dict) (names : list string) : Prop :=
  exists cg, entry_of "CellGroup"%string (uv_cd g) = Some cg /\
    Groups_model.get_cell_group (Some (map int cg)) (Some labels) = Ok (Some (inl names)).

(* the polygons of an item with the names they get: their own, or else that of the item *)
Definition shows {D} (int : D -> Z) (o : options) (it : mitem D) (l : list (string * list pt)) : Prop :=
  drawn (mm_vol (fst it)) (map snd l) /\
  forall c k, nth_error (map fst l) c = Some k ->
    forall k', base_name (had_groups int (fst it)) (Groups_model.ignore_groups o) (the_default o (snd it)) c k' <-> k' = k.

(* the same coloured polygon, its corners being moved within the tolerance *)
Definition same_within (tol : R) (a b : string * list pt) : Prop := fst a = fst b /\ Forall2 (within tol) (snd a) (snd b).

(* area of a polygon in the plane xy (shoelace formula) *)
Fixpoint fan_sum (a : pt) (ps : list pt) : R :=
  match ps with
  | b :: ((c :: _) as t) => twice_area3 a b c + fan_sum a t
  | _ => 0
  end.
Definition polygon_area (ps : list pt) : R := match ps with a :: t => Rabs (fan_sum a t) / 2 | [] => 0 end.
Definition sum_list (l : list R) : R := fold_right Rplus 0 l.

(* total area of the polygons, and of those with a name *)
Definition total_area (l : list (string * list pt)) : R := sum_list (map (fun x => polygon_area (snd x)) l).
Definition named_area (k : string) (l : list (string * list pt)) : R :=
  total_area (filter (fun x => String.eqb (fst x) k) l).
