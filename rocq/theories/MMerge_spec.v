(* Specification vocabulary for the mesh returned by MeshMerge. *)
From Coq Require Import Reals Permutation.
From Verif Require Import Prelude Grid Volume_model Volume_spec Groups_spec Stack_model Final_spec Unstr_spec MMerge_model.
Import Groups_model(options).
Open Scope nat_scope.

(* the numbers of the groups of a mesh and their names *)
Definition had_groups {D} (int : D -> Z) (m : mmesh D) : option (list Z * table) :=
  match entry_of "CellGroup"%string (uv_cd (mm_vol m)), mm_labels m with
  | Some v, Some names => Some (map int v, names)
  | _, _ => None
  end.

Section Merge.
Context {D : Type} (items : list (mitem D)).

(* Where the cells come from: (j, c) is cell c of item j.  Every cell of every item is there once. *)
Definition merged_from (place : list (nat * nat)) : Prop :=
  NoDup place /\
  forall j c, In (j, c) place <-> exists it cells, nth_error items j = Some it /\ cells_of (mm_vol (fst it)) cells /\ c < length cells.

(* the cells are those of the items with their points renumbered, each within the tolerance of where it was *)
Definition cells_kept (tol : R) (place : list (nat * nat)) (g : uvol D) : Prop :=
  exists cells, cells_of g cells /\ length cells = length place /\
    forall i j c, nth_error place i = Some (j, c) ->
      exists it cs cell f, nth_error items j = Some it /\ cells_of (mm_vol (fst it)) cs /\ nth_error cs c = Some cell /\
        nth_error cells i = Some (rename f cell) /\
        forall v p, In v (vcell_ids cell) -> nth_error (uv_pts (mm_vol (fst it))) v = Some p ->
          exists q, nth_error (uv_pts g) (f v) = Some q /\ within tol p q.

(* a cell has the name it had in its mesh, unless ignored, and otherwise the default of the item *)
Definition names_kept (int : D -> Z) (o : options) (place : list (nat * nat)) (g : uvol D) (labels : Groups_model.dict) : Prop :=
  numbered labels /\ NoDup (map fst (uv_cd g)) /\
  exists cg names, In ("CellGroup"%string, cg) (uv_cd g) /\
    Groups_model.get_cell_group (Some (map int cg)) (Some labels) = Ok (Some (inl names)) /\
    length names = length place /\
    (forall k, In k (map fst labels) <-> In k names) /\
    forall i j c, nth_error place i = Some (j, c) ->
      exists it k, nth_error items j = Some it /\ nth_error names i = Some k /\
        base_name (had_groups int (fst it)) (Groups_model.ignore_groups o) (the_default o (snd it)) c k.

(* the arrays that all meshes have, with the value of each cell *)
Definition arrays_kept (place : list (nat * nat)) (g : uvol D) : Prop :=
  (forall k, In k (map fst (uv_cd g)) <->
     k = "CellGroup"%string \/ forall it, In it items -> In k (map fst (uv_cd (mm_vol (fst it))))) /\
  forall k x, In (k, x) (uv_cd g) -> k <> "CellGroup"%string ->
    length x = length place /\
    forall i j c, nth_error place i = Some (j, c) ->
      exists it v, nth_error items j = Some it /\ In (k, v) (uv_cd (mm_vol (fst it))) /\ nth_error x i = nth_error v c.

Definition flags_kept (place : list (nat * nat)) (g : uvol D) : Prop :=
  forall i j c, nth_error place i = Some (j, c) ->
    exists it, nth_error items j = Some it /\ flag_of (uv_ghost g) i = flag_of (uv_ghost (mm_vol (fst it))) c.
End Merge.

(* a mesh: cells can be read, one value per cell, no array given twice *)
Definition wf_mesh {D} (m : mmesh D) : Prop :=
  (exists cells, cells_of (mm_vol m) cells) /\ NoDup (map fst (uv_cd (mm_vol m))) /\
  forall k v, In (k, v) (uv_cd (mm_vol m)) -> length v = length (uv_types (mm_vol m)).
(* with one ghost flag per cell *)
Definition flagged {D} (m : mmesh D) : Prop := length (uv_ghost (mm_vol m)) = length (uv_types (mm_vol m)).
