(* Vocabulary for the mesh of a well in three dimensions. *)
From Coq Require Import Reals.
From Verif Require Import Prelude Grid Volume_model Volume_spec SMerge_model Lines_spec Unstr_spec.
From Verif Require Groups_spec.
Open Scope R_scope.

(* heights of the horizontal planes: ten layers of 3 up to 0, then layers of 1 *)
Definition well_height (h : nat) : R := if (h <=? 10)%nat then - 30 + 3 * INR h else INR h - 10.
Definition at_height (z : R) (p : R * R * R) : R * R * R := let '(x, y, _) := p in (x, y, z).

(* the cell is the wedge or hexahedron over the polygon ps, between the heights z and z' *)
Definition prism (tol : R) (pts : list (R * R * R)) (cell : vcell) (ps : list (R * R * R)) (z z' : R) : Prop :=
  exists ty ids, cell = Plain ty ids /\ ((length ps = 3 /\ ty = 13) \/ (length ps = 4 /\ ty = 12))%nat /\
    Forall2 (fun i p => exists r, nth_error pts i = Some r /\ within tol p r) ids
      (map (at_height z) ps ++ map (at_height z') ps).

(* mesh.extract_cells keeps the cells asked for in their order, with their points and cell data *)
Definition extracts {D} (pick : list nat -> uvol D -> uvol D) : Prop :=
  forall ids g cells, cells_of g cells -> Sorted.StronglySorted lt ids -> (forall i, In i ids -> i < length cells)%nat ->
    exists f cells', picks cells ids cells' /\ cells_of (pick ids g) (map (rename f) cells') /\
      (forall i p, In i (flat_map vcell_ids cells') -> nth_error (uv_pts g) i = Some p ->
         nth_error (uv_pts (pick ids g)) (f i) = Some p) /\
      forall k x, Groups_spec.entry_of k (uv_cd g) = Some x -> length x = length cells ->
        exists x', Groups_spec.entry_of k (uv_cd (pick ids g)) = Some x' /\ picks x ids x'.

(* one row of point data per point *)
Definition point_rows {D} (g : uvol D) : Prop := forall k x, In (k, x) (uv_pd g) -> length x = length (uv_pts g).

Open Scope nat_scope.
(* the cell data ColumnId, LayerId and ExtrudeItem of the cell in layer h above polygon c: c, h, and 0 below the height 0, 1 above *)
Definition layer_ids {D} (num : Z -> D) (place : list (nat * nat)) (g : uvol D) : Prop :=
  exists col lay itm, Groups_spec.entry_of "ColumnId"%string (uv_cd g) = Some col /\
    Groups_spec.entry_of "LayerId"%string (uv_cd g) = Some lay /\ Groups_spec.entry_of "ExtrudeItem"%string (uv_cd g) = Some itm /\
    length col = length place /\ length lay = length place /\ length itm = length place /\
    forall i c h, nth_error place i = Some (c, h) ->
      nth_error col i = Some (num (Z.of_nat c)) /\ nth_error lay i = Some (num (Z.of_nat h)) /\
      nth_error itm i = Some (num (if h <? 10 then 0%Z else 1%Z)).

(* the cells above polygon c have its value w[c] of the cell data k *)
Definition above_data {D} (k : string) (w : list D) (place : list (nat * nat)) (g : uvol D) : Prop :=
  exists x, Groups_spec.entry_of k (uv_cd g) = Some x /\ length x = length place /\
    forall i c h, nth_error place i = Some (c, h) -> nth_error x i = nth_error w c.
