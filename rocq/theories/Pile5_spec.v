(* Vocabulary of the property C170. *)
From Coq Require Import Reals.
From Verif Require Import Prelude Perc_model Surface_model Volume_model Volume_spec Surface_spec Lines_spec Groups_spec Polygon_model Stack_model
  Stack_spec Trans_model Trans_spec Pile_model Pile_spec Pile3_spec Pile4_model Pile4_spec.
From Verif Require Import Unstr_spec.
Import Lines_model(lmesh, l_pts, l_cells, l_pd, l_cd).
Open Scope nat_scope.

(* the elements of gmsh: node tags count the nodes from one, three for a triangle and four for a quadrilateral *)
Definition gmsh_elements (result : list gop -> gmsh_mesh) : Prop :=
  forall t ty els el, In (ty, els) (snd (result t)) -> In el els ->
    (ty = 2 -> length el = 3) /\ (ty = 3 -> length el = 4) /\
    (ty = 2 \/ ty = 3 -> forall tag, In tag el -> 1 <= tag <= length (fst (result t))).

(* rank of a cell of a strip: column u, subdivision l *)
Definition strip_rank (ax n ns u l : nat) : nat := match ax with 0 => l + ns * u | _ => u + n * l end.

(* the quadrilaterals between two lines, subdivided as asked by a call *)
Definition strip_polygons (ax : nat) (call : st_call) (la lb : list (R * R * R)) (ns : nat) (polys : list (list (R * R * R))) : Prop :=
  exists perc, resolution_to_perc (ao_res (sc_opts call)) (ao_method (sc_opts call)) = Ok perc /\ ns = length perc - 1 /\
    length polys = ns * (length la - 1) /\
    forall u l p p' q q' t t',
      nth_error la u = Some p -> nth_error la (S u) = Some p' -> nth_error lb u = Some q -> nth_error lb (S u) = Some q' ->
      nth_error perc l = Some t -> nth_error perc (S l) = Some t' ->
      nth_error polys (strip_rank ax (length la - 1) ns u l) =
        Some (match ax with
              | 0 => [on_way t p q; on_way t' p q; on_way t' p' q'; on_way t p' q']
              | _ => [on_way t p q; on_way t p' q'; on_way t' p' q'; on_way t' p q]
              end).

(* the cells of the mesh of gmsh on the outline made by two lines *)
Definition mesh_polygons (gm : gmsh) (result : list gop -> gmsh_mesh) (la lb : list (R * R * R)) (polys : list (list (R * R * R))) : Prop :=
  exists pts tris, mesh_between gm result la lb pts tris /\
    Forall2 (Forall2 (fun z p => (0 <= z)%Z /\ nth_error pts (Z.to_nat z) = Some p)) tris polys.

(* where the cells come from: (j, c) is polygon c of block j; every polygon is there once *)
Definition spread {X} (blocks : list (list X)) (place : list (nat * nat)) : Prop :=
  NoDup place /\ forall j c, In (j, c) place <-> exists ps, nth_error blocks j = Some ps /\ c < length ps.

(* the cells show the polygons, up to the tolerance *)
Definition polygons_shown {D} (tol : R) (blocks : list (list (list (R * R * R)))) (place : list (nat * nat)) (g : uvol D) : Prop :=
  exists cells, cells_of g cells /\ length cells = length place /\
    forall i j c ps poly, nth_error place i = Some (j, c) -> nth_error blocks j = Some ps -> nth_error ps c = Some poly ->
      exists ty ids, nth_error cells i = Some (Plain ty ids) /\
        (ty = 5 /\ length ids = 3 \/ ty = 9 /\ length ids = 4) /\
        Forall2 (fun v p => exists q, nth_error (uv_pts g) v = Some q /\ within tol p q) ids poly.

(* the groups are named by the calls; the table has the names in use *)
Definition calls_name {D} (int : D -> Z) (default : string) (ms : list (bool * st_call)) (place : list (nat * nat)) (g : uvol D)
  (labels : table) : Prop :=
  numbered labels /\ exists cg names, In ("CellGroup"%string, cg) (uv_cd g) /\
    Groups_model.get_cell_group (Some (map int cg)) (Some labels) = Ok (Some (inl names)) /\
    length names = length place /\ (forall k, In k (map fst labels) <-> In k names) /\
    forall i j c mark call, nth_error place i = Some (j, c) -> nth_error ms (S j) = Some (mark, call) ->
      exists k, nth_error names i = Some k /\ call_name default call k.

(* identifiers: item and layer are those of the block; in strips the column counts the segments of the line below, which has
   one point more, and in transitions it is -1 *)
Definition cells_numbered {D} (num : Z -> D) (ms : list (bool * st_call)) (lines : list (list (R * R * R))) (nsubs : list nat)
  (place : list (nat * nat)) (g : uvol D) : Prop :=
  exists col lay itm,
    In ("ColumnId"%string, col) (uv_cd g) /\ In ("LayerId"%string, lay) (uv_cd g) /\ In ("StackItem"%string, itm) (uv_cd g) /\
    length col = length place /\ length lay = length place /\ length itm = length place /\
    forall i j c mark call la, nth_error place i = Some (j, c) -> nth_error ms (S j) = Some (mark, call) -> nth_error lines j = Some la ->
      nth_error itm i = Some (num (Z.of_nat j)) /\
      nth_error col i = Some (num (if mark then (-1)%Z else Z.of_nat (c mod (length la - 1)))) /\
      nth_error lay i = Some (num (Z.of_nat (list_sum (firstn j nsubs) + (if mark then 0 else c / (length la - 1))))).
