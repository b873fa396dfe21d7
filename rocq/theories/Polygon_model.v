(* Model of offset_polygon, extract_boundary_polygons (grouping of holes) and fuse_cells
   (utils/_misc.py) and of Polygon (core/geometric_objects.py). *)
From Coq Require Import Reals.
From Verif Require Export Prelude.
From Verif Require Import Surface_model Lines_model.
Open Scope R_scope.

(* ---- offset_polygon (1068-1156) ---- *)
Notation p2 := (R * R)%type.

(* column k of a point; the other two columns; a point with 0.0 inserted (1120, 1154) *)
Definition column (k : nat) (p : pt) : R :=
  let '(x, y, z) := p in match k with 0%nat => x | 1%nat => y | _ => z end.
Definition drop (k : nat) (p : pt) : p2 :=
  let '(x, y, z) := p in match k with 0%nat => (y, z) | 1%nat => (x, z) | _ => (x, y) end.
Definition insert0 (k : nat) (p : p2) : pt :=
  let '(u, v) := p in match k with 0%nat => (0, u, v) | 1%nat => (u, 0, v) | _ => (u, v, 0) end.

(* np.ptp(points, axis=0)[k] == 0.0 (1110) *)
Definition flat (k : nat) (ps : list pt) : bool :=
  match ps with
  | [] => true
  | p :: ps' => forallb (fun q => if Req_EM_T (column k q) (column k p) then true else false) ps'
  end.

(* 1110-1116: axis, or the polygon is rejected; np.ptp of nothing is a ValueError too *)
Definition find_axis (ps : list pt) : res nat :=
  match ps with
  | [] => Err ValueError
  | _ => match filter (fun k => flat k ps) [0; 1; 2]%nat with
         | [k] => Ok k
         | _ => Err ValueError
         end
  end.

Definition cross2 (a b : p2) : R := fst a * snd b - fst b * snd a.
Definition norm2 (a : p2) : R := sqrt (fst a * fst a + snd a * snd a).
(* v / |v|; None: a row of NaN *)
Definition unit2 (v : p2) : option p2 :=
  let n := norm2 v in if Req_EM_T n 0 then None else Some (fst v / n, snd v / n).
Definition npsign (x : R) : R :=
  if Rlt_dec 0 x then 1 else if Rlt_dec x 0 then -1 else 0.

(* 1121-1127: points with the last before and the first after *)
Definition extended (ps : list p2) : list p2 :=
  match ps with [] => [] | p :: _ => last ps p :: ps ++ [p] end.

(* 1129-1130 *)
Fixpoint area_sum (ps : list p2) : R :=
  match ps with
  | p :: ((q :: _) as ps') => cross2 p q + area_sum ps'
  | _ => 0
  end.

(* 1132-1144 for one vertex; sgn is fac * np.sign(signed_area) *)
Definition offset_vertex (d sgn : R) (prev p next : p2) : option p2 :=
  match unit2 (fst next - fst p, snd next - snd p), unit2 (fst p - fst prev, snd p - snd prev) with
  | Some vn, Some vp =>
      match unit2 (- ((fst vn + fst vp) * sgn), (snd vn + snd vp) * sgn) with
      | Some vb =>
          let dist := d / sqrt (1 / 2 * (1 + (fst vn * fst vp + snd vn * snd vp))) in
          Some (fst p + dist * snd vb, snd p + dist * fst vb)
      | None => None
      end
  | _, _ => None
  end.

(* points[:-2], points[1:-1], points[2:] *)
Fixpoint offset_ring (d sgn : R) (ext : list p2) : list (option p2) :=
  match ext with
  | a :: ((b :: c :: _) as ext') => offset_vertex d sgn a b c :: offset_ring d sgn ext'
  | _ => []
  end.

(* 1106-1154 for one face; d > 0 *)
Definition offset_face (fac d : R) (ps : list pt) : res (list (option pt)) :=
  let! axis := find_axis ps in
  let ext := extended (map (drop axis) ps) in
  Ok (map (option_map (insert0 axis)) (offset_ring d (fac * npsign (area_sum ext)) ext)).

Fixpoint offset_faces (fac d : R) (points : list pt) (offset : nat) (faces : list (list nat))
  : res (list (option pt) * list (list nat)) :=
  match faces with
  | [] => Ok ([], [])
  | f :: faces' =>
      let! ps := take points f in
      let! out := offset_face fac d ps in
      let! r := offset_faces fac d points (offset + length out) faces' in
      Ok (out ++ fst r, seq offset (length out) :: snd r)
  end.

Definition offset_polygon (points : list pt) (faces : list (list nat)) (distance : R)
  : res (list (option pt) * list (list nat)) :=
  match faces with
  | [] => Err ValueError                                                     (* 1094-1095 *)
  | _ =>
      if Rlt_dec 0 distance then offset_faces 1 distance points 0 faces
      else if Rlt_dec distance 0 then offset_faces (-1) (- distance) points 0 faces
      else Ok (map Some points, faces)                                       (* mesh.copy() *)
  end.
Open Scope nat_scope.

(* ---- extract_boundary_polygons: grouping of holes (250-277) ---- *)
(* itertools.permutations(range(n), 2) *)
Definition permutations2 (n : nat) : list (nat * nat) :=
  flat_map (fun i => map (fun j => (i, j)) (filter (fun j => negb (i =? j)) (seq 0 n))) (seq 0 n).

(* holes: (hole, ring) in order of insertion.  [contains i j]: area test and shapely's contains *)
Definition add_hole (contains : nat -> nat -> bool) (holes : list (nat * nat)) (ij : nat * nat)
  : list (nat * nat) :=
  let '(i, j) := ij in
  if existsb (fun h => fst h =? i) holes || existsb (fun h => fst h =? j) holes then holes
  else if contains i j then holes ++ [(j, i)] else holes.

Definition find_holes (contains : nat -> nat -> bool) (n : nat) : list (nat * nat) :=
  fold_left (add_hole contains) (permutations2 n) [].

(* 265-270: rings with their holes, as numbers of edges *)
Definition group_holes (contains : nat -> nat -> bool) (n : nat) : list (list nat) :=
  let holes := find_holes contains n in
  let init := map (fun i => if existsb (fun h => fst h =? i) holes then [] else [i]) (seq 0 n) in
  filter (fun l => negb (length l =? 0))
    (fold_left (fun ps h => upd (snd h) (nth (snd h) ps [] ++ [fst h]) ps) holes init).

(* 226-292, with edges the stripped lines; None: no boundary *)
Definition extract_boundary_polygons {E} (contains : E -> E -> bool) (with_holes : bool) (edges : list E)
  : option (list (list E)) :=
  match edges with
  | [] => None
  | e0 :: _ =>
      Some (if with_holes
            then map (map (fun i => nth i edges e0))
                     (group_holes (fun i j => contains (nth i edges e0) (nth j edges e0)) (length edges))
            else map (fun e => [e]) edges)
  end.

(* ---- fuse_cells (583-673) ---- *)
(* cells: type and point ids; data: rows of cell data.  7 is POLYGON, 0 is EMPTY_CELL *)
Record fmesh (P D : Type) := mkF { f_pts : list P; f_cells : list (nat * list nat); f_data : list D }.
Arguments mkF {P D}. Arguments f_pts {P D}. Arguments f_cells {P D}. Arguments f_data {P D}.

Section Fuse.
Variables (P D : Type) (eqb : P -> P -> bool).
(* get_dimension and extract_boundary_polygons of the extracted cells: points of each polygon *)
Variable dimension : list nat -> nat.
Variable boundary : list nat -> list (list P).

Definition matches (q : P) (ps : list P) : list nat :=
  filter (fun i => match nth_error ps i with Some p => eqb q p | None => false end) (seq 0 (length ps)).

(* 634-653 *)
Definition polygon_ids (m : fmesh P D) (poly : list P) : res (list nat) :=
  let! ids := mapM (fun q => match matches q (f_pts m) with i :: _ => Ok i | [] => Err IndexError end) poly in
  let! mp := take (f_pts m) ids in
  let found := map (fun q => matches q mp) poly in
  match found with
  | [] => Ok []
  | f0 :: _ => if forallb (fun f => length f =? length f0) found
               then take ids (concat found)
               else Err ValueError                                           (* ragged array *)
  end.

(* 613-662: cells and mask after one group *)
Definition fuse_group (m : fmesh P D) (st : list (nat * list nat) * list bool) (ind : list nat)
  : res (list (nat * list nat) * list bool) :=
  let '(cells, mask) := st in
  if existsb (fun i => length (f_cells m) <=? i) ind then Err IndexError else  (* ids are not negative *)
  let mask' := fold_left (fun k i => upd i false k) (tl ind) mask in
  if dimension ind =? 2 then
    match boundary ind with
    | [poly] =>
        let! ids := polygon_ids m poly in
        match ind with
        | [] => Err IndexError
        | i0 :: rest =>
            Ok (fold_left (fun c i => upd i (0, []) c) rest (upd i0 (7, ids) cells), mask')
        end
    | _ => Err ValueError                                                    (* 623-629 *)
    end
  else Err NotImplementedError.

Fixpoint fuse_loop (m : fmesh P D) (st : list (nat * list nat) * list bool) (groups : list (list nat))
  : res (list (nat * list nat) * list bool) :=
  match groups with
  | [] => Ok st
  | g :: gs => let! st' := fuse_group m st g in fuse_loop m st' gs
  end.

(* 583-673; groups of ids (boolean masks are np.flatnonzero'd first); the final clean() of VTK
   is not modelled *)
Definition fuse_cells (m : fmesh P D) (groups : list (list nat)) : res (fmesh P D) :=
  match groups with
  | [] => Err IndexError                                                     (* ind[0] *)
  | _ =>
      let! st := fuse_loop m (f_cells m, repeat true (length (f_cells m))) groups in
      Ok (mkF (f_pts m) (mask_get (snd st) (fst st)) (mask_get (snd st) (f_data m)))
  end.
End Fuse.

(* ---- Polygon (core/geometric_objects.py:432-652) ---- *)
(* to_points (475-502) of an array with rows of 2 or 3 columns *)
Definition row_eqb (a b : list R) : bool :=
  if list_eq_dec Req_EM_T a b then true else false.
Definition to_points (rows : list (list R)) : res (list (list R)) :=
  match rows with
  | [] => Err IndexError                                                     (* points[0] *)
  | r0 :: _ =>
      let closed := if row_eqb r0 (last rows r0) then rows else rows ++ [r0] in
      Ok (if length r0 =? 2 then map (fun r => r ++ [0%R]) closed else closed)
  end.

(* Calls of gmsh.  Tags are returned by gmsh. *)
Inductive gop :=
| Initialize
| AddPoint (row : list R) (size : R)
| AddLine (a b : nat)
| AddCurveLoop (tags : list nat)
| AddPlaneSurface (tags : list nat)
| Cut (objects tools : list nat)
| SetOptions
| Synchronize
| SetRecombine (tag : nat)
| Generate
| Optimize
| GetNodes
| GetElements
| Clear
| Finalize.

(* gmsh: the tag returned by a call after the calls made so far, None when it raises *)
Definition gmsh := list gop -> gop -> option nat.

(* a computation on the calls made so far *)
Definition gm (A : Type) := list gop -> list gop * res A.
Definition gret {A} (x : A) : gm A := fun t => (t, Ok x).
Definition gerr {A} (e : exn) : gm A := fun t => (t, Err e).
Definition gbind {A B} (m : gm A) (f : A -> gm B) : gm B :=
  fun t => match m t with (t', Ok x) => f x t' | (t', Err e) => (t', Err e) end.
Definition call (g : gmsh) (o : gop) : gm nat :=
  fun t => (t ++ [o], match g t o with Some tag => Ok tag | None => Err RuntimeError end).
Fixpoint gmapM {A B} (f : A -> gm B) (l : list A) : gm (list B) :=
  match l with
  | [] => gret []
  | x :: l' => gbind (f x) (fun y => gbind (gmapM f l') (fun ys => gret (y :: ys)))
  end.
Notation "'let*' x ':=' e 'in' f" := (gbind e (fun x => f)) (at level 200, x pattern, f at level 200).

(* np.linalg.norm(np.diff(points, axis=0), axis=-1) (516) *)
Definition row_norm (a b : list R) : R :=
  sqrt (fold_right Rplus 0%R (map2 (fun x y => (y - x) * (y - x))%R a b)).
Definition diff_norms (points : list (list R)) : list R := map2 row_norm points (tl points).

(* 514-523; points is closed: its last row is its first *)
Definition mesh_sizes (triangle : bool) (cellsize : option R) (points : list (list R)) : res (list R) :=
  let! sizes :=
    match cellsize with
    | None =>
        match diff_norms points with
        | [] => Err IndexError                                               (* lengths[-1] *)
        | (l0 :: _) as lengths => Ok (map2 Rmax (last lengths l0 :: lengths) lengths)
        end
    | Some c => Ok (repeat c (length points - 1))
    end in
  Ok (map (fun s => s * (if triangle then 1 else 2))%R sizes).

Definition glift {A} (r : res A) : gm A := fun t => (t, r).

(* 504-550 *)
Definition add_surface (g : gmsh) (triangle : bool) (cellsize : option R) (return_curve_loop : bool)
  (points : list (list R)) : gm nat :=
  let* sizes := glift (mesh_sizes triangle cellsize points) in
  let* tags := gmapM (fun rs => if length (fst rs) =? 3 then call g (AddPoint (fst rs) (snd rs))
                                else gerr ValueError)                        (* (x, y, z) *)
                     (combine (removelast points) sizes) in
  let* lines := gmapM (fun ab => call g (AddLine (fst ab) (snd ab))) (combine (removelast tags) (tl tags)) in
  match tags with
  | [] => gerr IndexError                                                    (* node_tags[-1] *)
  | t0 :: _ =>
      let* l := call g (AddLine (last tags t0) t0) in
      let* loop := call g (AddCurveLoop (lines ++ [l])) in
      if return_curve_loop then gret loop else call g (AddPlaneSurface [loop])
  end.

(* 572-605: the surfaces to mesh *)
Definition surfaces (g : gmsh) (triangle : bool) (cellsize : option R) (engine : string) (shell : list (list R)) (holes : list (list (list R)))
  : gm (list nat) :=
  if String.eqb engine "gmsh" then
    let* tags := gmapM (add_surface g triangle cellsize true) (shell :: holes) in
    let* tag := call g (AddPlaneSurface tags) in gret [tag]
  else if String.eqb engine "occ" then
    let* s := add_surface g triangle cellsize false shell in
    match holes with
    | [] => gret [s]
    | _ => let* hs := gmapM (add_surface g triangle cellsize false) holes in
           let* c := call g (Cut [s] hs) in gret [c]
    end
  else gerr ValueError.

(* what gmsh returns from getNodes and getElements after the calls made so far: tags and
   coordinates of the nodes; type and node tags of the elements, by type *)
Definition gmsh_mesh := (list (nat * pt) * list (nat * list (list nat)))%type.

(* 628-641: points, and cells by celltype (5: triangle, 9: quad); a KeyError for other elements *)
Definition to_pyvista (gm : gmsh_mesh) : res (list pt * list (nat * list (list Z))) :=
  let! cells :=
    mapM (fun te => match fst te with
                    | 2 => Ok (5, map (map (fun t => (Z.of_nat t - 1)%Z)) (snd te))
                    | 3 => Ok (9, map (map (fun t => (Z.of_nat t - 1)%Z)) (snd te))
                    | _ => Err KeyError
                    end)
         (filter (fun te => negb ((fst te =? 1) || (fst te =? 15))) (snd gm)) in
  Ok (map snd (fst gm), cells).

(* 569-642: the body of the try *)
Definition try_body (g : gmsh) (result : list gop -> gmsh_mesh) (quad optimization : bool)
  (cellsize : option R) (engine : string) (shell : list (list R)) (holes : list (list (list R)))
  : gm (list pt * list (nat * list (list Z))) :=
  let* _ := call g Initialize in
  let* dim_tags := surfaces g (negb quad) cellsize engine shell holes in
  let* _ := call g SetOptions in
  let* _ := call g Synchronize in
  let* _ := if quad then gmapM (fun t => call g (SetRecombine t)) dim_tags else gret [] in
  let* _ := call g Generate in
  let* _ := if optimization then call g Optimize else gret 0 in
  let* _ := call g GetNodes in
  let* _ := call g GetElements in
  fun t => (t, to_pyvista (result t)).

(* try: body finally: gmsh.clear(); gmsh.finalize() (644-646) *)
Definition finally {A} (g : gmsh) (body : gm A) : gm A :=
  fun t =>
    let '(t1, r) := body t in
    match call g Clear t1 with
    | (t2, Err e) => (t2, Err e)
    | (t2, Ok _) => match call g Finalize t2 with
                    | (t3, Err e) => (t3, Err e)
                    | (t3, Ok _) => (t3, r)
                    end
    end.

(* a mesh of one polygon, or the mesh of gmsh *)
Inductive poly_mesh :=
| OneCell (points : list (list R)) (ids : list nat)
| Meshed (points : list pt) (cells : list (nat * list (list Z))).

(* 432-651; the calls made to gmsh and the result *)
Definition polygon (g : gmsh) (result : list gop -> gmsh_mesh) (optimization : bool)
  (cellsize : option R) (engine : string) (celltype : option string)
  (shell : list (list R)) (holes : list (list (list R))) : list gop * res poly_mesh :=
  match to_points shell, mapM to_points holes with
  | Err e, _ => ([], Err e)
  | _, Err e => ([], Err e)
  | Ok shell', Ok holes' =>
      let default := if length holes' =? 0 then "polygon"%string else "triangle"%string in
      let celltype' := match celltype with
                       | Some c => if String.eqb c "" then default else c
                       | None => default
                       end in                                               (* 555 *)
      if String.eqb celltype' "polygon" then
        match holes' with
        | [] => ([], Ok (OneCell (removelast shell') (seq 0 (length (removelast shell')))))
        | _ => ([], Err ValueError)                                          (* 558-561 *)
        end
      else if String.eqb celltype' "quad" || String.eqb celltype' "triangle" then
        finally g (let* m := try_body g result (String.eqb celltype' "quad") optimization
                                      cellsize engine shell' holes' in
                   gret (Meshed (fst m) (snd m))) []
      else ([], Err ValueError)                                              (* 648-649 *)
  end.
