(* Vocabulary of the properties of offset_polygon, extract_boundary_polygons, fuse_cells and Polygon. *)
From Coq Require Import Reals Permutation Sorted.
From Verif Require Import Prelude Surface_model Volume_spec Lines_spec Polygon_model.
Open Scope R_scope.

(* ---- polygons of a coordinate plane ---- *)
Definition coord (k : nat) (p : pt) : R :=
  match k with 0%nat => fst (fst p) | 1%nat => snd (fst p) | _ => snd p end.
(* the two other coordinates *)
Definition in_plane (k : nat) (p : pt) : R * R :=
  match k with
  | 0%nat => (snd (fst p), snd p)
  | 1%nat => (fst (fst p), snd p)
  | _ => fst p
  end.

(* k is the only coordinate constant over the points *)
Definition only_constant (k : nat) (ps : list pt) : Prop :=
  (k < 3)%nat /\
  forall j, (j < 3)%nat -> (j = k <-> forall p q, In p ps -> In q ps -> coord j p = coord j q).

(* b is vertex k of a closed ring, between a and c *)
Definition corner {A} (ps : list A) (k : nat) (a b c : A) : Prop :=
  nth_error ps k = Some b /\
  nth_error ps ((k + length ps - 1) mod length ps) = Some a /\
  nth_error ps ((k + 1) mod length ps) = Some c.

Definition sub2 (a b : R * R) : R * R := (fst a - fst b, snd a - snd b).
Definition det2 (a b : R * R) : R := fst a * snd b - snd a * fst b.
Definition dot2 (a b : R * R) : R := fst a * fst b + snd a * snd b.
Definition len2 (a : R * R) : R := sqrt (dot2 a a).

(* signed distance of q to the line from a to b, positive to the right *)
Definition right_of (a b q : R * R) : R := det2 (sub2 q a) (sub2 b a) / len2 (sub2 b a).

(* the edges before and after b go in opposite directions *)
Definition folds_back (a b c : R * R) : Prop :=
  det2 (sub2 b a) (sub2 c b) = 0 /\ dot2 (sub2 b a) (sub2 c b) < 0.

(* b q is orthogonal to the mean direction of the edges before and after b *)
Definition on_bisector (a b c q : R * R) : Prop :=
  dot2 (sub2 q b) (sub2 b a) / len2 (sub2 b a) + dot2 (sub2 q b) (sub2 c b) / len2 (sub2 c b) = 0.

(* twice the signed area: positive when counterclockwise *)
Definition shoelace (ps : list (R * R)) : R :=
  fold_right Rplus 0 (map (fun e => det2 (fst e) (snd e)) (ring_edges ps)).
(* the same with the closing edge counted twice *)
Definition shoelace_twice_closed (ps : list (R * R)) : R :=
  shoelace ps + match ps with [] => 0 | p :: _ => det2 (last ps p) p end.

Definition sgn (x : R) : R :=
  if Rlt_dec 0 x then 1 else if Rlt_dec x 0 then -1 else 0.

(* qs are the vertices of ps moved by d to the right of the ring, None when not a number *)
Definition moved_right (k : nat) (d : R) (ps : list pt) (qs : list (option pt)) : Prop :=
  length qs = length ps /\
  forall i a b c, corner (map (in_plane k) ps) i a b c ->
    exists q, nth_error qs i = Some q /\
      (q = None <-> a = b \/ b = c \/ folds_back a b c \/ d = 0) /\
      (forall x, q = Some x ->
         right_of a b (in_plane k x) = d /\ right_of b c (in_plane k x) = d /\
         on_bisector a b c (in_plane k x)).

(* a face and its offset: vertices moved to the right or to the left of the ring, in the plane
   through the origin *)
Definition face_offset (d : R) (points : list pt) (f : list nat) (out : list (option pt)) (ids : list nat) : Prop :=
  exists ps qs k, picks points f ps /\ picks out ids qs /\ only_constant k ps /\
    moved_right k (sgn (shoelace_twice_closed (map (in_plane k) ps)) * d) ps qs /\
    Forall (fun q => forall x, q = Some x -> coord k x = 0) qs.
Open Scope nat_scope.

(* ---- boundaries and holes ---- *)
(* at most one level of nesting *)
Definition flat_nesting {E} (contains : E -> E -> bool) (edges : list E) : Prop :=
  forall a b c, In a edges -> In b edges -> In c edges ->
    contains a b = true -> contains b c = false.

(* ---- fused cells ---- *)
(* no cell is twice in the groups *)
Definition separate (groups : list (list nat)) : Prop :=
  NoDup (concat groups) /\ Forall (fun g => g <> []) groups.

(* cell i of the input stays, or is the new cell of a group with points at the ids *)
Definition fused_into {P D} (boundary : list nat -> list (list P)) (groups : list (list nat))
  (m : fmesh P D) (i : nat) (c : nat * list nat) : Prop :=
  (~ In i (concat groups) /\ nth_error (f_cells m) i = Some c) \/
  (exists g rest poly, In g groups /\ g = i :: rest /\ boundary g = [poly] /\
     fst c = 7 /\ picks (f_pts m) (snd c) poly).

(* what fusing means: the cells other than the second and further members of the groups, in
   order, with their data *)
Definition fused {P D} (boundary : list nat -> list (list P)) (groups : list (list nat))
  (m out : fmesh P D) : Prop :=
  f_pts out = f_pts m /\
  exists kept, StronglySorted lt kept /\
    (forall i, In i kept <->
       i < length (f_cells m) /\ forall i0 rest, In (i0 :: rest) groups -> ~ In i rest) /\
    Forall2 (fused_into boundary groups m) kept (f_cells out) /\
    picks (f_data m) kept (f_data out).

(* a group of cells of dimension 2 with one boundary, through points of the mesh *)
Definition fusable {P D} (dimension : list nat -> nat) (boundary : list nat -> list (list P))
  (m : fmesh P D) (g : list nat) : Prop :=
  g <> [] /\ in_range (length (f_cells m)) g /\ dimension g = 2 /\
  exists poly, boundary g = [poly] /\ forall q, In q poly -> In q (f_pts m).

(* ---- Polygon ---- *)
Definition open_ring (l : list (list R)) : Prop :=
  match l with [] => False | p :: _ => last l p <> p end.
Definition rows_of (n : nat) (l : list (list R)) : Prop := Forall (fun r => length r = n) l.

Definition session_op (o : gop) : Prop := o = Initialize \/ o = Clear \/ o = Finalize.

(* lines drawn: ends of the line, in order *)
Fixpoint drawn (t : list gop) : list (nat * nat) :=
  match t with
  | AddLine a b :: t' => (a, b) :: drawn t'
  | _ :: t' => drawn t'
  | [] => []
  end.
(* points added: coordinates and mesh size *)
Fixpoint added (t : list gop) : list (list R * R) :=
  match t with
  | AddPoint r s :: t' => (r, s) :: added t'
  | _ :: t' => added t'
  | [] => []
  end.

Definition row_dist (a b : list R) : R :=
  sqrt (fold_right Rplus 0%R (map (fun xy => ((fst xy - snd xy) * (fst xy - snd xy))%R) (combine a b))).

(* the size at a vertex: the longest of its two edges *)
Definition sized (f : R) (ring : list (list R)) (block : list (list R * R)) : Prop :=
  map fst block = ring /\
  forall k a b c, corner ring k a b c ->
    nth_error block k = Some (b, f * Rmax (row_dist a b) (row_dist b c))%R.

(* the points of a ring with the size asked for *)
Definition sized_as (cellsize : option R) (f : R) (ring : list (list R)) (block : list (list R * R)) : Prop :=
  match cellsize with
  | None => sized f ring block
  | Some c => block = map (fun r => (r, f * c)%R) ring
  end.

(* gmsh numbers the points from 1 *)
Definition numbered (g : gmsh) : Prop :=
  forall t r s k, g t (AddPoint r s) = Some k -> k = S (length (added t)).

(* the ends of the lines are the points with these tags *)
Definition draws (t : list gop) (e : nat * nat) (ends : list R * list R) : Prop :=
  0 < fst e /\ 0 < snd e /\
  nth_error (map fst (added t)) (fst e - 1) = Some (fst ends) /\
  nth_error (map fst (added t)) (snd e - 1) = Some (snd ends).

Definition in_tags (n : nat) (element : list nat) : Prop := forall t, In t element -> 1 <= t <= n.

(* the cell has the points of the nodes of the element *)
Definition same_points (gm : gmsh_mesh) (points : list pt) (element : list nat) (cell : list Z) : Prop :=
  Forall2 (fun t z => exists k p, z = Z.of_nat k /\ In (t, p) (fst gm) /\ nth_error points k = Some p)
    element cell.
