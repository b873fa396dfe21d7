(* Specification vocabulary for cell centers. *)
From Coq Require Import Reals Ascii.
From Verif Require Import Center_model Volume_spec Topo_spec.
Open Scope nat_scope.

(* ---- versions: three decimal numerals separated by dots ---- *)
Definition digit (c : ascii) : option nat :=
  let n := nat_of_ascii c in if (48 <=? n) && (n <=? 57) then Some (n - 48) else None.
Fixpoint value (acc : nat) (s : string) : option nat :=
  match s with
  | EmptyString => Some acc
  | String c s' => match digit c with Some d => value (10 * acc + d) s' | None => None end
  end.
Definition numeral (s : string) (n : nat) : Prop :=
  s <> EmptyString /\ value 0 s = Some n /\
  (forall s', s = String "0"%char s' -> s' = EmptyString).
Definition version_of (s : string) (v : nat * nat * nat) : Prop :=
  let '(a, b, c) := v in
  exists sa sb sc, numeral sa a /\ numeral sb b /\ numeral sc c /\
    s = (sa ++ "." ++ sb ++ "." ++ sc)%string.
Definition ver_le (v w : nat * nat * nat) : Prop :=
  let '(a, b, c) := v in let '(a', b', c') := w in
  a < a' \/ (a = a' /\ (b < b' \/ (b = b' /\ c <= c'))).

(* ---- centers ---- *)
Definition coord (k : nat) (p : vec) : R :=
  let '(x, y, z) := p in match k with 0 => x | 1 => y | _ => z end.

(* middle of the bounds *)
Definition mid_of_bounds (ps : list vec) (c : vec) : Prop :=
  forall k, k < 3 -> exists lo hi, In lo ps /\ In hi ps /\
    (forall p, In p ps -> coord k lo <= coord k p <= coord k hi)%R /\
    (coord k c + coord k c = coord k lo + coord k hi)%R.

Definition rsum (l : list R) : R := fold_right Rplus 0%R l.

Definition mean_of (ps : list vec) (c : vec) : Prop :=
  ps <> [] /\ forall k, k < 3 -> (INR (length ps) * coord k c = rsum (map (coord k) ps))%R.

(* triangles of a face, sharing its first vertex *)
Definition fan_triangles (f : list nat) : list (nat * nat * nat) :=
  match f with [] => [] | v0 :: r => map (fun '(u, v) => (v0, u, v)) (pairs r) end.
Definition triangles (faces : list (list nat)) : list (nat * nat * nat) := concat (map fan_triangles faces).

(* six times the signed volume of the tetrahedron on a triangle *)
Definition vol6 (P : nat -> vec) (a : vec) (t : nat * nat * nat) : R :=
  let '(u, v, w) := t in det3 (vsub (P u) a) (vsub (P v) a) (vsub (P w) a).

(* c is the average of the centers of the tetrahedra that join the triangles to the apex a,
   weighted by their signed volumes *)
Definition tet_centroid (P : nat -> vec) (a : vec) (faces : list (list nat)) (c : vec) : Prop :=
  rsum (map (vol6 P a) (triangles faces)) <> 0%R /\
  forall k, k < 3 ->
    (4 * rsum (map (vol6 P a) (triangles faces)) * coord k c =
     rsum (map (fun t => let '(u, v, w) := t in
             vol6 P a t * (coord k (P u) + coord k (P v) + coord k (P w) + coord k a))
           (triangles faces)))%R.

(* number of non-empty cells before cell i *)
Definition rank (types : list nat) (i : nat) : nat :=
  length (filter (fun t => negb (t =? 0)) (firstn i types)).

(* the center of VTK of cell i *)
Definition vtk_center (types : list nat) (vtk : list vec) (i : nat) (c : vec) : Prop :=
  nth_error vtk (rank types i) = Some c.

(* points of the vertices of a cell *)
Definition cell_points (points : list vec) (ids : list nat) (ps : list vec) : Prop :=
  Forall2 (fun i p => nth_error points i = Some p) ids ps.

(* faces of a polyhedron *)
Definition poly_faces (m : vmesh) (i : nat) (faces : list (list nat)) : Prop :=
  exists loc, nth_error (v_locs m) i = Some loc /\
    Forall2 (fun l f => nth_error (v_faces m) l = Some f) loc faces.

(* the center that each method stands for *)
Definition method_center (method : string) (points : list vec) (m : vmesh) (i : nat)
  (c : option vec) : Prop :=
  exists ids, nth_error (v_cells m) i = Some ids /\
  ((method = "box"%string /\ exists ps d, cell_points points ids ps /\ c = Some d /\ mid_of_bounds ps d) \/
   (method = "geometric"%string /\ exists ps, cell_points points ids ps /\
      ((ps = [] /\ c = None) \/ exists d, c = Some d /\ mean_of ps d)) \/
   (method = "tetra"%string /\ exists i0 rest a faces d, ids = i0 :: rest /\
      nth_error points i0 = Some a /\ poly_faces m i faces /\ c = Some d /\
      tet_centroid (at_pts points) a faces d)).

(* the versions of VTK that compute the center of a method otherwise *)
Definition own_formula (method : string) (v : nat * nat * nat) : Prop :=
  (method = "box"%string /\ ver_le (9, 5, 0) v) \/
  (method = "geometric"%string /\ v <> (9, 5, 0)) \/
  (method = "tetra"%string /\ ver_le v (9, 5, 0)).

(* image by an affine map of columns a, b, c and origin o *)
Definition affine_map (o a b c p : vec) : vec :=
  let '(x, y, z) := p in
  let '(o1, o2, o3) := o in let '(a1, a2, a3) := a in
  let '(b1, b2, b3) := b in let '(c1, c2, c3) := c in
  (o1 + x * a1 + y * b1 + z * c1, o2 + x * a2 + y * b2 + z * c2, o3 + x * a3 + y * b3 + z * c3)%R.

(* every directed edge of the faces is matched by its reverse *)
Definition balanced (faces : list (list nat)) : Prop :=
  forall u v, edge_count faces u v = edge_count faces v u.

Definition dotv (n p : vec) : R := (coord 0 n * coord 0 p + coord 1 n * coord 1 p + coord 2 n * coord 2 p)%R.
