(* Specification vocabulary for faces, neighbours, dimensions and extraction. *)
From Coq Require Import Reals Permutation Sorted.
From Verif Require Import Topo_model Volume_spec.
Open Scope nat_scope.

(* ---- faces of cells ---- *)
Definition same_set (f g : list nat) : Prop := forall x, In x f <-> In x g.

(* faces of the linear VTK cells, as listed in vtkTetra.cxx, vtkVoxel.cxx,
   vtkHexahedron.cxx, vtkWedge.cxx and vtkPyramid.cxx (local vertex numbers) *)
Definition vtk_faces (t : nat) : list (list nat) :=
  match t with
  | 10 => [[0; 1; 3]; [1; 2; 3]; [2; 0; 3]; [0; 2; 1]]
  | 11 => [[2; 0; 6; 4]; [1; 3; 5; 7]; [0; 1; 4; 5]; [3; 2; 7; 6]; [1; 0; 3; 2]; [4; 5; 6; 7]]
  | 12 => [[0; 4; 7; 3]; [1; 2; 6; 5]; [0; 1; 5; 4]; [3; 7; 6; 2]; [0; 3; 2; 1]; [4; 5; 6; 7]]
  | 13 => [[0; 1; 2]; [3; 5; 4]; [0; 3; 4; 1]; [1; 4; 5; 2]; [2; 5; 3; 0]]
  | 14 => [[0; 3; 2; 1]; [0; 1; 4]; [1; 2; 4]; [2; 3; 4]; [3; 0; 4]]
  | _ => []
  end.

(* [fs] are the edges of a cell of type [t] and vertices [ids] in a mesh of dimension at most
   two: consecutive vertices of lines, closed rings of polygons (pixels are listed by rows) *)
Inductive edges_of (rg : bool) : nat -> list nat -> list (list nat) -> Prop :=
| eo_line t ids : t = 3 \/ t = 4 ->
    edges_of rg t ids (map (fun '(u, v) => [u; v]) (Volume_spec.pairs ids))
| eo_pixel a b c d l : edges_of rg 8 (a :: b :: c :: d :: l) [[a; b]; [b; d]; [d; c]; [c; a]]
| eo_ring t ids : In t [5; 7; 9] ->
    edges_of rg t ids (map (fun '(u, v) => [u; v]) (ring_edges ids))
| eo_ghost_kept ids : rg = false ->
    edges_of rg 0 ids (map (fun '(u, v) => [u; v]) (ring_edges ids))
| eo_ghost_removed ids : rg = true -> edges_of rg 0 ids [].

(* [fs] are the faces of a three-dimensional cell, in some order, up to the order of their
   vertices *)
Inductive faces_of : nat -> conn -> list (list nat) -> Prop :=
| fo_poly fs : faces_of 42 (CFaces fs) fs
| fo_poly_empty : faces_of 42 (CIds []) []
| fo_linear t ids table fs : In t [10; 11; 12; 13; 14] ->
    Permutation table (vtk_faces t) ->
    (forall loc, In loc table -> forall v, In v loc -> v < length ids) ->
    Forall2 (fun loc f => same_set f (map (fun v => nth v ids 0) loc)) table fs ->
    faces_of t (CIds ids) fs
| fo_empty c : faces_of 0 c [].

(* cell-face incidences, cell by cell *)
Definition incidences (faces : list (list (list nat))) : list (nat * list nat) :=
  concat (map2 (fun i fs => map (fun f => (i, f)) fs) (seq 0 (length faces)) faces).

(* every distinct face is listed once, in order of first occurrence, as it is in its first
   cell; row k lists the cells that have it (in order, as often as they have it), then -1 *)
Definition lists_once (occ : list (nat * list nat)) (g : geom) : Prop :=
  exists pos : list nat,
    length (g_faces g) = length pos /\ length (g_rows g) = length pos /\
    StronglySorted lt pos /\
    (forall k p, nth_error pos k = Some p ->
       exists i f,
         nth_error occ p = Some (i, f) /\
         nth_error (g_faces g) k = Some f /\
         (forall q j h, q < p -> nth_error occ q = Some (j, h) -> ~ same_set h f) /\
         exists sel n,
           nth_error (g_rows g) k = Some (map (fun o => Z.of_nat (fst o)) sel ++ repeat (-1)%Z n) /\
           exists keep, sel = filter keep occ /\ (forall o, keep o = true <-> same_set (snd o) f)) /\
    (forall o, In o occ -> exists k f, nth_error (g_faces g) k = Some f /\ same_set (snd o) f).

(* rows are all of the size of the largest number of incidences of one face *)
Definition common_width (w : nat) (g : geom) : Prop :=
  (forall r, In r (g_rows g) -> length r = w) /\
  (exists r, In r (g_rows g) /\ ~ In (-1)%Z r).

(* every cell has a type and ids; only cells have faces *)
Definition wf_mesh (m : vmesh) : Prop :=
  length (v_cells m) = length (v_types m) /\ length (v_locs m) <= length (v_types m).

(* nested connectivity of cell i: the faces of a polyhedron, the ids of another cell *)
Definition cell_conn (m : vmesh) (i : nat) (c : conn) : Prop :=
  exists ids, nth_error (v_cells m) i = Some ids /\
  ((In 42 (v_types m) /\ exists loc fs, nth_error (v_locs m) i = Some loc /\ loc <> [] /\
      Forall2 (fun l f => nth_error (v_faces m) l = Some f) loc fs /\ c = CFaces fs) \/
   ((~ In 42 (v_types m) \/ nth_error (v_locs m) i = None \/ nth_error (v_locs m) i = Some []) /\
    c = CIds ids)).

(* the faces of the cells of the mesh: edges when its dimension is one or two *)
Definition mesh_faces (rg : bool) (m : vmesh) (n : Z) (faces : list (list (list nat))) : Prop :=
  length faces = length (v_types m) /\
  forall i t, nth_error (v_types m) i = Some t ->
    exists c fs, cell_conn m i c /\ nth_error faces i = Some fs /\
      if ((n =? 1) || (n =? 2))%Z then exists ids, c = CIds ids /\ edges_of rg t ids fs
      else faces_of t c fs.

(* no face is collapsed, or collapsed faces are kept *)
Definition no_collapse (nonzero : list nat -> bool) (rg : bool) (faces : list (list (list nat))) : Prop :=
  rg = true -> forall f, In f (concat faces) -> nonzero f = true.

(* cells i and j share a face: two incidences with the same vertices *)
Definition share (faces : list (list (list nat))) (i j : nat) : Prop :=
  exists p q f h, p <> q /\
    nth_error (incidences faces) p = Some (i, f) /\
    nth_error (incidences faces) q = Some (j, h) /\ same_set f h.

(* cell i has n faces that are also those of another incidence, of cell j *)
Definition multiplicity (faces : list (list (list nat))) (i j n : nat) : Prop :=
  exists ps, NoDup ps /\ length ps = n /\
    forall p, In p ps <-> exists q f h, p <> q /\ nth_error (incidences faces) p = Some (i, f) /\
      nth_error (incidences faces) q = Some (j, h) /\ same_set f h.

(* a face is used by at least [k] incidences *)
Definition used (k : nat) (faces : list (list (list nat))) : Prop :=
  exists ps f, length ps = k /\ NoDup ps /\
    forall p, In p ps -> exists i h, nth_error (incidences faces) p = Some (i, h) /\ same_set h f.

(* the lines join the two cells of every listed face that has two, in order *)
Definition shared_pairs (occ : list (nat * list nat)) (g : geom) (lines : list (Z * Z)) : Prop :=
  Forall2 (fun f l => exists p q i j f1 f2, p < q /\ l = (Z.of_nat i, Z.of_nat j) /\
             nth_error occ p = Some (i, f1) /\ nth_error occ q = Some (j, f2) /\
             same_set f1 f /\ same_set f2 f /\
             (forall r k h, nth_error occ r = Some (k, h) -> same_set h f -> r = p \/ r = q))
    (map fst (filter (fun fr => negb (existsb (Z.eqb (-1)) (snd fr))) (combine (g_faces g) (g_rows g)))) lines.

(* rows: nonnegative ids followed by -1 *)
Definition row_form (r : list Z) : Prop := exists ids n, r = map Z.of_nat ids ++ repeat (-1)%Z n /\ ids <> [].

(* ---- dimension of a VTK cell type (vtkCell::GetCellDimension) ---- *)
Definition vtk_dimension (t : nat) : option Z :=
  if existsb (Nat.eqb t) [1; 2] then Some 0%Z
  else if existsb (Nat.eqb t) [3; 4; 21; 35; 51; 60; 68; 75] then Some 1%Z
  else if existsb (Nat.eqb t)
       [5; 6; 7; 8; 9; 22; 23; 28; 30; 34; 36; 52; 53; 54; 61; 62; 63; 69; 70; 76; 77] then Some 2%Z
  else if existsb (Nat.eqb t)
       [10; 11; 12; 13; 14; 15; 16; 24; 25; 26; 27; 29; 31; 32; 33; 37; 41; 42; 55; 56;
        64; 65; 66; 67; 71; 72; 73; 74; 78; 79; 80; 81] then Some 3%Z
  else None.

Definition known_type (t : nat) : Prop := t = 0 \/ vtk_dimension t <> None.

(* dimension of a cell; empty cells have none: -1 *)
Definition dim_or_empty (t : nat) : Z := match vtk_dimension t with Some k => k | None => (-1)%Z end.

(* ---- decoded cells ---- *)
Definition decodes (t : nat) (c : conn) (v : vcell) : Prop :=
  match c with
  | CFaces fs => v = Poly fs
  | CIds ids => if t =? 42 then ids = [] /\ v = Poly [] else v = Plain t ids
  end.

(* ---- linear cells ---- *)
(* number of points and parametric coordinates (times two) of the linear VTK cells *)
Definition vtk_points (t : nat) : list (Z * Z * Z) :=
  match t with
  | 10 => [(0, 0, 0); (2, 0, 0); (0, 2, 0); (0, 0, 2)]%Z
  | 11 => [(0, 0, 0); (2, 0, 0); (0, 2, 0); (2, 2, 0); (0, 0, 2); (2, 0, 2); (0, 2, 2); (2, 2, 2)]%Z
  | 12 => [(0, 0, 0); (2, 0, 0); (2, 2, 0); (0, 2, 0); (0, 0, 2); (2, 0, 2); (2, 2, 2); (0, 2, 2)]%Z
  | 13 => [(0, 0, 0); (2, 0, 0); (0, 2, 0); (0, 0, 2); (2, 0, 2); (0, 2, 2)]%Z
  | 14 => [(0, 0, 0); (2, 0, 0); (2, 2, 0); (0, 2, 0); (1, 1, 2)]%Z
  | _ => []
  end.

(* image of parametric coordinates by an affine map *)
Definition affine (o a b c : vec) (p : Z * Z * Z) : vec :=
  let '(x, y, z) := p in
  let '(o1, o2, o3) := o in let '(a1, a2, a3) := a in
  let '(b1, b2, b3) := b in let '(c1, c2, c3) := c in
  (o1 + IZR x * a1 + IZR y * b1 + IZR z * c1,
   o2 + IZR x * a2 + IZR y * b2 + IZR z * c2,
   o3 + IZR x * a3 + IZR y * b3 + IZR z * c3)%R.
