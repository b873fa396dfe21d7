(* Model of VoronoiMesh2D.add, add_circle and add_polyline (core/voronoi.py:62-322). *)
From Coq Require Import Reals.
From Verif Require Export Prelude.
From Verif Require Import Perc_model Grid Surface_model Volume_model Groups_model Lines_model Voronoi_model Objects_model.
Open Scope R_scope.

(* a cell is the list of its vertices *)
Notation cell := (list pt).

(* cells of the triangles of a Sector *)
Definition fan_cells (m : tmesh) : list cell :=
  map (map (fun i => nth i (t_pts m) origin)) (t_cells m).

(* cells of a structured surface of n x m nodes (n, m >= 2), in the order of VTK: node (i, j)
   has id i + n j *)
Definition grid_cells (n m : nat) (pts : list pt) : list cell :=
  flat_map (fun j => map (fun i =>
      map (fun k => nth k pts origin)
          [i + n * j; S i + n * j; S i + n * S j; i + n * S j]%nat) (seq 0 (n - 1)))
    (seq 0 (m - 1)).

(* dimensions other than 1 *)
Definition surface_dims (d : shape3) : list nat :=
  let '(x, y, z) := d in filter (fun n => negb (n =? 1)%nat) [x; y; z].

Definition sgrid_cells {D} (g : sgrid D) : list cell :=
  match surface_dims (sg_dims g) with
  | [n; m] => grid_cells n m (sg_pts g)
  | _ => []
  end.

(* self.items and self.fuse_cells, a function of self.fuse_cells being applied row by row *)
Record seeds := mkSeeds { s_items : list (vitem cell); s_fuse : list (pt -> bool) }.

(* 97: points[:, axis] = 0.0 *)
Definition flatten (axis : nat) (p : pt) : pt := insert_axis axis (drop_axis axis p).

(* 62-101, a mesh is given *)
Definition add_mesh (axis : nat) (s : seeds) (m : gmesh cell) (poly : bool) (priority : Z)
  (group : string) : seeds :=
  let m := mkG (map (map (flatten axis)) (gm_cells m)) (gm_cg m) (gm_labels m) in
  mkSeeds (s_items s ++ [mkVI m poly group priority]) (s_fuse s).

(* core/_base.py:84-118, an array of n rows *)
Definition check_row (axis : nat) (row : list R) : res pt :=
  match row with
  | [u; v] => Ok (insert_axis axis (u, v))
  | [x; y; z] => Ok (x, y, z)
  | _ => Err ValueError
  end.

(* 62-101, points are given: a PolyData of vertices.  Second component: the exception, if any;
   the first is the state left behind. *)
Definition add_points (axis : nat) (s : seeds) (rows : list (list R)) (priority : Z) (group : string)
  : seeds * res unit :=
  match mapM (check_row axis) rows with
  | Ok ps => (add_mesh axis s (mkG (map (fun p => [p]) ps) None None) true priority group, Ok tt)
  | Err e => (s, Err e)
  end.

(* 175-179: the function given to fuse_cells *)
Definition plain_center (axis : nat) (center : option (list R)) : res pt :=
  match center with
  | None => Ok (0, 0, 0)
  | Some [u; v] => Ok (insert_axis axis (u, v))
  | Some [x; y; z] => Ok (x, y, z)
  | Some _ => Err ValueError
  end.
Definition inside (center : pt) (radius : R) (x : pt) : bool :=
  if Rlt_dec (Objects_model.norm (sub3 x center)) radius then true else false.

(* the sequel of a step that may fail *)
Definition after {A} (s : seeds) (r : res A) (f : A -> seeds * res unit) : seeds * res unit :=
  match r with Ok x => f x | Err e => (s, Err e) end.

(* 103-181.  [swap] as in merge_generate, [areas] as in generate_surface_from_two_lines. *)
Definition add_circle (areas : shape3 -> list pt -> list R) (swap : bool) (axis : nat) (s : seeds)
  (radius : R) (constraint_radius : option R) (resolution : resolution) (center : option (list R))
  (plain : bool) (priority : Z) (group : string) : seeds * res unit :=
  let cr := match constraint_radius with Some c => c | None => 3 / 2 * radius end in  (* 142-144 *)
  let dr := cr - radius in                                                       (* 145 *)
  let ts := mkSub resolution None in
  let one := mkSub (ResInt 1) None in
  let fuse := fun s' =>                                                          (* 174-179 *)
    if plain then after s' (plain_center axis center) (fun c =>
                          (mkSeeds (s_items s') (s_fuse s' ++ [inside c radius]), Ok tt))
    else (s', Ok tt) in
  if Rlt_dec 0 dr then                                                           (* 147-162 *)
    after s (Circle (radius - dr) ts center) (fun c =>
    after s (Annulus areas (radius - dr) radius one ts center) (fun a =>
    after s (merge_generate (mk_options "" []) swap
               [(mkG (fan_cells c) None None, ""%string); (mkG (sgrid_cells a) None None, ""%string)]) (fun m =>
    let s1 := add_mesh axis s (fst m) false priority group in
    after s1 (Annulus areas radius (radius + dr) one ts center) (fun a =>
    fuse (add_mesh axis s1 (mkG (sgrid_cells a) None None) false 0%Z "")))))
  else if Req_EM_T dr 0 then                                                     (* 164-169 *)
    after s (Circle radius ts center) (fun c =>
    fuse (add_mesh axis s (mkG (fan_cells c) None None) false priority group))
  else (s, Err ValueError).                                                      (* 171-172 *)

(* ---- add_polyline (183-322) ---- *)
Definition sub2 (p q : pt2) : pt2 := (fst p - fst q, snd p - snd q).
Definition plus2 (p q : pt2) : pt2 := (fst p + fst q, snd p + snd q).
Definition scale2 (k : R) (p : pt2) : pt2 := (k * fst p, k * snd p).
Definition norm2 (p : pt2) : R := sqrt (fst p * fst p + snd p * snd p).

(* points[0] + padding * (points[0] - points[1]) / norm *)
Definition away (padding : R) (p q : pt2) : pt2 :=
  plus2 p (scale2 (/ norm2 (sub2 p q)) (scale2 padding (sub2 p q))).

(* np.diff(points, axis=0) *)
Fixpoint diff (l : list pt2) : list pt2 :=
  match l with
  | p :: ((q :: _) as l') => sub2 q p :: diff l'
  | _ => []
  end.
Fixpoint middles (l : list pt2) : list pt2 :=
  match l with
  | p :: ((q :: _) as l') => scale2 (/ 2) (plus2 p q) :: middles l'
  | _ => []
  end.

(* 253-268 *)
Definition axis_points (pref : preference) (padding : R) (points : list pt2) : res (list pt2) :=
  match pref with
  | PrefPoint => Ok points
  | PrefCell =>
      match points, rev points with
      | p0 :: p1 :: _, q0 :: q1 :: _ =>
          Ok (away padding p0 p1 :: middles points ++ [away padding q0 q1])
      | _, _ => Err IndexError
      end
  end.

(* 282-291: points, forward and backward directions *)
Definition strip3 := (list pt2 * list pt2 * list pt2)%type.
Definition extend_start (x : strip3) : res strip3 :=
  match x with
  | (p :: ps, f :: fs, b :: bs) => Ok (sub2 p f :: p :: ps, f :: f :: fs, b :: b :: bs)
  | _ => Err IndexError
  end.
Definition extend_end (x : strip3) : res strip3 :=
  let '(ps, fs, bs) := x in
  match rev ps, rev fs, rev bs with
  | p :: _, f :: _, b :: _ => Ok (ps ++ [sub2 p b], fs ++ [f], bs ++ [b])
  | _, _, _ => Err IndexError
  end.
Fixpoint times_do {A} (n : nat) (f : A -> res A) (x : A) : res A :=
  match n with O => Ok x | S n' => let! y := f x in times_do n' f y end.

(* 294-297, one row *)
Definition normal (f b : pt2) : pt2 :=
  let n := scale2 (/ 2) (plus2 (- snd f, fst f) (snd b, - fst b)) in
  scale2 (/ norm2 n) n.

(* 270-297: the points of the strip and their normals *)
Definition strip (cs ce : nat) (points : list pt2) : res (list (pt2 * pt2)) :=
  let f := diff points in                                                        (* 271 *)
  let b := rev (diff (rev points)) in                                            (* 275 *)
  match rev f, b with
  | fl :: _, b0 :: _ =>
      let! x := times_do cs extend_start (points, f ++ [fl], b0 :: b) in         (* 272, 276, 279-282 *)
      let! x := times_do ce extend_end x in                                      (* 284-287 *)
      let '(ps, fs, bs) := x in
      Ok (combine ps (map2 normal fs bs))
  | _, _ => Err IndexError
  end.

(* 311-313: constraint_.ravel(order="F") for a grid of n x m cells *)
Definition constraint_mask (n m cs ce : nat) : list bool :=
  flat_map (fun j => map (fun i =>
      negb ((cs <=? i) && (i <? n - ce) && (1 <=? j) && (j <? m - 1))%nat%bool) (seq 0 n))
    (seq 0 m).

(* 248: perc[0], perc[1], perc[-1], perc[-2] *)
Definition extended_perc (perc : list R) : res (list R) :=
  match perc, rev perc with
  | p0 :: p1 :: _, q0 :: q1 :: _ => Ok ((2 * p0 - p1) :: perc ++ [2 * q0 - q1])
  | _, _ => Err IndexError
  end.

(* 250-320, one polyline: the two items *)
Definition polyline_items (areas : shape3 -> list pt -> list R) (axis : nat) (perc : list R)
  (width : R) (pref : preference) (padding : option R) (cs ce : nat) (priority : Z) (group : string)
  (points : list pt) : res (list (vitem cell)) :=
  let padding := match padding with Some p => p | None => / 2 * width end in     (* 254 *)
  let! ps := axis_points pref padding (map (drop_axis axis) points) in           (* 252-268 *)
  let! st := strip cs ce ps in                                                   (* 270-297 *)
  let tvec := map (fun pn => scale (/ 2 * width) (insert_axis axis (snd pn))) st in  (* 300-303 *)
  let line_a := map2 (fun pn t => sub3 (insert_axis axis (fst pn)) t) st tvec in (* 304 *)
  let line_b := map2 (fun pn t => add3 (insert_axis axis (fst pn)) t) st tvec in (* 305 *)
  let plane := (match axis with O => "yz" | S O => "xz" | _ => "xy" end)%string in
  let! g := generate_surface_from_two_lines (D := unit) areas (LineArr line_a) (LineArr line_b)
              plane (ResArr perc) None in                                        (* 307 *)
  match surface_dims (sg_dims g) with
  | [n; m] =>
      let mask := constraint_mask (n - 1) (m - 1) cs ce in                       (* 310-313 *)
      let cells := grid_cells n m (sg_pts g) in
      Ok [mkVI (mkG (mask_get (map negb mask) cells) None None) false group priority;  (* 316-320 *)
          mkVI (mkG (mask_get mask cells) None None) false "" 0%Z]
  | _ => Err IndexError
  end.

Fixpoint polyline_loop (f : list pt -> res (list (vitem cell))) (s : seeds) (lines : list (list pt))
  : seeds * res unit :=
  match lines with
  | [] => (s, Ok tt)
  | l :: ls => after s (f l) (fun its =>
                 polyline_loop f (mkSeeds (s_items s ++ its) (s_fuse s)) ls)
  end.

(* 183-322.  The argument is an array of rows of three coordinates or a polydata of lines.
   Simplifications: the constraints are not negative; vectors of length zero (NaN in NumPy)
   are not treated apart; any preference but "cell" behaves as "point". *)
Definition polyline_mesh {D} (arg : list pt + lmesh pt D) : res (lmesh pt D) :=
  match arg with
  | inl pts => let! pts := multiple_lines pts in Ok (mkL pts [seq 0 (length pts)] [] [])  (* 233-234 *)
  | inr m => Ok m                                                                (* 236-237 *)
  end.
Definition add_polyline {D} (areas : shape3 -> list pt -> list R) (axis : nat) (s : seeds)
  (arg : list pt + lmesh pt D) (width : R) (pref : preference) (padding : option R) (cs ce : nat)
  (resolution : resolution) (priority : option Z) (group : string) : seeds * res unit :=
  after s (polyline_mesh arg) (fun m =>
  after s (resolution_to_perc resolution None) (fun perc =>                      (* 247 *)
  after s (extended_perc perc) (fun perc =>                                      (* 248 *)
  after s (split_lines true m) (fun ls =>                                        (* 251 *)
  polyline_loop (polyline_items areas axis perc width pref padding cs ce
                   (match priority with Some p => p | None => 0%Z end) group) s (map l_pts ls))))).
