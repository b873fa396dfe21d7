(* Model of pvgridder/core/_helpers.py: generate_volume_from_two_surfaces (233-458),
   repeat_structured_data (512-547), _extruded_celltype_map (585-589). *)
From Verif Require Export Surface_model.
Open Scope R_scope.

(* ---------- structured branch ---------- *)

(* Input structured surface; "vtkGhostType" is kept apart from the other cell data. *)
Record ssurf (D : Type) := mkSsurf {
  ss_dims : shape3; ss_pts : list pt;
  ss_pd : list (string * list D); ss_cd : list (string * list D);
  ss_ghost : option (list nat) }.
Arguments mkSsurf {D}.
Arguments ss_dims {D}. Arguments ss_pts {D}. Arguments ss_pd {D}.
Arguments ss_cd {D}. Arguments ss_ghost {D}.

(* core/_helpers.py:512-547.  Rows play the role of the columns loop (536-547): every
   component is treated alike.  reshape fails when sizes differ.  np.repeat repeats
   each slice [repeats] times along [axis]. *)
Definition repeat_structured_data {D} (shape : shape3) (data : list D) (repeats axis : nat)
  : res (list D) :=
  if negb (length data =? size3 shape)%nat then Err ValueError
  else match data with
       | [] => Ok []
       | d :: _ =>
           let n := (comp axis shape * repeats)%nat in
           let '(nx, ny, nz) := setc axis n shape in
           Ok (ravelF nx ny nz (fun i j k =>
                 let c := (i, j, k) in
                 nth (fidx shape (setc axis (comp axis c / repeats)%nat c)) data d))
       end.

(* utils/_properties.py get_dimension on a structured grid: 3 - number of unit axes *)
Definition unit_axes (s : shape3) : nat :=
  let '(x, y, z) := s in
  ((if x =? 1 then 1 else 0) + (if y =? 1 then 1 else 0) + (if z =? 1 then 1 else 0))%nat.
Definition structured_dimension (s : shape3) : nat := (3 - unit_axes s)%nat.

(* first axis of length one: core/_helpers.py:311-323 *)
Definition first_unit_axis (s : shape3) : nat :=
  let '(x, y, _) := s in if (x =? 1)%nat then 0%nat else if (y =? 1)%nat then 1%nat else 2%nat.

Definition shape_eqb (s t : shape3) : bool :=
  let '(a, b, c) := s in let '(x, y, z) := t in
  ((a =? x) && (b =? y) && (c =? z))%nat%bool.

(* core/_helpers.py:271-297 (type/size check), 299-350 (structured branch), 452-458.
   [volumes] is mesh.compute_cell_sizes (VTK).  Simplification: an empty array of
   positions is rejected. *)
Definition generate_volume_structured {D}
  (volumes : shape3 -> list pt -> list R)
  (sa sb : ssurf D) (r : resolution) (method : option string) : res (sgrid D) :=
  if negb (length (ss_pts sa) =? length (ss_pts sb))%nat then Err ValueError   (* 294-297 *)
  else if negb (shape_eqb (ss_dims sa) (ss_dims sb)) then Err ValueError       (* 300-303 *)
  else if negb (structured_dimension (ss_dims sa) =? 2)%nat then Err ValueError (* 305-306 *)
  else
    let shape := ss_dims sa in
    let! perc := resolution_to_perc r method in                                (* 309 *)
    if (length perc =? 0)%nat then Err ValueError else
    let axis := first_unit_axis shape in                                       (* 311-323 *)
    let m := length perc in
    let dims := setc axis m shape in
    let '(nx, ny, nz) := dims in
    let pts := ravelF nx ny nz (fun i j k =>                                   (* 325-337 *)
                 let c := (i, j, k) in
                 let base := fidx shape (setc axis 0%nat c) in
                 lerp (nth (comp axis c) perc 0)
                      (nth base (ss_pts sa) origin) (nth base (ss_pts sb) origin)) in
    let inactive := map (fun v => Reqb (Rabs v) 0) (volumes dims pts) in       (* 340-343 *)
    let! pd := mapM (fun kv => let! v := repeat_structured_data shape (snd kv) m axis in
                               assign_data (length pts) (fst kv, v)) (ss_pd sa) in (* 346-348 *)
    let cshape := cell_shape shape in                                          (* 350 *)
    let! cd := mapM (fun kv => let! v := repeat_structured_data cshape (snd kv) (m - 1)%nat axis in
                               assign_data (n_cells dims) (fst kv, v)) (ss_cd sa) in (* 351-352 *)
    let! ghost := (match ss_ghost sa with
                   | None => Ok (repeat 0%nat (n_cells dims))                  (* 453-454 *)
                   | Some g => let! v := repeat_structured_data cshape g (m - 1)%nat axis in
                               if (length v =? n_cells dims)%nat then Ok v else Err ValueError
                   end) in
    Ok (mkSgrid dims pts pd cd (mask_set 32%nat inactive ghost)).              (* 456 *)

(* ---------- unstructured branch ---------- *)

(* VTK cell type codes *)
Definition TRIANGLE := 5%nat.   Definition POLYGON := 7%nat.
Definition PIXEL := 8%nat.      Definition QUAD := 9%nat.
Definition VOXEL := 11%nat.     Definition HEXAHEDRON := 12%nat.
Definition WEDGE := 13%nat.     Definition POLYHEDRON := 42%nat.

(* core/_helpers.py:585-589; None stands for -1 *)
Definition extruded_celltype (ct : nat) : option nat :=
  if (ct =? PIXEL)%nat then Some VOXEL
  else if (ct =? POLYGON)%nat then Some POLYHEDRON
  else if (ct =? QUAD)%nat then Some HEXAHEDRON
  else if (ct =? TRIANGLE)%nat then Some WEDGE
  else None.

Record usurf (D : Type) := mkUsurf {
  us_pts : list pt; us_cells : list (nat * list nat);
  us_pd : list (string * list D); us_cd : list (string * list D);
  us_ghost : option (list nat) }.
Arguments mkUsurf {D}.
Arguments us_pts {D}. Arguments us_cells {D}. Arguments us_pd {D}.
Arguments us_cd {D}. Arguments us_ghost {D}.

(* Result: the new mesh (VTK cell stream, types, points, data, ghosts) and the cells of
   surface_a after the call (its connectivity array is modified in place). *)
Record uvol (D : Type) := mkUvol {
  uv_pts : list pt; uv_stream : list nat; uv_types : list nat;
  uv_pd : list (string * list D); uv_cd : list (string * list D);
  uv_ghost : list nat;
  uv_input_cells : list (nat * list nat) }.
Arguments mkUvol {D}.
Arguments uv_pts {D}. Arguments uv_stream {D}. Arguments uv_types {D}. Arguments uv_pd {D}.
Arguments uv_cd {D}. Arguments uv_ghost {D}. Arguments uv_input_cells {D}.

(* np.allclose with default tolerances, on coordinates *)
Definition isclose (x y : R) : bool := Rleb (Rabs (x - y)) (/ 10^8 + / 10^5 * Rabs y).
Definition pt_close (p q : pt) : bool :=
  let '(x, y, z) := p in let '(x', y', z') := q in
  (isclose x x' && isclose y y' && isclose z z')%bool.
Definition all_close (ps qs : list pt) : bool :=
  forallb (fun pq => pt_close (fst pq) (snd pq)) (combine ps qs).

Definition sub3 (p q : pt) : pt :=
  let '(x, y, z) := p in let '(x', y', z') := q in (x - x', y - y', z - z').
Definition cross (p q : pt) : pt :=
  let '(x, y, z) := p in let '(x', y', z') := q in
  (y * z' - z * y', z * x' - x * z', x * y' - y * x').
Definition dot (p q : pt) : R :=
  let '(x, y, z) := p in let '(x', y', z') := q in x * x' + y * y' + z * z'.

(* np.roll(l, -1) *)
Definition roll_left {A} (l : list A) : list A :=
  match l with [] => [] | x :: l' => l' ++ [x] end.

Definition shift (n : nat) (l : list nat) : list nat := map (fun x => (x + n)%nat) l.

(* core/_helpers.py:406-411: zip(f0, roll f0, roll f1, f1) -> [p3, p2, p1, p0] *)
Definition side_faces (f0 f1 : list nat) : list (list nat) :=
  map2 (fun '(p0, p1) '(p2, p3) => [p3; p2; p1; p0])
       (combine f0 (roll_left f0)) (combine (roll_left f1) f1).

(* core/_helpers.py:395-415: the base face after the in-place reversal, and the faces
   of layer 0.  [points] are all points, [np] the number of points of a layer. *)
Definition polyhedron_faces (invert : bool) (np : nat) (points : list pt) (cell : list nat)
  : res (list nat * list (list nat)) :=
  let! c :=
    (if invert then
       match cell with
       | i0 :: i1 :: i2 :: _ =>
           let P := fun i => nth i points origin in
           let p0 := P i0 in
           if Rleb 0 (dot (cross (sub3 (P i1) p0) (sub3 (P i2) p0))
                          (sub3 (P (i0 + np)%nat) p0))                     (* 399-402 *)
           then Ok (rev cell) else Ok cell                                 (* 403-404 *)
       | _ => Err ValueError                                               (* 399: unpacking *)
       end
     else Ok cell) in
  let f1 := shift np c in
  let sides := side_faces c f1 in                                          (* 406-411 *)
  let f1' := if invert then rev f1 else f1 in                              (* 414-415 *)
  Ok (c, c :: f1' :: sides).

(* core/_helpers.py:417-421: stream of a polyhedron in layer i *)
Definition poly_stream (np i : nat) (faces : list (list nat)) : list nat :=
  let body := flat_map (fun f => length f :: shift (i * np) f) faces in
  (length body + 1)%nat :: length faces :: body.

(* core/_helpers.py:425-428: stream of another cell in layer i *)
Definition plain_stream (np i : nat) (cell : list nat) : list nat :=
  length cell :: shift (i * np) cell.

(* core/_helpers.py:380-429, body of the loop over the cells: final type, stream per
   layer, collapsed flag, cell left in surface_a. *)
Definition extrude_cell (invert : bool) (np : nat) (points : list pt) (tc : nat * list nat)
  : res (nat * (nat -> list nat) * bool * list nat) :=
  let '(ct, cell) := tc in
  match extruded_celltype ct with
  | None => Err ValueError
  | Some ety =>
      let! ec :=                                                           (* 385-388 *)
        (if (ety =? VOXEL)%nat then
           match cell with
           | [a; b; c; d] => Ok (HEXAHEDRON, [a; b; d; c])
           | _ => Err IndexError
           end
         else Ok (ety, cell)) in
      let '(ety', c) := ec in
      let P := fun i => nth i points origin in
      let collapsed := all_close (map P c) (map P (shift np c)) in         (* 390-393 *)
      if (ety =? POLYHEDRON)%nat then
        let! bf := polyhedron_faces invert np points c in
        let '(c', faces) := bf in
        Ok (ety', fun i => poly_stream np i faces, collapsed, c')
      else
        Ok (ety', fun i => plain_stream np i (c ++ shift np c), collapsed, cell)
  end.

(* np.allclose(surface_a.celltypes, surface_b.celltypes), core/_helpers.py:360: an array of one entry is compared with
   all the entries of the other; other arrays of different lengths are a ValueError, as below *)
Definition types_close (ta tb : list nat) : bool :=
  match ta, tb with
  | [a], _ => forallb (Nat.eqb a) tb
  | _, [b] => forallb (Nat.eqb b) ta
  | _, _ => (length ta =? length tb)%nat && forallb (fun p => fst p =? snd p)%nat (combine ta tb)
  end.

(* core/_helpers.py:354-458.  Precondition of VTK meshes: connectivity ids are below
   the number of points. *)
Definition generate_volume_unstructured {D}
  (sa sb : usurf D) (r : resolution) (method : option string) (invert : bool)
  : res (uvol D) :=
  if negb (length (us_pts sa) =? length (us_pts sb))%nat then Err ValueError   (* 294-297 *)
  else if negb (forallb (fun tc => match extruded_celltype (fst tc) with
                                   | Some _ => true | None => false end) (us_cells sa))
  then Err ValueError                                                          (* 355-358 *)
  else if negb (types_close (map fst (us_cells sa)) (map fst (us_cells sb)))
  then Err ValueError                                                          (* 360-363 *)
  else
    let np := length (us_pts sa) in                                            (* 367 *)
    let! perc := resolution_to_perc r method in                                (* 369 *)
    let points := flat_map (fun t => map2 (lerp t) (us_pts sa) (us_pts sb)) perc in (* 370-371 *)
    let n := (length perc - 1)%nat in                                          (* 373 *)
    if (n =? 0)%nat
    then Err (match us_cells sa with [] => ValueError (* 431: np.concatenate([]) *)
              | _ => IndexError (* 393: the second layer does not exist *) end)
    else
      let! ecs := mapM (extrude_cell invert np points) (us_cells sa) in        (* 380-429 *)
      let stream := flat_map (fun i => flat_map (fun '(_, s, _, _) => s i) ecs) (seq 0 n) in (* 431 *)
      let inactive := tile (map (fun '(_, _, c, _) => c) ecs) n in             (* 432 *)
      let types := tile (map (fun '(t, _, _, _) => t) ecs) n in                (* 433 *)
      let nc := (length (us_cells sa) * n)%nat in
      let! pd := mapM (fun kv => assign_data (length points)
                         (fst kv, tile (snd kv) (length perc))) (us_pd sa) in  (* 437-441 *)
      let! cd := mapM (fun kv => assign_data nc
                         (fst kv, tile (snd kv) n)) (us_cd sa) in              (* 443-447 *)
      let! ghost := (match us_ghost sa with
                     | None => Ok (repeat 0%nat nc)
                     | Some g => if (length (tile g n) =? nc)%nat then Ok (tile g n)
                                 else Err ValueError
                     end) in
      Ok (mkUvol points stream types pd cd (mask_set 32%nat inactive ghost)
            (map2 (fun tc ec => (fst tc, snd ec)) (us_cells sa) ecs)).
