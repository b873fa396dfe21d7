(* Model of utils/_misc.py extract_cell_geometry (295-480), extract_cells (483-529),
   extract_cells_by_dimension (532-580), utils/_connectivity.py and of
   get_cell_connectivity and get_dimension of utils/_properties.py. *)
From Verif Require Export Prelude.
Open Scope nat_scope.

(* An unstructured grid as seen through VTK: cell types, point ids of the cells
   (_get_irregular_cells(mesh.GetCells())), faces of all polyhedra and the faces of every
   cell (GetPolyhedronFaces, GetPolyhedronFaceLocations). *)
Record vmesh := mkV {
  v_types : list nat; v_cells : list (list nat);
  v_faces : list (list nat); v_locs : list (list nat) }.

(* a cell of the nested connectivity: ids, or the faces of a polyhedron *)
Inductive conn := CIds (ids : list nat) | CFaces (fs : list (list nat)).

(* utils/_properties.py:74 faces[face] for face in location *)
Definition pick_faces (faces : list (list nat)) (loc : list nat) : res (list (list nat)) :=
  mapM (fun f => match nth_error faces f with Some x => Ok x | None => Err IndexError end) loc.

(* utils/_properties.py:70-74: loop over the locations *)
Fixpoint put_faces (faces : list (list nat)) (locs : list (list nat)) (cells : list conn)
  : res (list conn) :=
  match locs with
  | [] => Ok cells
  | loc :: locs' =>
      match loc, cells with
      | [], [] => put_faces faces locs' []
      | [], c :: cells' => let! r := put_faces faces locs' cells' in Ok (c :: r)  (* 71-72 *)
      | _, [] => Err IndexError
      | _, _ :: cells' =>
          let! fs := pick_faces faces loc in
          let! r := put_faces faces locs' cells' in
          Ok (CFaces fs :: r)
      end
  end.

(* utils/_properties.py:60-74 and 87-88 (flatten=False) *)
Definition get_cell_connectivity (m : vmesh) : res (list conn) :=
  let cells := map CIds (v_cells m) in
  if existsb (Nat.eqb 42) (v_types m) then put_faces (v_faces m) (v_locs m) cells
  else Ok cells.

(* utils/_properties.py:79-83.  A polyhedron without faces is an array of ids: len() of an
   id is a TypeError. *)
Definition flat_cell (t : nat) (c : conn) : res (list nat) :=
  match c with
  | CFaces fs =>
      if t =? 42
      then let l := length fs :: flat_map (fun f => length f :: f) fs in Ok (length l :: l)
      else Err ValueError (* unreachable: only polyhedra have locations *)
  | CIds ids =>
      if t =? 42 then match ids with [] => Ok [1; 0] | _ => Err TypeError end
      else Ok (length ids :: ids)
  end.

(* utils/_properties.py:76-85 (flatten=True) *)
Definition get_cell_connectivity_flat (m : vmesh) : res (list nat) :=
  let! cells := get_cell_connectivity m in
  let! parts := mapM (fun ct => flat_cell (snd ct) (fst ct)) (combine cells (v_types m)) in
  Ok (concat parts).

(* utils/_properties.py:275-360 *)
Definition dimension_map : list Z :=
  [-1; 0; 0; 1; 1; 2; 2; 2; 2; 2; 3; 3; 3; 3; 3; 3; 3; -1; -1; -1; -1;
   1; 2; 2; 3; 3; 3; 3; 2; 3; 2; 3; 3; 3; 2; 1; 2; 3; -1; -1; -1; 0; 3;
   -1; -1; -1; -1; -1; -1; -1; -1; 1; 2; 2; 2; 3; 3; -1; -1; -1;
   1; 2; 2; 2; 3; 3; 3; 3; 1; 2; 2; 3; 3; 3; 3; 1; 2; 2; 3; 3; 3; 3]%Z.

Definition dim_of (t : nat) : res Z :=
  match nth_error dimension_map t with Some d => Ok d | None => Err IndexError end.

(* a dataset: grids with dimensions, meshes of cells, others; with its cast to an
   unstructured grid (VTK) *)
Inductive dset :=
| DGrid (dims : list nat) (m : vmesh)
| DCells (m : vmesh)
| DOther (m : vmesh).

Definition cast (d : dset) : vmesh :=
  match d with DGrid _ m => m | DCells m => m | DOther m => m end.

Definition zmax (l : list Z) : res Z :=
  match l with [] => Err ValueError | x :: l' => Ok (fold_left Z.max l' x) end.

(* utils/_properties.py:240-270 *)
Definition get_dimension (d : dset) : res Z :=
  match d with
  | DGrid dims _ => Ok (3 - Z.of_nat (length (filter (Nat.eqb 1) dims)))%Z   (* 255-264 *)
  | DCells m => let! ds := mapM dim_of (v_types m) in zmax ds                (* 266-269 *)
  | DOther _ => Err TypeError                                                (* 271-272 *)
  end.

(* ---- extract_cell_geometry ---- *)
(* utils/_misc.py:330 tuple(sorted(set(c))) *)
Fixpoint sinsert (x : nat) (l : list nat) : list nat :=
  match l with
  | [] => [x]
  | y :: l' => if x <? y then x :: l else if x =? y then l else y :: sinsert x l'
  end.
Definition vset (c : list nat) : list nat := fold_right sinsert [] c.

Fixpoint list_eqb (l m : list nat) : bool :=
  match l, m with
  | [], [] => true
  | x :: l', y :: m' => (x =? y) && list_eqb l' m'
  | _, _ => false
  end.

(* cell_map, cell_ids and cells_ together: one entry per key, in order of insertion *)
Record entry := mkEntry { e_key : list nat; e_ids : list nat; e_face : list nat }.

(* utils/_misc.py:329-342 *)
Fixpoint add_entry (i : nat) (c : list nat) (l : list entry) : list entry :=
  match l with
  | [] => [mkEntry (vset c) [i] c]
  | e :: l' => if list_eqb (e_key e) (vset c)
               then mkEntry (e_key e) (e_ids e ++ [i]) (e_face e) :: l'
               else e :: add_entry i c l'
  end.

(* utils/_misc.py:325-342 *)
Fixpoint add_cells (i : nat) (cells : list (list (list nat))) (l : list entry) : list entry :=
  match cells with
  | [] => l
  | cell :: cells' => add_cells (S i) cells' (fold_left (fun l c => add_entry i c l) cell l)
  end.

(* utils/_misc.py:344-346 *)
Definition pad (w : nat) (ids : list nat) : list Z :=
  map Z.of_nat ids ++ repeat (-1)%Z (w - length ids).

(* extracted geometry: faces (or lines) and rows of vtkOriginalCellIds *)
Record geom := mkGeom { g_faces : list (list nat); g_rows : list (list Z) }.

(* utils/_misc.py:316-355; max() of no entry is a ValueError *)
Definition get_polydata (cells : list (list (list nat))) : res geom :=
  match add_cells 0 cells [] with
  | [] => Err ValueError
  | l => let w := list_max (map (fun e => length (e_ids e)) l) in
         Ok (mkGeom (map e_face l) (map (fun e => pad w (e_ids e)) l))
  end.

(* np.roll(v, -1) *)
Definition roll1 {A} (v : list A) : list A := match v with [] => [] | x :: v' => v' ++ [x] end.
Definition zip_pairs (a b : list nat) : list (list nat) := map2 (fun x y => [x; y]) a b.

(* cell[ind] *)
Definition fancy (cell : list nat) (ind : list nat) : res (list nat) :=
  mapM (fun i => match nth_error cell i with Some x => Ok x | None => Err IndexError end) ind.

(* utils/_misc.py:385-401 *)
Definition cell_edges (rg : bool) (t : nat) (cell : list nat) : res (list (list nat)) :=
  if (t =? 3) || (t =? 4) then Ok (zip_pairs (removelast cell) (tl cell))
  else if t =? 8 then
    let! c := fancy cell [0; 1; 3; 2] in Ok (zip_pairs c (roll1 c))
  else if negb rg || negb (t =? 0) then Ok (zip_pairs cell (roll1 cell))
  else Ok [].

(* utils/_misc.py:369-377: EMPTY_CELL, LINE, PIXEL, POLYGON, POLY_LINE, QUAD, TRIANGLE *)
Definition supported2d : list nat := [0; 3; 8; 7; 4; 9; 5].

(* utils/_misc.py:1527-1563 *)
Definition celltype_to_faces (t : nat) : option (list (list nat)) :=
  match t with
  | 10 => Some [[1; 2; 3]; [0; 3; 2]; [0; 1; 3]; [0; 2; 1]]
  | 14 => Some [[0; 3; 2; 1]; [0; 1; 4]; [1; 2; 4]; [2; 3; 4]; [3; 0; 4]]
  | 13 => Some [[0; 2; 1]; [3; 4; 5]; [0; 1; 4; 3]; [1; 2; 5; 4]; [0; 3; 5; 2]]
  | 12 => Some [[0; 3; 2; 1]; [4; 5; 6; 7]; [0; 1; 5; 4]; [1; 2; 6; 5]; [2; 3; 7; 6]; [0; 4; 7; 3]]
  | 11 => Some [[0; 2; 3; 1]; [4; 5; 7; 6]; [0; 1; 5; 4]; [1; 3; 7; 5]; [3; 2; 6; 7]; [0; 4; 6; 2]]
  | _ => None
  end.

(* ids of a nested cell; a list of faces is no array of ids *)
Definition ids_of_conn (c : conn) : res (list nat) :=
  match c with CIds ids => Ok ids | CFaces _ => Err TypeError end.
(* faces of a polyhedron; iterating over a plain id is a TypeError (330) *)
Definition faces_of_conn (c : conn) : res (list (list nat)) :=
  match c with CFaces fs => Ok fs | CIds [] => Ok [] | CIds _ => Err TypeError end.

(* utils/_misc.py:426-431, 445-449 *)
Definition table_faces (table : list (list nat)) (c : conn) : res (list (list nat)) :=
  let! ids := ids_of_conn c in mapM (fancy ids) table.

(* utils/_misc.py:421-459.  np.ptp(celltypes) == 0: all types are equal.  A type absent
   from the table is a KeyError when all types are equal; otherwise the message of the
   exception reads celltype.name, which a NumPy integer does not have (456). *)
Definition cell_faces (types : list nat) (cells : list conn) : res (list (list (list nat))) :=
  match types with
  | [] => Err ValueError
  | t0 :: _ =>
      if forallb (Nat.eqb t0) types then
        if t0 =? 42 then mapM faces_of_conn cells
        else mapM (fun c => match celltype_to_faces t0 with
                            | None => Err KeyError
                            | Some table => table_faces table c end) cells
      else
        mapM (fun ct =>
          let '(c, t) := ct in
          if t =? 42 then faces_of_conn c
          else match celltype_to_faces t with
               | Some table => table_faces table c
               | None => if t =? 0 then Ok [] else Err AttributeError
               end) (combine cells types)
  end.

(* columns of a matrix whose rows have width w *)
Definition column (rows : list (list Z)) (j : nat) : list Z := map (fun r => nth j r (-1)%Z) rows.
Definition constant (v : list Z) : bool :=
  match v with [] => true | x :: v' => forallb (Z.eqb x) v' end.

(* utils/_misc.py:405-418 and 463-478.  [nonzero face] is np.abs(size) > 0, the size
   being computed by VTK.  np.ptp of no row is a ValueError. *)
Definition drop_collapsed (nonzero : list nat -> bool) (g : geom) : res geom :=
  let mask := map nonzero (g_faces g) in
  if forallb (fun b => b) mask then Ok g
  else
    let rows := mask_get mask (g_rows g) in
    match rows with
    | [] => Err ValueError
    | r :: _ =>
        let keep := filter (fun j => negb (constant (column rows j))) (seq 0 (length r)) in
        Ok (mkGeom (mask_get mask (g_faces g)) (map (fun r => map (fun j => nth j r (-1)%Z) keep) rows))
    end.

(* utils/_misc.py:357-480.  The dataset is the one after 359-361 (without ghost array when
   ghost cells are kept).  *)
Definition extract_cell_geometry (nonzero : list nat -> bool) (rg : bool) (d : dset) : res geom :=
  let! ndim := get_dimension d in
  let m := cast d in
  let! cells := get_cell_connectivity m in
  let! g :=
    (if (ndim =? 1)%Z || (ndim =? 2)%Z then
       if negb (forallb (fun t => existsb (Nat.eqb t) supported2d) (v_types m))
       then Err NotImplementedError                                          (* 380-383 *)
       else
         let! ce := mapM (fun ct => let! ids := ids_of_conn (fst ct) in cell_edges rg (snd ct) ids)
                         (combine cells (v_types m)) in
         get_polydata ce
     else let! cf := cell_faces (v_types m) cells in get_polydata cf) in
  if rg then drop_collapsed nonzero g else Ok g.

(* ---- utils/_connectivity.py ---- *)
(* neighbors[i].append(j); indices are those of cells *)
Definition append_at (i : nat) (j : Z) (l : list (list Z)) : res (list (list Z)) :=
  match nth_error l i with
  | Some r => Ok (upd i (r ++ [j]) l)
  | None => Err IndexError
  end.

(* utils/_connectivity.py:40-45.  Rows of another width than two do not unpack: an array of
   one column is read back from VTK as a flat array, whose numbers are no pairs (TypeError);
   other rows have too many values (ValueError).  Arrays without columns, left when collapsed
   faces are dropped, count as an error too. *)
Fixpoint neighbor_loop (rows : list (list Z)) (nb : list (list Z)) : res (list (list Z)) :=
  match rows with
  | [] => Ok nb
  | [i1; i2] :: rows' =>
      if ((i1 =? -1) || (i2 =? -1))%Z then neighbor_loop rows' nb
      else
        let! nb := append_at (Z.to_nat i1) i2 nb in
        let! nb := append_at (Z.to_nat i2) i1 nb in
        neighbor_loop rows' nb
  | [_] :: _ => Err TypeError
  | _ => Err ValueError
  end.

(* utils/_connectivity.py:15-47 *)
Definition get_neighborhood (nonzero : list nat -> bool) (rg : bool) (d : dset) : res (list (list Z)) :=
  let! g := extract_cell_geometry nonzero rg d in
  neighbor_loop (g_rows g) (repeat [] (length (v_types (cast d)))).

(* utils/_connectivity.py:85 *)
Fixpoint connectivity_lines (rows : list (list Z)) : res (list (Z * Z)) :=
  match rows with
  | [] => Ok []
  | [i1; i2] :: rows' =>
      let! r := connectivity_lines rows' in
      Ok (if (negb (i1 =? -1) && negb (i2 =? -1))%Z then (i1, i2) :: r else r)
  | [_] :: _ => Err TypeError
  | _ => Err ValueError
  end.

(* utils/_connectivity.py:50-88.  [shape] is np.shape(cell_centers). *)
Definition get_connectivity {P} (nonzero : list nat -> bool) (rg : bool) (d : dset)
  (shape : list nat) (centers : list P) : res (list P * list (Z * Z)) :=
  if negb (list_eqb shape [length (v_types (cast d)); 3]) then Err ValueError  (* 79-82 *)
  else
    let! g := extract_cell_geometry nonzero rg d in
    let! lines := connectivity_lines (g_rows g) in
    Ok (centers, lines).

(* ---- extract_cells ---- *)
(* cell data of a mesh: named arrays; [None] for the ghost array stands for its absence *)
Record cmesh (D : Type) := mkC { cm_data : list (string * list D); cm_ghost : option (list nat) }.
Arguments mkC {D}. Arguments cm_data {D}. Arguments cm_ghost {D}.

(* utils/_misc.py:483-529.  [extract m] is mesh.extract_cells(ind, ...) on the mesh without
   its ghost array: the ids of the extracted cells (vtkOriginalCellIds), or an exception.
   Returns the outcome (ids and ghost values of the output) and the input after the call. *)
Definition extract_cells {D} (extract : cmesh D -> res (list nat)) (m : cmesh D)
  : res (list nat * option (list nat)) * cmesh D :=
  let popped := mkC (cm_data m) None in                                      (* 513-515 *)
  let out :=
    let! ids := extract popped in                                            (* 518 *)
    match cm_ghost m with
    | None => Ok (ids, None)
    | Some g => let! v := mapM (fun i => match nth_error g i with
                                         | Some x => Ok x | None => Err IndexError end) ids in
                Ok (ids, Some v)                                             (* 520-523 *)
    end in
  (out, match cm_ghost m with                                                (* 525-527 *)
        | None => popped
        | Some g => mkC (cm_data popped) (Some g)
        end).

(* ids of the true entries of a mask *)
Definition mask_ids (mask : list bool) : list nat := mask_get mask (seq 0 (length mask)).

(* utils/_misc.py:532-580.  Returns the ids of the cells kept. *)
Definition extract_cells_by_dimension (d : dset) (ndim : option Z) (method : string)
  (keep_empty : bool) : res (list nat) :=
  let m := cast d in
  let! ndim := (match ndim with Some n => Ok n | None => get_dimension (DCells m) end) in (* 562-563 *)
  let! mask :=
    (if String.eqb method "upper"
     then let! ds := mapM dim_of (v_types m) in Ok (map (fun x => (ndim <=? x)%Z) ds)
     else if String.eqb method "lower"
     then let! ds := mapM dim_of (v_types m) in Ok (map (fun x => (x <=? ndim)%Z) ds)
     else Err ValueError) in                                                 (* 565-572 *)
  let mask := if keep_empty then map2 orb mask (map (Nat.eqb 0) (v_types m)) else mask in (* 574-575 *)
  if forallb (fun b => b) mask then Ok (seq 0 (length (v_types m)))          (* 577-578 *)
  else Ok (mask_ids mask).
