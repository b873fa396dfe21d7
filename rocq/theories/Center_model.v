(* Model of get_cell_centers (utils/_properties.py:91-207). *)
From Coq Require Import Reals Ascii.
From Verif Require Export Prelude Topo_model.
From Verif Require Import Surface_model.
Open Scope R_scope.

(* Python's order on strings: by code points, a prefix first *)
Fixpoint str_leb (a b : string) : bool :=
  match a, b with
  | EmptyString, _ => true
  | String _ _, EmptyString => false
  | String x a', String y b' =>
      let p := nat_of_ascii x in let q := nat_of_ascii y in
      if (p <? q)%nat then true else if (q <? p)%nat then false else str_leb a' b'
  end.

(* utils/_properties.py:139, 152 and 161 *)
Definition use_box (v : string) : bool := str_leb "9.5.0" v.
Definition use_geometric (v : string) : bool := negb (String.eqb v "9.5.0").
Definition use_tetra (v : string) : bool := str_leb v "9.5.0".

(* a row of centers; [None] is a row of NaN *)
Notation center := (option pt).

Definition point_at (points : list pt) (i : nat) : res pt :=
  match nth_error points i with Some p => Ok p | None => Err IndexError end.

Definition map3 (f : R -> R -> R) (p q : pt) : pt :=
  let '(x, y, z) := p in let '(x', y', z') := q in (f x x', f y y', f z z').
Definition scale3 (k : R) (p : pt) : pt := let '(x, y, z) := p in (k * x, k * y, k * z).
Definition sum3 (l : list pt) : pt := fold_right (map3 Rplus) (0, 0, 0) l.

(* utils/_properties.py:145-150; min of no point is a ValueError *)
Definition box_center (ps : list pt) : res pt :=
  match ps with
  | [] => Err ValueError
  | p :: ps' => Ok (scale3 (1 / 2) (map3 Rplus (fold_left (map3 Rmin) ps' p) (fold_left (map3 Rmax) ps' p)))
  end.

(* utils/_properties.py:153-159; the mean of no point is NaN *)
Definition geometric_center (ps : list pt) : center :=
  match ps with
  | [] => None
  | _ => Some (scale3 (1 / INR (length ps)) (sum3 ps))
  end.

(* utils/_properties.py:177-183 *)
Definition fan (face : list nat) : list (nat * nat * nat) :=
  match face with
  | [] => []
  | v0 :: rest => map2 (fun v1 v2 => (v0, v1, v2)) rest (tl rest)
  end.

(* volume and centroid of a tetrahedron (192-202) *)
Definition dot3 (p q : pt) : R :=
  let '(x, y, z) := p in let '(x', y', z') := q in x * x' + y * y' + z * z'.
Definition cross3 (p q : pt) : pt :=
  let '(x, y, z) := p in let '(x', y', z') := q in (y * z' - z * y', z * x' - x * z', x * y' - y * x').
Definition tet_volume (a p q r : pt) : R :=
  dot3 (cross3 (map3 Rminus p a) (map3 Rminus q a)) (map3 Rminus r a) / 6.
Definition tet_mean (a p q r : pt) : pt :=
  scale3 (1 / 4) (map3 Rplus (map3 Rplus (map3 Rplus p q) r) a).

(* np.average(means, axis=0, weights=volumes): weights of zero sum are a ZeroDivisionError *)
Definition average (weights : list R) (values : list pt) : res pt :=
  let w := fold_right Rplus 0 weights in
  if Req_EM_T w 0 then Err ZeroDivisionError
  else Ok (scale3 (1 / w) (sum3 (map2 scale3 weights values))).

(* utils/_properties.py:176-202, for one polyhedron with ids [ids] and faces [faces] *)
Definition tetra_center (points : list pt) (ids : list nat) (faces : list (list nat)) : res pt :=
  match concat (map fan faces) with
  | [] => Err IndexError                                     (* triangles[:, 0] of no triangle *)
  | triangles =>
      match ids with
      | [] => Err IndexError
      | i0 :: _ =>
          let! apex := point_at points i0 in                 (* 186 *)
          let! tets := mapM (fun t => let '(a, b, c) := t in
            let! p := point_at points a in let! q := point_at points b in
            let! r := point_at points c in Ok (p, q, r)) triangles in
          average (map (fun t => let '(p, q, r) := t in tet_volume apex p q r) tets)
                  (map (fun t => let '(p, q, r) := t in tet_mean apex p q r) tets)
      end
  end.

(* centers[mask] = values *)
Fixpoint put_rows {A} (mask : list bool) (values : list A) (rows : list A) : res (list A) :=
  match mask, rows with
  | b :: mask', r :: rows' =>
      if b then match values with
                | [] => Err ValueError
                | v :: values' => let! t := put_rows mask' values' rows' in Ok (v :: t)
                end
      else let! t := put_rows mask' values rows' in Ok (r :: t)
  | _, _ => match values with [] => Ok rows | _ => Err ValueError end
  end.

(* utils/_properties.py:166-202: zip stops at the shortest *)
Fixpoint tetra_rows (points : list pt) (all : list (list nat)) (cells : list (list nat))
  (locs : list (list nat)) (mask : list bool) (rows : list center) : res (list center) :=
  match rows, locs, cells, mask with
  | row :: rows', loc :: locs', ids :: cells', m :: mask' =>
      let! row := (if m then
          let! faces := pick_faces all loc in
          let! c := tetra_center points ids faces in Ok (Some c)
        else Ok row) in
      let! rest := tetra_rows points all cells' locs' mask' rows' in
      Ok (row :: rest)
  | _, _, _, _ => Ok rows
  end.

(* utils/_properties.py:133-202 *)
Definition polyhedron_rows (version : string) (method : option string) (points : list pt) (m : vmesh)
  (rows : list center) : res (list center) :=
  let mask := map (Nat.eqb 42) (v_types m) in
  let polys := mask_get mask (v_cells m) in
  match method with
  | None => Ok rows
  | Some method =>
      if negb (existsb (fun b => b) mask) then Ok rows
      else if String.eqb method "box" && use_box version then
        let! pts := mapM (mapM (point_at points)) polys in
        let! cs := mapM box_center pts in
        put_rows mask (map Some cs) rows
      else if String.eqb method "geometric" && use_geometric version then
        let! pts := mapM (mapM (point_at points)) polys in
        put_rows mask (map geometric_center pts) rows
      else if String.eqb method "tetra" && use_tetra version then
        tetra_rows points (v_faces m) (v_cells m) (v_locs m) mask rows
      else Ok rows
  end.

(* A mesh: an unstructured grid or another dataset with n cells; its points and its ghost
   array.  [vtk] is mesh.cell_centers().points on the mesh without ghost array: one point
   per non-empty cell. *)
Inductive cgrid := UGrid (m : vmesh) (points : list pt) | Other (n : nat).

Definition vtk_rows (vtk : res (list pt)) (g : cgrid) : res (list center) :=
  match g with
  | Other n => let! c := vtk in put_rows (repeat true n) (map Some c) (repeat None n)   (* 125-126 *)
  | UGrid m _ =>
      let! c := vtk in
      put_rows (map (fun t => negb (t =? 0)%nat) (v_types m)) (map Some c)
               (repeat None (length (v_types m)))                                       (* 130 *)
  end.

(* utils/_properties.py:91-207: the outcome and the ghost array of the mesh after the call *)
Definition get_cell_centers (vtk : res (list pt)) (version : string) (method : option string)
  (g : cgrid) (ghosts : option (list nat)) : res (list center) * option (list nat) :=
  let out :=
    let! rows := vtk_rows vtk g in
    match g with
    | Other _ => Ok rows
    | UGrid m points => polyhedron_rows version method points m rows
    end in
  match out with
  | Ok c => (Ok c, ghosts)                          (* 204-207: put back *)
  | Err e => (Err e, None)                          (* popped at 121-123 *)
  end.
