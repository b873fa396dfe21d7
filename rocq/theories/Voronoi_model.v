(* Model of core/voronoi.py (VoronoiMesh2D). *)
From Coq Require Import Reals.
From Verif Require Export Prelude.
From Verif Require Import Groups_model Surface_model Lines_model.
Open Scope Z_scope.

(* core/_base.py MeshItem as filled by add (62-101): mesh, "" for no group, priority.
   A is the type of a cell, [vi_poly] tells whether the mesh is a PolyData.  The items are
   already flattened along the axis (97). *)
Record vitem (A : Type) := mkVI { vi_mesh : gmesh A; vi_poly : bool; vi_group : string; vi_prio : Z }.
Arguments mkVI {A}. Arguments vi_mesh {A}. Arguments vi_poly {A}. Arguments vi_group {A}. Arguments vi_prio {A}.

(* per-point arrays of generate_mesh: None is the priority -inf of the background points *)
Record vstate := mkVS { vs_pts : list pt; vs_active : list bool; vs_groups : list Z; vs_prio : list (option Z) }.

(* 367: sorted(items, key=lambda item: abs(item.priority)), stable *)
Fixpoint vinsert {A} (x : vitem A) (l : list (vitem A)) : list (vitem A) :=
  match l with
  | [] => [x]
  | y :: l' => if Z.abs (vi_prio x) <=? Z.abs (vi_prio y) then x :: l else y :: vinsert x l'
  end.
Fixpoint vsort {A} (l : list (vitem A)) : list (vitem A) :=
  match l with [] => [] | x :: l' => vinsert x (vsort l') end.

(* utils/_misc.py:483-529 extract_cells with a boolean mask; the field data are kept *)
Definition extract_mask {A} (mask : list bool) (m : gmesh A) : gmesh A :=
  mkG (mask_get mask (gm_cells m)) (option_map (mask_get mask) (gm_cg m)) (gm_labels m).

(* what VTK provides: get_cell_centers for one cell and find_containing_cell for the cells of
   a mesh (None is -1) *)
Record vgeo (A : Type) := mkGeo { vg_center : A -> pt; vg_find : list A -> pt -> option nat }.
Arguments mkGeo {A}. Arguments vg_center {A}. Arguments vg_find {A}.

Definition found {A} (x : option A) : bool := match x with Some _ => true | None => false end.

(* 382-391: mesh_a after removal of the cells whose center is out of the background mesh, and
   whether it still is a PolyData (extract_cells returns an UnstructuredGrid) *)
Definition clip_item {A} (g : vgeo A) (base : list A) (it : vitem A) : gmesh A * bool :=
  let m := vi_mesh it in
  let mask := map (fun c => found (vg_find g base (vg_center g c))) (gm_cells m) in
  if existsb (fun b => b) mask then (extract_mask mask m, false) else (m, vi_poly it).

(* 400-407: priority_array <= item_priority_array[idx] if item.priority >= 0 else <;
   all the entries of item_priority_array are abs(item.priority) *)
Definition lower (p : Z) (q : option Z) : bool :=
  match q with
  | None => true
  | Some q => if 0 <=? p then q <=? Z.abs p else q <? Z.abs p
  end.

(* 381-415, one item *)
Definition add_item {A} (g : vgeo A) (o : options) (base : list A) (it : vitem A)
  (st : vstate * dict) : res (vstate * dict) :=
  let '(s, groups) := st in
  let '(m, poly) := clip_item g base it in
  let! ag := initialize_group_array o m groups (GStr (vi_group it)) "" in        (* 394 *)
  let '(arr, groups) := ag in
  let n := length (gm_cells m) in
  let! ac :=
    (if poly then Ok (vs_active s, vs_groups s)                                  (* 398 *)
     else if (n =? 0)%nat && negb (length (vs_pts s) =? 0)%nat then Err IndexError (* 403: item_priority_array[-1] *)
     else
       let mask := map2 (fun p q => found (vg_find g (gm_cells m) p) && lower (vi_prio it) q)
                        (vs_pts s) (vs_prio s) in
       Ok (mask_set false mask (vs_active s), mask_set 0 mask (vs_groups s))) in (* 408-409 *)
  let '(active, garr) := ac in
  Ok (mkVS (vs_pts s ++ map (vg_center g) (gm_cells m))                          (* 412-415 *)
           (active ++ repeat true n)
           (garr ++ arr)
           (vs_prio s ++ repeat (Some (Z.abs (vi_prio it))) n), groups).

Fixpoint add_items {A} (g : vgeo A) (o : options) (base : list A) (items : list (vitem A))
  (st : vstate * dict) : res (vstate * dict) :=
  match items with
  | [] => Ok st
  | it :: its => let! st' := add_item g o base it st in add_items g o base its st'
  end.

(* the background mesh: cells with their groups, and its points.  The preference is "cell" or
   "point" (any other value leaves variables undefined and is not modelled) *)
Inductive preference := PrefCell | PrefPoint.
Record vbase (A : Type) := mkVB { vb_mesh : gmesh A; vb_points : list pt; vb_pref : preference }.
Arguments mkVB {A}. Arguments vb_mesh {A}. Arguments vb_points {A}. Arguments vb_pref {A}.

(* 366-379 *)
Definition start {A} (g : vgeo A) (o : options) (b : vbase A) : res (vstate * dict) :=
  match vb_pref b with
  | PrefCell =>
      let! ag := initialize_group_array o (vb_mesh b) [] GNone "" in
      let '(arr, groups) := ag in
      let pts := map (vg_center g) (gm_cells (vb_mesh b)) in
      Ok (mkVS pts (repeat true (length pts)) arr (repeat None (length pts)), groups)
  | PrefPoint =>
      let pts := vb_points b in
      let '(arr, groups) := initialize_group_array_size o (length pts) [] "" in
      Ok (mkVS pts (repeat true (length pts)) arr (repeat None (length pts)), groups)
  end.

(* 366-415 *)
Definition scatter {A} (g : vgeo A) (o : options) (b : vbase A) (items : list (vitem A))
  : res (vstate * dict) :=
  let! st := start g o b in
  add_items g o (gm_cells (vb_mesh b)) (vsort items) st.

(* ---- tessellation (516-579) ---- *)
Open Scope R_scope.
Notation pt2 := (R * R)%type.

(* scipy.spatial.Voronoi *)
Record diagram := mkD {
  d_points : list pt2; d_ridge_points : list (nat * nat); d_ridge_vertices : list (Z * Z);
  d_point_region : list Z; d_regions : list (list Z); d_vertices : list pt2 }.

(* l[z] *)
Definition py_at {A} (l : list A) (z : Z) : res A :=
  let i := (if z <? 0 then Z.of_nat (length l) + z else z)%Z in
  if (i <? 0)%Z then Err IndexError else at_res l (Z.to_nat i).

(* 533-537: ridges[p], in the order of the ridges; None when p is no key *)
Definition ridges_of (rp : list (nat * nat)) (rv : list (Z * Z)) (p : nat) : list (nat * Z * Z) :=
  concat (map2 (fun '(p1, p2) '(v1, v2) =>
                  (if (p1 =? p)%nat then [(p2, v1, v2)] else []) ++
                  (if (p2 =? p)%nat then [(p1, v1, v2)] else [])) rp rv).

Definition mean2 (l : list pt2) : pt2 :=
  let n := INR (length l) in
  (fold_right (fun q acc => fst q + acc) 0 l / n, fold_right (fun q acc => snd q + acc) 0 l / n).

Definition rsign (x : R) : R := if Rlt_dec x 0 then -1 else if Rlt_dec 0 x then 1 else 0.

(* 562-568 *)
Definition far_point (center : pt2) (radius : R) (a b v : pt2) : pt2 :=
  let tx := fst b - fst a in
  let ty := snd b - snd a in
  let l := sqrt (tx * tx + ty * ty) in
  let nx := - (ty / l) in
  let ny := tx / l in
  let mx := (fst a + fst b) / 2 in
  let my := (snd a + snd b) / 2 in
  let s := rsign ((mx - fst center) * nx + (my - snd center) * ny) in
  (fst v + s * nx * radius, snd v + s * ny * radius).

(* 555-571: loop over the ridges of p1; new_region and new_vertices *)
Fixpoint far_loop (d : diagram) (center : pt2) (radius : R) (p1 : nat) (ridge : list (nat * Z * Z))
  (region : list Z) (verts : list pt2) : res (list Z * list pt2) :=
  match ridge with
  | [] => Ok (region, verts)
  | (p2, v1, v2) :: ridge' =>
      let '(v1, v2) := if (v2 <? 0)%Z then (v2, v1) else (v1, v2) in              (* 556-557 *)
      if (0 <=? v1)%Z then far_loop d center radius p1 ridge' region verts        (* 559-560 *)
      else
        let! b := at_res (d_points d) p2 in
        let! a := at_res (d_points d) p1 in
        let! v := py_at (d_vertices d) v2 in
        far_loop d center radius p1 ridge' (region ++ [Z.of_nat (length verts)])
                 (verts ++ [far_point center radius a b v])
  end.

(* 546-577, region of point p1.  [argsort] is np.argsort, [atan2] is np.arctan2 *)
Definition one_region (argsort : list R -> list nat) (atan2 : R -> R -> R) (d : diagram)
  (center : pt2) (radius : R) (p1 : nat) (region : Z) (verts : list pt2) : res (list Z * list pt2) :=
  let! vs := py_at (d_regions d) region in                                        (* 546 *)
  if negb (existsb (fun v => (v =? -1)%Z) vs) then Ok (vs, verts)                 (* 548-549 *)
  else
    match ridges_of (d_ridge_points d) (d_ridge_vertices d) p1 with
    | [] => Err KeyError                                                          (* 552 *)
    | ridge =>
        let! rv := far_loop d center radius p1 ridge (filter (fun v => (0 <=? v)%Z) vs) verts in
        let '(new_region, verts) := rv in
        let! cs := mapM (py_at verts) new_region in                               (* 574 *)
        match cs with
        | [] => Err IndexError                                                    (* 576: vs[:, 1] *)
        | _ =>
            let c := mean2 cs in
            let angles := map (fun q => atan2 (snd q - snd c) (fst q - fst c)) cs in
            let! sorted := take new_region (argsort angles) in                    (* 577 *)
            Ok (sorted, verts)
        end
    end.

Fixpoint region_loop (argsort : list R -> list nat) (atan2 : R -> R -> R) (d : diagram)
  (center : pt2) (radius : R) (p1 : nat) (prs : list Z) (verts : list pt2)
  : res (list (list Z) * list pt2) :=
  match prs with
  | [] => Ok ([], verts)
  | r :: prs' =>
      let! rv := one_region argsort atan2 d center radius p1 r verts in
      let '(reg, verts) := rv in
      let! rest := region_loop argsort atan2 d center radius (S p1) prs' verts in
      Ok (reg :: fst rest, snd rest)
  end.

(* 541: infinity if infinity else ptp * 1e3 *)
Definition far_radius (infinity : option R) (ptp : R) : R :=
  match infinity with
  | Some r => if Req_EM_T r 0 then ptp * 1000 else r
  | None => ptp * 1000
  end.

(* 516-579 *)
Definition tessellation (argsort : list R -> list nat) (atan2 : R -> R -> R) (d : diagram)
  (infinity : option R) (ptp : R) : res (list (list Z) * list pt2) :=
  region_loop argsort atan2 d (mean2 (d_points d)) (far_radius infinity ptp) 0
              (d_point_region d) (d_vertices d).

(* ---- polygonal mesh (417-499) ---- *)
(* np.delete(points, axis, axis=1) and np.insert(points, axis, 0.0, axis=1) *)
Definition drop_axis (axis : nat) (p : pt) : pt2 :=
  let '(x, y, z) := p in
  match axis with O => (y, z) | S O => (x, z) | _ => (x, y) end.
Definition insert_axis (axis : nat) (p : pt2) : pt :=
  let '(x, y) := p in
  match axis with O => (0, x, y) | S O => (x, 0, y) | _ => (x, y, 0) end.

(* 509-514 *)
Fixpoint open_shoelace (l : list pt2) : R :=
  match l with
  | a :: ((b :: _) as l') => fst a * snd b - fst b * snd a + open_shoelace l'
  | _ => 0
  end.
Definition signed_area (l : list pt2) : R := / 2 * open_shoelace l.

(* 476-482; 'CCW' or 'CW' *)
Definition orient (orientation : string) (l : list pt2) : list pt2 :=
  let a := signed_area (firstn 3 l) in
  if (String.eqb orientation "CCW" && (if Rlt_dec a 0 then true else false))
     || (String.eqb orientation "CW" && (if Rlt_dec 0 a then true else false))
  then rev l else l.

(* 462-485: [valid] is polygon.is_valid, [clip] the coordinates of the intersection with the
   boundary polygon without the last one *)
Fixpoint polygons (valid : list pt2 -> bool) (clip : list pt2 -> list pt2) (orientation : string)
  (verts : list pt2) (regions : list (list Z)) (points : list pt2) (cells : list (list nat))
  : res (list pt2 * list (list nat)) :=
  match regions with
  | [] => Ok (points, cells)
  | r :: rs =>
      let! ps := mapM (py_at verts) r in
      if valid ps then
        let qs := clip ps in
        polygons valid clip orientation verts rs (points ++ orient orientation qs)
                 (cells ++ [seq (length points) (length qs)])
      else Err ValueError                                                         (* 469-470 *)
  end.

(* 423-443: [pairs] is what the KDTree of average_points returns when min_length > 0 *)
Definition shorten (pairs : option (list (nat * nat))) (active : list bool) (vpts : list pt2)
  (regions : list (list Z)) (verts : list pt2)
  : res (list bool * list pt2 * list (list Z) * list pt2) :=
  match pairs with
  | None => Ok (active, vpts, regions, verts)
  | Some pairs =>
      let! avg := average_points (map (insert_axis 2) verts) (map (map Z.to_nat) regions) 0 pairs in
      let '(pts, faces) := avg in
      let mask := map (fun i => negb (existsb (fun x => (x =? i)%nat) (map fst faces)))
                      (seq 0 (length vpts)) in                                    (* 433-438 *)
      let regions := map (fun f => map Z.of_nat (snd f)) faces in
      let verts := map (drop_axis 2) pts in
      if existsb (fun b => b) mask then
        let idx := mask_get active (seq 0 (length active)) in                     (* 441 *)
        Ok (fold_left (fun a i => upd i false a) (mask_get mask idx) active,      (* 442 *)
            mask_get (map negb mask) vpts, regions, verts)                        (* 443 *)
      else Ok (active, vpts, regions, verts)
  end.

(* mesh before fuse_cells and _clean: points, cells, CellGroup, its labels, and X, Y, Z *)
Record vmesh := mkVM {
  vm_points : list pt2; vm_cells : list (list nat); vm_groups : list Z; vm_labels : dict;
  vm_xyz : list pt }.

(* the oracles and options of 417-499; [v_diagram] is scipy.spatial.Voronoi,
   [v_boundary] tells whether a boundary polygon was extracted *)
Record voptions := mkVO {
  v_axis : nat; v_infinity : option R; v_ptp : R; v_orientation : string;
  v_diagram : list pt2 -> diagram; v_argsort : list R -> list nat; v_atan2 : R -> R -> R;
  v_pairs : list pt2 -> option (list (nat * nat)); v_boundary : bool;
  v_valid : list pt2 -> bool; v_clip : list pt2 -> list pt2 }.

(* 417-499 *)
Definition assemble (vo : voptions) (s : vstate) (groups : dict) : res vmesh :=
  let points := map (drop_axis (v_axis vo)) (vs_pts s) in                         (* 417 *)
  let vpts := mask_get (vs_active s) points in
  let! rv := tessellation (v_argsort vo) (v_atan2 vo) (v_diagram vo vpts) (v_infinity vo) (v_ptp vo) in
  let '(regions, verts) := rv in
  let! sh := shorten (v_pairs vo verts) (vs_active s) vpts regions verts in
  let '(active, vpts, regions, verts) := sh in
  if negb (v_boundary vo) then Err ValueError                                     (* 450-453 *)
  else
    let! pc := polygons (v_valid vo) (v_clip vo) (v_orientation vo) verts regions [] [] in
    let '(points, cells) := pc in
    Ok (mkVM points cells (mask_get active (vs_groups s)) groups
             (map (insert_axis (v_axis vo)) vpts)).

(* 324-499 *)
Definition voronoi_mesh {A} (g : vgeo A) (o : options) (b : vbase A) (items : list (vitem A))
  (vo : voptions) : res vmesh :=
  let! st := scatter g o b items in
  assemble vo (fst st) (snd st).
