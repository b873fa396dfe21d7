From Coq Require Import Reals Lra Permutation Sorted.
From Verif Require Import Prelude Surface_model Volume_spec Lines_model Lines_spec Polygon_model Polygon_spec
  Polygon1_proof Polygon2_proof Polygon3_proof Polygon4_proof Polygon5_proof.
Open Scope R_scope.

(* a square in the plane z = 0, a ring in the plane and its closed form *)
Definition unit_square : list pt := [(0, 0, 0); (1, 0, 0); (1, 1, 0); (0, 1, 0)].
Definition ring3 : list (list R) := [[0; 0; 0]; [1; 0; 0]; [0; 1; 0]].

(* C59: the side is that of the area with the closing edge counted twice *)
Theorem C59_offset_distance :
  forall points faces d out ids,
  d <> 0 -> offset_polygon points faces d = Ok (out, ids) ->
  concat ids = seq 0 (length out) /\
  Forall2 (fun f i => face_offset d points f out i) faces ids.
Proof. exact @offset_spec. Qed.
Print Assumptions C59_offset_distance.

Example C59_example : exists out, offset_polygon unit_square [[0; 1; 2; 3]%nat] (1 / 4) = Ok (out, [[0; 1; 2; 3]%nat]) /\
  moved_right 2 (1 / 4) unit_square out.
Proof.
  destruct (square_offset unit_square (1 / 4)) as (out & E & H & _); [lra | reflexivity | |].
  - apply (square_constant 0 0). unfold unit_square. replace (0 + 1) with 1 by ring. reflexivity.
  - exists out. split; [exact E|].
    replace (1 / 4) with (sgn (shoelace_twice_closed (map (in_plane 2) unit_square)) * (1 / 4)); [exact H|].
    replace (shoelace_twice_closed (map (in_plane 2) unit_square)) with 2.
    + unfold sgn. destruct (Rlt_dec 0 2); lra.
    + unfold shoelace_twice_closed, shoelace, unit_square. cbn. unfold det2. cbn [fst snd]. ring.
Qed.

Theorem C59_offset_zero :
  forall points faces,
  faces <> [] -> offset_polygon points faces 0 = Ok (map Some points, faces).
Proof. exact @offset_zero. Qed.
Print Assumptions C59_offset_zero.

Example C59_zero_example : offset_polygon unit_square [[0; 1; 2]%nat; [0; 2; 3]%nat] 0 =
  Ok (map Some unit_square, [[0; 1; 2]%nat; [0; 2; 3]%nat]).
Proof. apply C59_offset_zero. discriminate. Qed.

(* C60: right of the edges of a counterclockwise ring, left of those of a clockwise ring, is outside.  Missing: rings for which the closing edge counted twice changes the sign of the area (see C60_offset_outward_refuted) *)
Theorem C60_offset_outward_partial :
  forall points faces d out ids,
  d <> 0 -> offset_polygon points faces d = Ok (out, ids) ->
  Forall2 (fun f i => exists ps qs k, picks points f ps /\ picks out i qs /\ only_constant k ps /\
    (sgn (shoelace_twice_closed (map (in_plane k) ps)) = sgn (shoelace (map (in_plane k) ps)) ->
     moved_right k (sgn (shoelace (map (in_plane k) ps)) * d) ps qs)) faces ids.
Proof. exact @offset_outward. Qed.
Print Assumptions C60_offset_outward_partial.

Example C60_example : sgn (shoelace_twice_closed (map (in_plane 2) unit_square)) = sgn (shoelace (map (in_plane 2) unit_square)).
Proof.
  f_equal. unfold shoelace_twice_closed, shoelace, unit_square. cbn. unfold det2. cbn [fst snd]. ring.
Qed.

(* C60: a counterclockwise unit square whose first vertex moves inside *)
Theorem C60_offset_outward_refuted :
  exists (d : R) (out : list (option pt)) x y,
    0 < d /\ 0 < shoelace (map (in_plane 2) square10) /\
    offset_polygon square10 [[0; 1; 2; 3]%nat] d = Ok (out, [[0; 1; 2; 3]%nat]) /\
    nth_error out 0 = Some (Some (x, y, 0)) /\ 10 < x < 11 /\ 0 < y < 1.
Proof. exact @offset_inward. Qed.
Print Assumptions C60_offset_outward_refuted.

(* C61: vertices stay in the plane of the face when it contains the origin.  Missing: other planes (see C61_plane_refuted) *)
Theorem C61_plane_partial :
  forall points faces d out ids,
  offset_polygon points faces d = Ok (out, ids) ->
  Forall2 (fun f i => forall ps, picks points f ps ->
    exists qs, picks out i qs /\
    ((d = 0 /\ qs = map Some ps) \/
     (d <> 0 /\ exists k, only_constant k ps /\
      forall p x, In p ps -> In (Some x) qs -> coord k p = 0 -> coord k x = coord k p))) faces ids.
Proof. exact @offset_plane. Qed.
Print Assumptions C61_plane_partial.

Example C61_example : only_constant 2 unit_square /\ (forall p, In p unit_square -> coord 2 p = 0).
Proof.
  split.
  - apply (square_constant 0 0). unfold unit_square. replace (0 + 1) with 1 by ring. reflexivity.
  - intros p Hp. unfold unit_square in Hp. cbn [In] in Hp. repeat destruct Hp as [<- | Hp]; try reflexivity. contradiction.
Qed.

(* C61: a square in the plane z = 1 is moved to the plane z = 0 *)
Theorem C61_plane_refuted :
  exists (d : R) (out : list (option pt)) x,
    (forall p, In p square_z1 -> coord 2 p = 1) /\
    offset_polygon square_z1 [[0; 1; 2; 3]%nat] d = Ok (out, [[0; 1; 2; 3]%nat]) /\
    nth_error out 0 = Some (Some x) /\ coord 2 x = 0.
Proof. exact @offset_leaves_plane. Qed.
Print Assumptions C61_plane_refuted.

(* C92 *)
Theorem C92_offset_accepts :
  forall points faces d,
  (exists r, offset_polygon points faces d = Ok r) <->
  faces <> [] /\
  (d = 0 \/ Forall (fun f => exists ps k, picks points f ps /\ ps <> [] /\ only_constant k ps) faces).
Proof. exact @offset_ok. Qed.
Print Assumptions C92_offset_accepts.

Example C92_example : offset_polygon [(0, 0, 0); (1, 0, 1); (0, 1, 0)] [[0; 1; 2]%nat] 1 = Err ValueError.
Proof.
  destruct (offset_polygon [(0, 0, 0); (1, 0, 1); (0, 1, 0)] [[0; 1; 2]%nat] 1) as [r|e] eqn:E.
  - exfalso. destruct (proj1 (C92_offset_accepts _ _ _) (ex_intro _ r E)) as [_ [H | H]]; [lra|].
    inversion H as [|? ? (ps & k & Hp & _ & Hk & Hc) _]; subst.
    assert (ps = [(0, 0, 0); (1, 0, 1); (0, 1, 0)]) as ->.
    { eapply Lines1_proof.picks_fun; [exact Hp | repeat constructor]. }
    specialize (Hc k Hk). destruct Hc as [Hc _]. specialize (Hc eq_refl).
    assert (H1 := Hc (0, 0, 0) (1, 0, 1) ltac:(cbn; auto) ltac:(cbn; auto)).
    assert (H2 := Hc (0, 0, 0) (0, 1, 0) ltac:(cbn; auto) ltac:(cbn; auto)).
    destruct k as [|[|[|k]]]; cbn in H1, H2; lra || (exfalso; lia).
  - f_equal. eapply offset_err; [|exact E]. repeat constructor. eexists. repeat constructor.
Qed.

Theorem C92_offset_rejects :
  forall points faces d e,
  Forall (fun f => exists ps, picks points f ps) faces ->
  offset_polygon points faces d = Err e -> e = ValueError.
Proof. exact @offset_err. Qed.
Print Assumptions C92_offset_rejects.

Open Scope nat_scope.

(* C62: every edge is in exactly one polygon *)
Theorem C62_partition :
  forall E contains w (edges : list E) polys,
  extract_boundary_polygons contains w edges = Some polys ->
  Permutation (concat polys) edges /\ Forall (fun p => p <> []) polys.
Proof. exact @polygons_perm. Qed.
Print Assumptions C62_partition.

Example C62_example : extract_boundary_polygons nested true [3; 1; 0] = Some [[3; 1; 0]] /\
  extract_boundary_polygons nested true [1; 0; 5] = Some [[0; 1]; [5]].
Proof. split; reflexivity. Qed.

Theorem C62_no_edges :
  forall E contains w (edges : list E),
  extract_boundary_polygons contains w edges = None <-> edges = [].
Proof. exact @polygons_none. Qed.
Print Assumptions C62_no_edges.

Theorem C62_without_holes :
  forall E contains (edges : list E) polys,
  extract_boundary_polygons contains false edges = Some polys -> polys = map (fun e => [e]) edges.
Proof. exact @polygons_without_holes. Qed.
Print Assumptions C62_without_holes.

(* C88: with one level of nesting.  Missing: deeper nesting (see C88_holes_inside_refuted) *)
Theorem C88_holes_inside_partial :
  forall E contains (edges : list E) polys,
  flat_nesting contains edges -> extract_boundary_polygons contains true edges = Some polys ->
  Forall (fun p => exists ring holes, p = ring :: holes /\ In ring edges /\
            (forall e, In e edges -> contains e ring = false) /\
            Forall (fun h => contains ring h = true) holes) polys.
Proof. exact @polygons_flat. Qed.
Print Assumptions C88_holes_inside_partial.

Example C88_example : flat_nesting nested [1; 0; 5; 2].
Proof.
  intros a b c Ha Hb Hc H. cbn in Ha, Hb, Hc.
  repeat destruct Ha as [<- | Ha]; try contradiction; repeat destruct Hb as [<- | Hb]; try contradiction;
    try discriminate; repeat destruct Hc as [<- | Hc]; try contradiction; reflexivity.
Qed.

(* C88: 3 is around 0, 0 around 1 and 2; the result has 2 as a hole of 1 *)
Theorem C88_holes_inside_refuted :
  (forall a b c, nested a b = true -> nested b c = true -> nested a c = true) /\
  (forall a, nested a a = false) /\
  extract_boundary_polygons nested true [0; 1; 2; 3] = Some [[1; 2]; [3; 0]] /\ nested 1 2 = false.
Proof. exact @polygons_nested. Qed.
Print Assumptions C88_holes_inside_refuted.

(* C65 *)
Theorem C65_fused_partial :
  forall (P D : Type) (eqb : P -> P -> bool) dimension boundary,
  (forall a b, eqb a b = true <-> a = b) ->
  forall (m : fmesh P D) groups out,
  separate groups -> (forall g poly, In g groups -> boundary g = [poly] -> NoDup poly) ->
  length (f_data m) = length (f_cells m) ->
  fuse_cells P D eqb dimension boundary m groups = Ok out -> fused boundary groups m out.
Proof. exact @fuse_fused. Qed.
Print Assumptions C65_fused_partial.

(* every group has its cell.  Missing: groups with common cells (see C65_fused_refuted) *)
Theorem C65_each_group_partial :
  forall (P D : Type) (eqb : P -> P -> bool) dimension boundary,
  (forall a b, eqb a b = true <-> a = b) ->
  forall (m : fmesh P D) groups out g,
  separate groups -> (forall g poly, In g groups -> boundary g = [poly] -> NoDup poly) ->
  length (f_data m) = length (f_cells m) ->
  fuse_cells P D eqb dimension boundary m groups = Ok out -> In g groups ->
  exists c poly, In c (f_cells out) /\ fst c = 7 /\ boundary g = [poly] /\ picks (f_pts m) (snd c) poly.
Proof. exact @fuse_each_group. Qed.
Print Assumptions C65_each_group_partial.

Example C65_example :
  separate [[2; 1]] /\
  fuse_cells nat nat Nat.eqb (fun _ => 2) (fun _ => [[1; 2; 3; 7; 6; 5]]) strip [[2; 1]] =
    Ok (mkF (seq 0 8) [(9, [0; 1; 5; 4]); (7, [1; 2; 3; 7; 6; 5])] [10; 12]).
Proof. split; [split; repeat constructor; cbn; intuition lia || discriminate | reflexivity]. Qed.

(* with a common cell the second group is lost *)
Theorem C65_fused_refuted :
  exists (m : fmesh nat nat) boundary groups out g,
    Forall (fusable (fun _ => 2) boundary m) groups /\ In g groups /\
    fuse_cells nat nat Nat.eqb (fun _ => 2) boundary m groups = Ok out /\
    ~ exists c poly, In c (f_cells out) /\ fst c = 7 /\ boundary g = [poly] /\ picks (f_pts m) (snd c) poly.
Proof.
  exists strip, strip_boundary, [[0; 1]; [1; 2]], (mkF (seq 0 8) [(7, [0; 1; 2; 6; 5; 4])] [10]), [1; 2].
  split.
  - apply Forall_cons; [|apply Forall_cons; [|apply Forall_nil]].
    all: split; [discriminate|]; split; [intros i Hi; cbn in Hi |- *; lia|]; split; [reflexivity|].
    all: eexists; (split; [reflexivity|]); intros q Hq; cbn in Hq; apply in_seq; lia.
  - split; [right; left; reflexivity|]. exact fuse_overlap.
Qed.
Print Assumptions C65_fused_refuted.

Theorem C65_accepts :
  forall (P D : Type) (eqb : P -> P -> bool) dimension boundary,
  (forall a b, eqb a b = true <-> a = b) ->
  forall (m : fmesh P D) groups, (forall g poly, In g groups -> boundary g = [poly] -> NoDup poly) ->
  ((exists out, fuse_cells P D eqb dimension boundary m groups = Ok out) <->
   groups <> [] /\ Forall (fusable dimension boundary m) groups).
Proof. exact @fuse_ok. Qed.
Print Assumptions C65_accepts.

Theorem C65_rejects :
  forall (P D : Type) (eqb : P -> P -> bool) dimension boundary,
  (forall a b, eqb a b = true <-> a = b) ->
  forall (m : fmesh P D) pre g gs,
  (forall g' poly, In g' pre -> boundary g' = [poly] -> NoDup poly) ->
  Forall (fusable dimension boundary m) pre -> in_range (length (f_cells m)) g ->
  (dimension g <> 2 -> fuse_cells P D eqb dimension boundary m (pre ++ g :: gs) = Err NotImplementedError) /\
  (dimension g = 2 -> length (boundary g) <> 1 ->
     fuse_cells P D eqb dimension boundary m (pre ++ g :: gs) = Err ValueError).
Proof. exact @fuse_rejects. Qed.
Print Assumptions C65_rejects.

Example C65_rejects_example :
  fuse_cells nat nat Nat.eqb (fun g => length g) strip_boundary strip [[0; 1]; [2]] = Err NotImplementedError /\
  fuse_cells nat nat Nat.eqb (fun g => 2) strip_boundary strip [[0; 1]; [0; 2]] = Err ValueError.
Proof. split; reflexivity. Qed.

(* C63 *)
Theorem C63_open_or_closed :
  forall g result opt cs engine ct shell holes shell' holes',
  (shell' = shell \/ (open_ring shell /\ shell' = shell ++ firstn 1 shell)) ->
  Forall2 (fun h h' => h' = h \/ (open_ring h /\ h' = h ++ firstn 1 h)) holes holes' ->
  polygon g result opt cs engine ct shell' holes' = polygon g result opt cs engine ct shell holes.
Proof. exact @polygon_closing. Qed.
Print Assumptions C63_open_or_closed.

Example C63_example : open_ring ring3 /\ ring3 ++ firstn 1 ring3 = [[0; 0; 0]; [1; 0; 0]; [0; 1; 0]; [0; 0; 0]]%R.
Proof. split; [|reflexivity]. cbn. intros H. injection H. intros. lra. Qed.

Theorem C63_one_cell :
  forall g result opt cs engine ct l,
  open_ring l -> (ct = None \/ ct = Some "polygon"%string) ->
  (rows_of 3 l -> polygon g result opt cs engine ct l [] = ([], Ok (OneCell l (seq 0 (length l))))) /\
  (rows_of 2 l -> polygon g result opt cs engine ct l [] =
     ([], Ok (OneCell (map (fun r => r ++ [0%R]) l) (seq 0 (length l))))).
Proof. exact @polygon_one_cell. Qed.
Print Assumptions C63_one_cell.

Example C63_one_cell_example : open_ring ring3 /\ rows_of 3 ring3 /\ open_ring [[0; 0]; [1; 0]; [0; 1]]%R /\
  rows_of 2 [[0; 0]; [1; 0]; [0; 1]]%R.
Proof.
  split; [cbn; intros H; injection H; intros; lra|]. split; [repeat constructor|].
  split; [cbn; intros H; injection H; intros; lra|repeat constructor].
Qed.

Theorem C63_default_celltype :
  forall g result opt cs engine shell holes,
  polygon g result opt cs engine None shell holes =
  polygon g result opt cs engine (Some (if length holes =? 0 then "polygon"%string else "triangle"%string)) shell holes.
Proof. exact @polygon_default. Qed.
Print Assumptions C63_default_celltype.

Theorem C63_holes_rejected :
  forall g result opt cs engine shell holes,
  open_ring shell -> Forall open_ring holes -> holes <> [] ->
  polygon g result opt cs engine (Some "polygon"%string) shell holes = ([], Err ValueError).
Proof. exact @polygon_with_holes. Qed.
Print Assumptions C63_holes_rejected.

Example C63_holes_example : Forall open_ring [ring3; [[0; 0]; [1; 0]; [0; 1]]%R] /\ [ring3] <> [].
Proof. split; [|discriminate]. repeat constructor; cbn; intros H; injection H; intros; lra. Qed.

Theorem C63_celltype_rejected :
  forall g result opt cs engine ct shell holes,
  open_ring shell -> Forall open_ring holes ->
  ~ In ct [""; "polygon"; "quad"; "triangle"]%string ->
  polygon g result opt cs engine (Some ct) shell holes = ([], Err ValueError).
Proof. exact @polygon_bad_celltype. Qed.
Print Assumptions C63_celltype_rejected.

(* C64: the calls to gmsh; mid may end at any failing call *)
Theorem C64_session_closed :
  forall g result opt cs engine ct shell holes,
  let t := fst (polygon g result opt cs engine ct shell holes) in
  t = [] \/
  exists mid, Forall (fun o => ~ session_op o) mid /\
    (g (Initialize :: mid) Clear <> None -> t = Initialize :: mid ++ [Clear; Finalize]) /\
    (g (Initialize :: mid) Clear = None -> t = Initialize :: mid ++ [Clear]).
Proof. exact @polygon_session. Qed.
Print Assumptions C64_session_closed.

Example C64_example : forall result,
  fst (polygon (fun t o => match o with Generate => None | _ => Some (length t) end) result false None "gmsh"
         (Some "triangle"%string) [[0; 0]; [1; 0]; [0; 1]]%R []) =
  [Initialize] ++
  map (fun rs => AddPoint (fst rs) (snd rs))
    (combine [[0; 0; 0]; [1; 0; 0]; [0; 1; 0]]%R
       (match mesh_sizes true None [[0; 0; 0]; [1; 0; 0]; [0; 1; 0]; [0; 0; 0]]%R with Ok s => s | Err _ => [] end)) ++
  [AddLine 1 2; AddLine 2 3; AddLine 3 1; AddCurveLoop [4; 5; 6]; AddPlaneSurface [7];
   SetOptions; Synchronize; Generate; Clear; Finalize].
Proof.
  intros result. unfold polygon, to_points.
  assert (N : row_eqb [0; 0]%R (last [[0; 0]; [1; 0]; [0; 1]]%R [0; 0]%R) = false).
  { destruct (row_eqb _ _) eqn:E; [|reflexivity]. apply row_eqb_spec in E. injection E. intros. exfalso. lra. }
  rewrite N. reflexivity.
Qed.

(* an error raised in the session closes it and is raised again *)
Theorem C64_engine_rejected :
  forall g result opt cs engine ct shell holes,
  open_ring shell -> Forall open_ring holes -> (ct = "quad" \/ ct = "triangle")%string ->
  engine <> "gmsh"%string -> engine <> "occ"%string -> (forall t o, g t o <> None) ->
  polygon g result opt cs engine (Some ct) shell holes = ([Initialize; Clear; Finalize], Err ValueError).
Proof. exact @polygon_bad_engine. Qed.
Print Assumptions C64_engine_rejected.

(* C89 and C90: the points given to gmsh are those of the rings, with their sizes; the lines join them as the edges of the rings; the result is built from what gmsh returns before the session is closed *)
Theorem C89_gmsh_outline :
  forall g result opt cs engine ct shell holes t points cells,
  open_ring shell -> rows_of 3 shell -> Forall open_ring holes -> Forall (rows_of 3) holes ->
  polygon g result opt cs engine (Some ct) shell holes = (t, Ok (Meshed points cells)) ->
  (exists blocks, added t = concat blocks /\
     Forall2 (sized_as cs (if String.eqb ct "quad" then 2 else 1)%R) (shell :: holes) blocks) /\
  (numbered g -> Forall2 (draws t) (drawn t) (flat_map ring_edges (shell :: holes))) /\
  exists s, t = s ++ [Clear; Finalize] /\ to_pyvista (result s) = Ok (points, cells).
Proof. exact @polygon_outline. Qed.
Print Assumptions C89_gmsh_outline.

Example C89_numbered_example : numbered (fun t o => match o with AddPoint _ _ => Some (S (length (added t))) | _ => Some 7 end).
Proof. intros t r s k [= <-]. reflexivity. Qed.

(* C90: for one ring *)
Theorem C90_mesh_sizes :
  forall tri cs p l,
  exists sizes,
  mesh_sizes tri cs ((p :: l) ++ [p]) = Ok sizes /\
  sized_as cs (if tri then 1 else 2)%R (p :: l) (combine (p :: l) sizes) /\ length sizes = length (p :: l).
Proof. exact @mesh_sizes_spec. Qed.
Print Assumptions C90_mesh_sizes.

Example C90_example : corner ring3 0 [0; 1; 0]%R [0; 0; 0]%R [1; 0; 0]%R.
Proof. repeat split; reflexivity. Qed.

(* C91: when gmsh numbers its nodes from 1 in the order of the coordinates.  Missing: other numberings (see C91_gmsh_cells_refuted) *)
Theorem C91_gmsh_cells_partial :
  forall gm points cells,
  map fst (fst gm) = seq 1 (length (fst gm)) ->
  Forall (fun te => Forall (in_tags (length (fst gm))) (snd te)) (snd gm) ->
  to_pyvista gm = Ok (points, cells) ->
  points = map snd (fst gm) /\
  Forall2 (fun te c => fst c = (if fst te =? 2 then 5 else 9) /\ (fst te = 2 \/ fst te = 3) /\
             Forall2 (same_points gm points) (snd te) (snd c))
    (filter (fun te => negb ((fst te =? 1) || (fst te =? 15))) (snd gm)) cells.
Proof. exact @to_pyvista_cells. Qed.
Print Assumptions C91_gmsh_cells_partial.

Example C91_example : to_pyvista ([(1, (0, 0, 0)%R); (2, (1, 0, 0)%R); (3, (0, 1, 0)%R)], [(15, [[1]]); (1, [[1; 2]]); (2, [[1; 2; 3]])]) =
  Ok ([(0, 0, 0); (1, 0, 0); (0, 1, 0)]%R, [(5, [[0; 1; 2]%Z])]).
Proof. reflexivity. Qed.

(* C91 *)
Theorem C91_gmsh_cells_refuted :
  exists gm points cells,
    NoDup (map fst (fst gm)) /\ Forall (fun te => Forall (in_tags (length (fst gm))) (snd te)) (snd gm) /\
    to_pyvista gm = Ok (points, cells) /\
    snd gm = [(2, [[1; 2; 3]])] /\ cells = [(5, [[0; 1; 2]%Z])] /\
    ~ same_points gm points [1; 2; 3] [0; 1; 2]%Z.
Proof. exact @to_pyvista_wrong. Qed.
Print Assumptions C91_gmsh_cells_refuted.
