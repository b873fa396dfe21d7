From Coq Require Import Reals Lra Ascii Permutation Sorted.
From Verif Require Import Topo_model Volume_spec Topo_spec Topo_proof Topo2_proof Topo3_proof Topo4_proof
  Topo5_proof Topo6_proof Topo7_proof Center_model Center_spec Center_proof Center2_proof Center3_proof Center4_proof.
Open Scope nat_scope.

(* two quads that share edge 1-2 *)
Definition two_quads : vmesh := mkV [9; 9] [[0; 1; 2; 3]; [1; 4; 5; 2]] [] [].
(* a hexahedron and a polyhedron *)
Definition hex_poly : vmesh :=
  mkV [12; 42] [[0; 1; 2; 3; 4; 5; 6; 7]; [4; 5; 6; 7; 8]]
      [[4; 5; 6; 7]; [4; 8; 5]; [5; 8; 6]; [6; 8; 7]; [7; 8; 4]] [[]; [0; 1; 2; 3; 4]].

(* C40: when no face is collapsed.  Missing: collapsed faces (see C40_faces_once_refuted) *)
Theorem C40_faces_once_partial :
  forall nonzero rg d g,
  wf_mesh (cast d) -> extract_cell_geometry nonzero rg d = Ok g ->
  exists n faces, get_dimension d = Ok n /\ mesh_faces rg (cast d) n faces /\
    (no_collapse nonzero rg faces -> lists_once (incidences faces) g /\ exists w, common_width w g).
Proof. exact @geometry_faces. Qed.
Print Assumptions C40_faces_once_partial.

Example C40_example : wf_mesh hex_poly /\ exists g,
  extract_cell_geometry (fun _ => true) true (DCells hex_poly) = Ok g /\
  length (g_faces g) = 10 /\ In ([4; 5; 6; 7], [0; 1]%Z) (combine (g_faces g) (g_rows g)).
Proof. split; [split; simpl; lia|]. eexists; split; [reflexivity|]. split; [reflexivity|]. simpl; auto. Qed.

Theorem C40_defined :
  forall nonzero rg d n faces,
  wf_mesh (cast d) -> get_dimension d = Ok n ->
  mesh_faces rg (cast d) n faces -> concat faces <> [] ->
  (rg = true -> forall f f', In f (concat faces) -> same_set f f' -> nonzero f' = true) ->
  exists g, extract_cell_geometry nonzero rg d = Ok g.
Proof. exact @geometry_defined. Qed.
Print Assumptions C40_defined.

(* rows after collapsed faces are dropped *)
Theorem C40_collapsed_partial :
  forall nonzero d g,
  wf_mesh (cast d) -> extract_cell_geometry nonzero true d = Ok g ->
  exists n faces g0 w, get_dimension d = Ok n /\ mesh_faces true (cast d) n faces /\
    (* the faces as they are listed before *)
    lists_once (incidences faces) g0 /\ common_width w g0 /\
    (* two kept faces with different first cells, and one with a single cell *)
    ((exists f1 r1 f2 r2, In (f1, r1) (combine (g_faces g0) (g_rows g0)) /\ In (f2, r2) (combine (g_faces g0) (g_rows g0)) /\
       nonzero f1 = true /\ nonzero f2 = true /\ nth 0 r1 (-1)%Z <> nth 0 r2 (-1)%Z) ->
     (exists f1 r1, In (f1, r1) (combine (g_faces g0) (g_rows g0)) /\ nonzero f1 = true /\ nth 1 r1 (-1)%Z = (-1)%Z) ->
     g_faces g = filter nonzero (g_faces g0) /\
     exists n, map (fun r => r ++ repeat (-1)%Z n) (g_rows g) =
       map snd (filter (fun fr => nonzero (fst fr)) (combine (g_faces g0) (g_rows g0)))).
Proof. exact @geometry_collapsed. Qed.
Print Assumptions C40_collapsed_partial.

(* two quads and a line without length *)
Example C40_collapsed_example : exists g,
  extract_cell_geometry (fun f => negb (list_eqb f [7; 7])) true
    (DCells (mkV [9; 9; 3] [[0; 1; 2; 3]; [1; 4; 5; 2]; [7; 7]] [] [])) = Ok g /\
  length (g_faces g) = 7 /\ In ([1; 2], [0; 1]%Z) (combine (g_faces g) (g_rows g)) /\ In ([0; 1], [0; -1]%Z) (combine (g_faces g) (g_rows g)).
Proof. eexists; split; [reflexivity|]. split; [reflexivity|]. simpl. tauto. Qed.

(* a column of equal ids is dropped along with the collapsed faces *)
Theorem C40_faces_once_refuted :
  exists nonzero d g faces,
  wf_mesh (cast d) /\ mesh_faces true (cast d) 2 faces /\ get_dimension d = Ok 2%Z /\
  extract_cell_geometry nonzero true d = Ok g /\
  (* cells 0 and 1 have edge 0-1; its row is [1] *)
  In (0, [0; 1]) (incidences faces) /\ nth_error (g_faces g) 0 = Some [0; 1] /\ nth_error (g_rows g) 0 = Some [1%Z].
Proof. exact @geometry_refuted. Qed.
Print Assumptions C40_faces_once_refuted.

(* C41: when no face is collapsed *)
Theorem C41_neighbors_partial :
  forall nonzero rg d nb,
  wf_mesh (cast d) -> get_neighborhood nonzero rg d = Ok nb ->
  exists n faces, get_dimension d = Ok n /\ mesh_faces rg (cast d) n faces /\
    (no_collapse nonzero rg faces ->
     length nb = length (v_types (cast d)) /\
     (forall i r, nth_error nb i = Some r -> forall z, In z r <-> exists j, z = Z.of_nat j /\ share faces i j) /\
     (forall i r j, nth_error nb i = Some r -> multiplicity faces i j (count_occ Z.eq_dec r (Z.of_nat j))) /\
     (forall i j ri rj, nth_error nb i = Some ri -> nth_error nb j = Some rj ->
        count_occ Z.eq_dec ri (Z.of_nat j) = count_occ Z.eq_dec rj (Z.of_nat i))).
Proof. exact @neighborhood_spec. Qed.
Print Assumptions C41_neighbors_partial.

Example C41_example : wf_mesh two_quads /\
  get_neighborhood (fun _ => true) true (DCells two_quads) = Ok [[1]; [0]]%Z.
Proof. split; [split; simpl; lia|reflexivity]. Qed.

Theorem C41_neighbors_refuted :
  exists nonzero d n faces,
  wf_mesh (cast d) /\ get_dimension d = Ok n /\ mesh_faces true (cast d) n faces /\
  used 2 faces /\ ~ used 3 faces /\ share faces 0 1 /\
  get_neighborhood nonzero true d = Err TypeError.
Proof. exact @neighborhood_refuted. Qed.
Print Assumptions C41_neighbors_refuted.

(* C42: get_neighborhood succeeds exactly when some face is shared and none by three cells *)
Theorem C42_defined_partial :
  forall nonzero rg d g,
  wf_mesh (cast d) -> extract_cell_geometry nonzero rg d = Ok g ->
  exists n faces, get_dimension d = Ok n /\ mesh_faces rg (cast d) n faces /\
    (no_collapse nonzero rg faces ->
     ((exists nb, get_neighborhood nonzero rg d = Ok nb) <-> used 2 faces /\ ~ used 3 faces)).
Proof. exact @neighborhood_iff. Qed.
Print Assumptions C42_defined_partial.

Example C42_example : exists g, extract_cell_geometry (fun _ => true) true (DCells two_quads) = Ok g /\
  g_rows g = [[0; -1]; [0; 1]; [0; -1]; [0; -1]; [1; -1]; [1; -1]; [1; -1]]%Z.
Proof. eexists; split; reflexivity. Qed.

Theorem C42_total_refuted :
  exists d, wf_mesh (cast d) /\
  (forall t, In t (v_types (cast d)) -> In t [5; 9; 10; 12]) /\
  forall nonzero rg, (forall f, nonzero f = true) -> get_neighborhood nonzero rg d = Err TypeError.
Proof. exact @total_refuted. Qed.
Print Assumptions C42_total_refuted.

(* C43: when no face is collapsed *)
Theorem C43_lines_partial :
  forall P nonzero rg d shape (centers : list P) c lines,
  wf_mesh (cast d) ->
  get_connectivity nonzero rg d shape centers = Ok (c, lines) ->
  c = centers /\ shape = [length (v_types (cast d)); 3] /\
  exists n faces g, get_dimension d = Ok n /\ mesh_faces rg (cast d) n faces /\
    (no_collapse nonzero rg faces -> lists_once (incidences faces) g /\ shared_pairs (incidences faces) g lines).
Proof. exact @connectivity_spec. Qed.
Print Assumptions C43_lines_partial.

Example C43_example : get_connectivity (fun _ => true) true (DCells two_quads) [2; 3] ["a"; "b"]%string =
  Ok (["a"; "b"]%string, [(0, 1)]%Z).
Proof. reflexivity. Qed.

Theorem C43_shape_rejected :
  forall P nonzero rg d shape (centers : list P),
  shape <> [length (v_types (cast d)); 3] -> get_connectivity nonzero rg d shape centers = Err ValueError.
Proof. exact @connectivity_rejects. Qed.
Print Assumptions C43_shape_rejected.

Theorem C43_lines_refuted :
  exists nonzero d faces lines,
  wf_mesh (cast d) /\ get_dimension d = Ok 2%Z /\ mesh_faces true (cast d) 2 faces /\ share faces 0 1 /\
  get_connectivity nonzero true d [length (v_types (cast d)); 3] (seq 0 4) = Ok (seq 0 4, lines) /\
  ~ exists j, In (0%Z, j) lines \/ In (j, 0%Z) lines.
Proof. exact @connectivity_refuted. Qed.
Print Assumptions C43_lines_refuted.

(* C44 *)
Theorem C44_closed :
  forall nonzero t ids,
  In t [10; 11; 12; 13; 14] -> NoDup ids ->
  length ids = length (vtk_points t) ->
  exists g, extract_cell_geometry nonzero false (DCells (mkV [t] [ids] [] [])) = Ok g /\
    closed_oriented (g_faces g).
Proof. exact @one_cell_closed. Qed.
Print Assumptions C44_closed.

Example C44_example : NoDup [7; 3; 9; 0; 1; 4; 2; 8] /\ exists g,
  extract_cell_geometry (fun _ => true) false (DCells (mkV [12] [[7; 3; 9; 0; 1; 4; 2; 8]] [] [])) = Ok g /\
  length (g_faces g) = 6.
Proof. split; [repeat constructor; simpl; lia|]. eexists; split; reflexivity. Qed.

(* C45 *)
Theorem C45_decodable :
  forall m s,
  wf_mesh m -> get_cell_connectivity_flat m = Ok s ->
  exists vs, decode (v_types m) s = Some vs /\ length vs = length (v_types m) /\
    forall i t v, nth_error (v_types m) i = Some t -> nth_error vs i = Some v ->
      exists c, cell_conn m i c /\ decodes t c v.
Proof. exact @flat_decodes. Qed.
Print Assumptions C45_decodable.

Example C45_example : wf_mesh hex_poly /\ exists s, get_cell_connectivity_flat hex_poly = Ok s /\
  decode (v_types hex_poly) s = Some [Plain 12 [0; 1; 2; 3; 4; 5; 6; 7];
     Poly [[4; 5; 6; 7]; [4; 8; 5]; [5; 8; 6]; [6; 8; 7]; [7; 8; 4]]].
Proof. split; [split; simpl; lia|]. eexists; split; reflexivity. Qed.

Theorem C45_defined :
  forall m,
  wf_mesh m ->
  (forall i t, nth_error (v_types m) i = Some t ->
     exists c, cell_conn m i c /\ (t = 42 <-> exists fs, c = CFaces fs)) ->
  exists s, get_cell_connectivity_flat m = Ok s.
Proof. exact @flat_defined. Qed.
Print Assumptions C45_defined.

(* C46: structured grids *)
Theorem C46_structured :
  forall dims m,
  length dims = 3 -> (forall n, In n dims -> 1 <= n) ->
  get_dimension (DGrid dims m) = Ok (Z.of_nat (length (filter (fun n => 1 <? n) dims))).
Proof. exact @dimension_grid. Qed.
Print Assumptions C46_structured.

Example C46_grid_example : get_dimension (DGrid [5; 1; 7] two_quads) = Ok 2%Z.
Proof. reflexivity. Qed.

(* C46: without CONVEX_POINT_SET (41), whose dimension is wrong in the table *)
Theorem C46_cells_partial :
  forall m n,
  (forall t, In t (v_types m) -> known_type t) -> ~ In 41 (v_types m) ->
  (exists t, In t (v_types m) /\ t <> 0) ->
  get_dimension (DCells m) = Ok n <->
  (exists t, In t (v_types m) /\ vtk_dimension t = Some n) /\
  (forall t k, In t (v_types m) -> vtk_dimension t = Some k -> (k <= n)%Z).
Proof. exact @dimension_cells. Qed.
Print Assumptions C46_cells_partial.

Example C46_cells_example : get_dimension (DCells (mkV [0; 3; 9] [[]; [0; 1]; [0; 1; 2; 3]] [] [])) = Ok 2%Z.
Proof. reflexivity. Qed.

Theorem C46_cells_refuted :
  exists m, (forall t, In t (v_types m) -> vtk_dimension t = Some 3%Z) /\ v_types m <> [] /\
  get_dimension (DCells m) = Ok 0%Z.
Proof. exact @dimension_refuted. Qed.
Print Assumptions C46_cells_refuted.

(* C46: the table ends with type 81; a mesh without cells has no dimension *)
Theorem C46_rejected :
  (forall m t, In t (v_types m) -> 82 <= t -> get_dimension (DCells m) = Err IndexError) /\
  (forall m, v_types m = [] -> get_dimension (DCells m) = Err ValueError).
Proof.
  split.
  - intros m t Ht Hl. cbn [get_dimension].
    assert (E : mapM dim_of (v_types m) = Err IndexError); [|now rewrite E].
    induction (v_types m) as [|x l IH]; [destruct Ht|]. cbn [mapM]. unfold dim_of at 1.
    destruct (nth_error dimension_map x) as [d|] eqn:E; [|reflexivity]. cbn [bind].
    destruct Ht as [->|Ht]; [|now rewrite (IH Ht)].
    exfalso. assert (t < length dimension_map) by (apply nth_error_Some; congruence). change (length dimension_map) with 82 in *. lia.
  - intros m E. cbn [get_dimension]. rewrite E. reflexivity.
Qed.
Print Assumptions C46_rejected.

Example C46_rejected_example : get_dimension (DCells (mkV [9; 82] [[0; 1; 2; 3]; [0; 1]] [] [])) = Err IndexError.
Proof. reflexivity. Qed.

(* C47: what is kept; empty cells count as of dimension -1 *)
Theorem C47_extraction_partial :
  forall d ndim method keep n,
  let m := cast d in
  (forall t, In t (v_types m) -> known_type t) -> ~ In 41 (v_types m) ->
  ndim = Some n \/ (ndim = None /\ get_dimension (DCells m) = Ok n) ->
  method = "upper"%string \/ method = "lower"%string ->
  exists ids, extract_cells_by_dimension d ndim method keep = Ok ids /\ StronglySorted lt ids /\
    forall i, In i ids <-> exists t, nth_error (v_types m) i = Some t /\
      ((if String.eqb method "upper" then n <= dim_or_empty t else dim_or_empty t <= n)%Z \/ (keep = true /\ t = 0)).
Proof. exact @extraction_spec. Qed.
Print Assumptions C47_extraction_partial.

Example C47_example : extract_cells_by_dimension (DCells hex_poly) None "upper" false = Ok [0; 1] /\
  extract_cells_by_dimension (DCells (mkV [3; 9; 0] [[0; 1]; [0; 1; 2; 3]; []] [] [])) (Some 2%Z) "upper" true = Ok [1; 2].
Proof. split; reflexivity. Qed.

Theorem C47_method_rejected :
  forall d ndim method keep,
  method <> "upper"%string -> method <> "lower"%string ->
  (forall t, In t (v_types (cast d)) -> known_type t) -> ~ In 41 (v_types (cast d)) ->
  extract_cells_by_dimension d ndim method keep = Err ValueError.
Proof. exact @extraction_rejects. Qed.
Print Assumptions C47_method_rejected.

(* lower keeps empty cells although keep_empty is false *)
Theorem C47_extraction_refuted :
  exists d ids i, (forall t, In t (v_types (cast d)) -> known_type t) /\
  extract_cells_by_dimension d (Some 1%Z) "lower" false = Ok ids /\ In i ids /\ nth_error (v_types (cast d)) i = Some 0.
Proof. exact @extraction_refuted. Qed.
Print Assumptions C47_extraction_refuted.

(* C48 *)
Theorem C48_input_restored :
  forall D extract (m : cmesh D) out after,
  extract_cells extract m = (out, after) ->
  after = m /\
  (forall ids gh, out = Ok (ids, gh) -> extract (mkC (cm_data m) None) = Ok ids /\
     (cm_ghost m = None -> gh = None) /\
     forall g, cm_ghost m = Some g -> exists v, gh = Some v /\ Forall2 (fun i x => nth_error g i = Some x) ids v).
Proof. exact @extract_cells_spec. Qed.
Print Assumptions C48_input_restored.

Example C48_example : extract_cells (fun _ => Ok [2; 0]) (mkC [("a"%string, [1; 2; 3])] (Some [7; 8; 9])) =
  (Ok ([2; 0], Some [9; 7]), mkC [("a"%string, [1; 2; 3])] (Some [7; 8; 9])) /\
  extract_cells (fun _ => Err ValueError) (mkC [("a"%string, [1; 2; 3])] (Some [7; 8; 9])) =
  (Err ValueError, mkC [("a"%string, [1; 2; 3])] (Some [7; 8; 9])).
Proof. split; reflexivity. Qed.

Theorem C48_defined :
  forall D extract (m : cmesh D) ids,
  extract (mkC (cm_data m) None) = Ok ids ->
  (forall g i, cm_ghost m = Some g -> In i ids -> i < length g) ->
  exists gh, fst (extract_cells extract m) = Ok (ids, gh).
Proof. exact @extract_cells_defined. Qed.
Print Assumptions C48_defined.

(* C49: when the call succeeds.  False when it raises (C49_ghosts_refuted) *)
Theorem C49_ghosts_partial :
  forall vtk version method g ghosts rows after,
  get_cell_centers vtk version method g ghosts = (Ok rows, after) -> after = ghosts.
Proof. exact @ghosts_kept. Qed.
Print Assumptions C49_ghosts_partial.

Example C49_example : get_cell_centers (Ok [(0, 0, 0)%R]) "9.5.0" (Some "tetra"%string)
  (UGrid tet_mesh unit_points) (Some [0]) = (Ok [Some (1 / 4, 1 / 4, 1 / 4)%R], Some [0]).
Proof. exact tet_example. Qed.

(* a flat polyhedron raises ZeroDivisionError and the ghost array is lost *)
Theorem C49_ghosts_refuted :
  exists vtk m points ghosts e,
  wf_mesh m /\ vtk = Ok [(0, 0, 0)%R] /\
  get_cell_centers vtk "9.5.0" (Some "tetra"%string) (UGrid m points) (Some ghosts) = (Err e, None).
Proof. exact @ghosts_refuted. Qed.
Print Assumptions C49_ghosts_refuted.

(* C78: when the first two components of the version have one digit *)
Theorem C78_gate_partial :
  forall vtk version v method points m ghosts rows after,
  wf_mesh m ->
  length (v_locs m) = length (v_types m) ->
  version_of version v -> fst (fst v) < 10 -> snd (fst v) < 10 ->
  get_cell_centers vtk version (Some method) (UGrid m points) ghosts = (Ok rows, after) ->
  exists cs, vtk = Ok cs /\
    forall i, nth_error (v_types m) i = Some 42 ->
      (own_formula method v -> exists c, nth_error rows i = Some c /\ method_center method points m i c) /\
      (~ own_formula method v -> exists c, vtk_center (v_types m) cs i c /\ nth_error rows i = Some (Some c)).
Proof. exact @centers_version. Qed.
Print Assumptions C78_gate_partial.

Example C78_example : version_of "9.5.0" (9, 5, 0) /\ own_formula "tetra" (9, 5, 0) /\
  ~ own_formula "geometric" (9, 5, 0).
Proof.
  split; [exact version_950|]. split; [right; right; split; auto; unfold ver_le; lia|].
  intros [[E _]|[[_ E]|[E _]]]; [discriminate|congruence|discriminate].
Qed.

(* 9.10.0 is later than 9.5.0 but its string sorts before *)
Theorem C78_gate_refuted :
  exists version v vtk m points rows c,
  wf_mesh m /\ version_of version v /\ own_formula "box" v /\
  get_cell_centers vtk version (Some "box"%string) (UGrid m points) None = (Ok rows, None) /\
  nth_error (v_types m) 0 = Some 42 /\ nth_error rows 0 = Some c /\ ~ method_center "box" points m 0 c.
Proof. exact @version_refuted. Qed.
Print Assumptions C78_gate_refuted.

(* C84: the faces of every affine image of positive determinant of a VTK cell turn outward *)
Theorem C84_outward :
  forall nonzero t ids (P : nat -> vec) o a b c,
  In t [10; 11; 12; 13; 14] -> NoDup ids ->
  length ids = length (vtk_points t) ->
  (forall k i p, nth_error ids k = Some i -> nth_error (vtk_points t) k = Some p -> P i = affine o a b c p) ->
  (0 < det3 a b c)%R ->
  exists g, extract_cell_geometry nonzero false (DCells (mkV [t] [ids] [] [])) = Ok g /\
    outward P (g_faces g).
Proof. exact @one_cell_outward. Qed.
Print Assumptions C84_outward.

Example C84_example : (0 < det3 (2, 0, 0) (1, 1, 0) (0, 0, 3))%R /\
  exists g, extract_cell_geometry (fun _ => true) false (DCells (mkV [14] [[4; 3; 2; 1; 0]] [] [])) = Ok g /\
  g_faces g = [[4; 1; 2; 3]; [4; 3; 0]; [3; 2; 0]; [2; 1; 0]; [1; 4; 0]].
Proof. split; [unfold det3; lra|]. eexists; split; reflexivity. Qed.

(* C85: in two dimensions *)
Theorem C85_unsupported_partial :
  forall nonzero rg m n t,
  get_dimension (DCells m) = Ok n -> n = 1%Z \/ n = 2%Z ->
  In t (v_types m) -> ~ In t [0; 3; 4; 5; 7; 8; 9] ->
  extract_cell_geometry nonzero rg (DCells m) = Err NotImplementedError.
Proof. exact @unsupported_2d. Qed.
Print Assumptions C85_unsupported_partial.

Example C85_example : extract_cell_geometry (fun _ => true) true (DCells (mkV [9; 22] [[0; 1; 2; 3]; [0; 1; 2; 3; 4; 5]] [] [])) =
  Err NotImplementedError.
Proof. reflexivity. Qed.

(* in three dimensions other exceptions are raised *)
Theorem C85_unsupported_refuted :
  exists m1 m2, wf_mesh m1 /\ wf_mesh m2 /\
  v_types m1 = [24] /\ v_types m2 = [12; 24] /\
  forall nonzero rg,
    extract_cell_geometry nonzero rg (DCells m1) = Err KeyError /\
    extract_cell_geometry nonzero rg (DCells m2) = Err AttributeError.
Proof. exact @unsupported_refuted. Qed.
Print Assumptions C85_unsupported_refuted.

(* C86: any vertex may be the apex *)
Theorem C86_apex_independent :
  forall vtk version points m m' ghosts,
  v_types m' = v_types m -> v_faces m' = v_faces m -> v_locs m' = v_locs m ->
  length (v_cells m') = length (v_cells m) ->
  (forall i, nth_error (v_types m) i = Some 42 ->
     (exists i0 rest i1 rest', nth_error (v_cells m) i = Some (i0 :: rest) /\
        nth_error (v_cells m') i = Some (i1 :: rest') /\ i0 < length points /\ i1 < length points) /\
     forall faces, poly_faces m i faces -> balanced faces) ->
  get_cell_centers vtk version (Some "tetra"%string) (UGrid m points) ghosts =
  get_cell_centers vtk version (Some "tetra"%string) (UGrid m' points) ghosts.
Proof. exact @centers_apex. Qed.
Print Assumptions C86_apex_independent.

Example C86_example : balanced tet_faces /\ poly_faces tet_mesh 0 tet_faces.
Proof.
  split; [exact tet_balanced|]. exists [0; 1; 2; 3]; split; [reflexivity|]. repeat constructor.
Qed.

(* the centers of the image are the images of the centers *)
Theorem C86_affine :
  forall o a b c vtk version v method points m ghosts rows after,
  wf_mesh m ->
  length (v_locs m) = length (v_types m) ->
  version_of version v -> fst (fst v) < 10 -> snd (fst v) < 10 -> own_formula method v ->
  method = "geometric"%string \/ (method = "tetra"%string /\ det3 a b c <> 0%R) ->
  get_cell_centers vtk version (Some method) (UGrid m points) ghosts = (Ok rows, after) ->
  exists rows', get_cell_centers vtk version (Some method)
                  (UGrid m (map (affine_map o a b c) points)) ghosts = (Ok rows', after) /\
    forall i t r, nth_error (v_types m) i = Some t -> nth_error rows i = Some r ->
      nth_error rows' i = Some (if t =? 42 then option_map (affine_map o a b c) r else r).
Proof. exact @centers_affine_all. Qed.
Print Assumptions C86_affine.

Example C86_affine_example : det3 (2, 0, 0)%R (0, 3, 0)%R (1, 0, 1)%R <> 0%R /\
  affine_map (5, 0, 0)%R (2, 0, 0)%R (0, 3, 0)%R (1, 0, 1)%R (1 / 4, 1 / 4, 1 / 4)%R = (5 + 3 / 4, 3 / 4, 1 / 4)%R.
Proof. split; [unfold det3; lra|]. unfold affine_map. f_equal; [f_equal|]; lra. Qed.

(* the center is in every half-space that contains the vertices *)
Theorem C86_inside :
  forall vtk version points m ghosts rows after i ids i0 a faces c,
  wf_mesh m ->
  length (v_locs m) = length (v_types m) ->
  version_of version (9, 5, 0) ->
  get_cell_centers vtk version (Some "tetra"%string) (UGrid m points) ghosts = (Ok rows, after) ->
  nth_error (v_types m) i = Some 42 -> nth_error (v_cells m) i = Some (i0 :: ids) ->
  nth_error points i0 = Some a -> poly_faces m i faces -> nth_error rows i = Some (Some c) ->
  (forall t, In t (triangles faces) -> (0 <= vol6 (at_pts points) a t)%R) \/
  (forall t, In t (triangles faces) -> (vol6 (at_pts points) a t <= 0)%R) ->
  forall n k, (forall j, In j (concat faces) -> (dotv n (at_pts points j) <= k)%R) -> (dotv n a <= k)%R ->
    (dotv n c <= k)%R.
Proof. exact @centers_inside. Qed.
Print Assumptions C86_inside.

Example C86_inside_example : forall t, In t (triangles tet_faces) -> (0 <= vol6 (at_pts unit_points) (0, 0, 0) t)%R.
Proof. intros t [<-|[<-|[<-|[<-|[]]]]]; cbn; lra. Qed.

(* C87 *)
Theorem C87_rows :
  forall vtk version method points m ghosts rows after,
  wf_mesh m ->
  length (v_locs m) = length (v_types m) ->
  get_cell_centers vtk version (Some method) (UGrid m points) ghosts = (Ok rows, after) ->
  exists cs, vtk = Ok cs /\ length rows = length (v_types m) /\
    (forall i t, nth_error (v_types m) i = Some t -> t <> 42 ->
      (t = 0 /\ nth_error rows i = Some None) \/
      (t <> 0 /\ exists c, vtk_center (v_types m) cs i c /\ nth_error rows i = Some (Some c))) /\
    ((forall i, nth_error (v_types m) i = Some 42 ->
        exists c, nth_error rows i = Some c /\ method_center method points m i c) \/
     (forall i, nth_error (v_types m) i = Some 42 ->
        exists c, vtk_center (v_types m) cs i c /\ nth_error rows i = Some (Some c))).
Proof. exact @centers_rows. Qed.
Print Assumptions C87_rows.

Example C87_example : wf_mesh tet_mesh /\ length (v_locs tet_mesh) = length (v_types tet_mesh) /\
  method_center "tetra" unit_points tet_mesh 0 (Some (1 / 4, 1 / 4, 1 / 4)%R).
Proof.
  split; [split; simpl; lia|]. split; auto.
  destruct (centers_version _ _ _ _ _ tet_mesh _ _ _ ltac:(split; simpl; lia) eq_refl version_950
    ltac:(simpl; lia) ltac:(simpl; lia) tet_example) as (cs & _ & H).
  destruct (H 0 eq_refl) as [H1 _]. destruct H1 as (c & E & Hc); [right; right; split; auto; unfold ver_le; lia|].
  injection E as <-. exact Hc.
Qed.
