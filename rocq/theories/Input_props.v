(* C136-C140: arguments given as arrays, default arguments and the half stadium *)
From Coq Require Import Reals Lra.
From Verif Require Import Lines_spec Trans5_proof Trans6_proof.
From Verif Require Import Prelude Grid Perc_model Surface_model Surface_spec Volume_model Volume_spec Groups_model Lines_model
  Polygon_model Voronoi_model Objects_model Objects_spec Seeds_model Stack_model Trans_model
  Input_model Input_spec Input1_proof Input2_proof.
Open Scope nat_scope.

(* C136: full statement: arrays of one or two dimensions whose points have two or three entries are accepted,
   other arrays are rejected with a ValueError; two entries are the coordinates other than the axis. *)
Theorem C136_array_accepted :
  forall axis a, axis <= 2 -> proper a -> point_shape a ->
  exists b, check_point_array axis a = Ok b /\ Forall2 (described axis) (rows_of_array a) (array_points b).
Proof. exact check_ok. Qed.
Print Assumptions C136_array_accepted.

Example C136_array_case : proper (Arr2 2 [[1; 2]; [3; 4]]%R) /\ point_shape (Arr2 2 [[1; 2]; [3; 4]]%R) /\
  described 1 [1; 2]%R (1, 0, 2)%R.
Proof. split; [repeat constructor|]. split; [now left|]. right. auto. Qed.

Theorem C136_array_rejected :
  forall axis a, axis <= 2 -> ~ point_shape a -> check_point_array axis a = Err ValueError.
Proof. exact check_bad. Qed.
Print Assumptions C136_array_rejected.

Example C136_rejected_case : ~ point_shape (Arr1 [1; 2; 3; 4]%R) /\ ~ point_shape (Arr2 1 [[1]; [2]]%R) /\ ~ point_shape ArrN.
Proof. cbn. repeat split; intros H; try (destruct H as [H|H]; discriminate); exact H. Qed.

Theorem C136_seeds_of_array :
  forall axis s a prio group, axis <= 2 -> proper a -> point_shape a ->
  exists it s', add_array axis s a prio group = (s', Ok tt) /\ s_items s' = s_items s ++ [it] /\ s_fuse s' = s_fuse s /\
    vi_prio it = prio /\ vi_group it = group /\ vi_poly it = true /\
    gm_cg (vi_mesh it) = None /\ gm_labels (vi_mesh it) = None /\
    Forall2 (fun row cell => exists p q, described axis row p /\ grounded axis p q /\ cell = [q])
      (rows_of_array a) (gm_cells (vi_mesh it)).
Proof. exact add_array_ok. Qed.
Print Assumptions C136_seeds_of_array.

Theorem C136_seeds_rejected :
  forall axis s a prio group, axis <= 2 -> ~ point_shape a ->
  add_array axis s a prio group = (s, Err ValueError).
Proof. exact add_array_bad. Qed.
Print Assumptions C136_seeds_rejected.

Example C136_seeds_case : grounded 2 (1, 2, 3)%R (1, 2, 0)%R /\ described 2 [1; 2; 3]%R (1, 2, 3)%R.
Proof. split; [split; [reflexivity|intros [|[|[|]]] H N; cbn; try lia; reflexivity]|now left]. Qed.

(* C115: rows of points are accepted exactly when they have two or three entries; one item is added with one
   cell per row, or nothing is added *)
Theorem C115_points_accepted :
  forall axis s rows prio group, axis <= 2 ->
  (Forall (fun r => length r = 2 \/ length r = 3) rows -> exists it s', add_points axis s rows prio group = (s', Ok tt) /\
    s_items s' = s_items s ++ [it] /\ s_fuse s' = s_fuse s /\ vi_prio it = prio /\ vi_group it = group /\ vi_poly it = true /\
    gm_cg (vi_mesh it) = None /\ gm_labels (vi_mesh it) = None /\
    Forall2 (fun row cell => exists p q, described axis row p /\ grounded axis p q /\ cell = [q]) rows (gm_cells (vi_mesh it))) /\
  (~ Forall (fun r => length r = 2 \/ length r = 3) rows -> add_points axis s rows prio group = (s, Err ValueError)).
Proof. exact add_points_rows. Qed.
Print Assumptions C115_points_accepted.

(* a mesh is added as one item with its cells moved to the plane, its kind and its groups *)
Theorem C115_mesh_item :
  forall axis s m poly prio group, axis <= 2 ->
  exists it, s_items (add_mesh axis s m poly prio group) = s_items s ++ [it] /\
    s_fuse (add_mesh axis s m poly prio group) = s_fuse s /\
    vi_prio it = prio /\ vi_group it = group /\ vi_poly it = poly /\
    gm_cg (vi_mesh it) = gm_cg m /\ gm_labels (vi_mesh it) = gm_labels m /\
    Forall2 (Forall2 (grounded axis)) (gm_cells m) (gm_cells (vi_mesh it)).
Proof. exact add_mesh_item. Qed.
Print Assumptions C115_mesh_item.

Example C115_mesh_item_case : Forall2 (Forall2 (grounded 2)) [[(1, 2, 3); (4, 5, 6)]]%R [[(1, 2, 0); (4, 5, 0)]]%R /\
  ~ Forall2 (Forall2 (grounded 2)) [[(1, 2, 3)]]%R [[(1, 2, 3)]]%R.
Proof.
  split.
  - repeat constructor; intros [|[|[|]]] H N; cbn; try lia; reflexivity.
  - intros H. inversion H as [|? ? ? ? H1]. subst. inversion H1 as [|? ? ? ? H2]. subst. destruct H2 as [H2 _].
    cbn in H2. lra.
Qed.

Example C115_points_case : Forall (fun r : list R => length r = 2 \/ length r = 3) [[1; 2]; [3; 4]]%R /\
  ~ Forall (fun r : list R => length r = 2 \/ length r = 3) [[1; 2]; [3]]%R.
Proof.
  split; [repeat constructor|]. intros H. pose proof (Forall_inv (Forall_inv_tail H)) as H1. cbn in H1. lia.
Qed.

(* C137: full statement: a base line given as positions lies along the documented axis (Z, Y and X for stacks along
   X, Y and Z).  True along Z only; the line is perpendicular to the stacking axis in every case. *)
Theorem C137_positions_partial :
  forall (D : Type) xs, exists l : lmesh pt D, stack2d_line 2 (inl xs) = Ok l /\ l_pts l = map (documented 2) xs.
Proof.
  intros D xs. destruct (@positions_spec D 2 xs (le_n 2)) as (l & E & _ & _ & _ & H). exists l. auto.
Qed.
Print Assumptions C137_positions_partial.

Theorem C137_positions_refuted :
  exists axis xs (l : lmesh pt Z), axis <= 2 /\ stack2d_line axis (inl xs) = Ok l /\ l_pts l <> map (documented axis) xs.
Proof.
  exists 0, [1]%R, (positions_line 0 [1]%R). split; [lia|]. split; [reflexivity|].
  apply (positions_documented 0 [1]%R); [lia|reflexivity|]. exists 1%R. split; [now left|lra].
Qed.
Print Assumptions C137_positions_refuted.

(* in fact never true along X and Y, but for the positions 0 *)
Theorem C137_positions_elsewhere :
  forall (D : Type) axis xs (l : lmesh pt D), axis < 2 -> stack2d_line axis (inl xs) = Ok l ->
  (exists t, In t xs /\ t <> 0%R) -> l_pts l <> map (documented axis) xs.
Proof. exact @positions_documented. Qed.
Print Assumptions C137_positions_elsewhere.

Theorem C137_positions_line :
  forall (D : Type) axis xs, axis <= 2 ->
  exists l : lmesh pt D, stack2d_line axis (inl xs) = Ok l /\ length (l_pts l) = length xs /\
    (forall k t, nth_error xs k = Some t -> exists p, nth_error (l_pts l) k = Some p /\ coordinate axis p = 0%R /\
       coordinate ((axis + 1) mod 3) p = t /\ coordinate ((axis + 2) mod 3) p = 0%R) /\
    (forall k, nth_error (l_cells l) k = if k + 1 <? length xs then Some [k; k + 1] else None).
Proof.
  intros D axis xs H. destruct (@positions_spec D axis xs H) as (l & H1 & H2 & H3 & H4 & _). exists l. auto.
Qed.
Print Assumptions C137_positions_line.

Example C137_case : exists l : lmesh pt Z, stack2d_line 0 (inl [0; 1; 3]%R) = Ok l /\
  l_pts l = [(0, 0, 0); (0, 1, 0); (0, 3, 0)]%R /\ l_cells l = [[0; 1]; [1; 2]] /\
  map (documented 0) [0; 1; 3]%R = [(0, 0, 0); (0, 0, 1); (0, 0, 3)]%R.
Proof. eexists. repeat split; reflexivity. Qed.

(* C137 and C138: lines given as meshes: the base line and the line of a transition are the first cell of the mesh, cut in segments;
   meshes without cells are rejected *)
Theorem C137_mesh_line :
  forall (D : Type) axis (m : lmesh pt D) ids rest, wf_lines m -> l_cells m = ids :: rest ->
  exists l, stack2d_line axis (inr m) = Ok l /\ picks (l_pts m) ids (l_pts l) /\
    forall k, nth_error (l_cells l) k = if k + 1 <? length ids then Some [k; k + 1] else None.
Proof.
  intros D axis m ids rest W E. destruct (base_line_defined m W) as (l & E1 & E2); [congruence|].
  exists l. split; [exact E1|].
  destruct (base_line_first m l E1) as (ids' & Ei & H). rewrite E in Ei. injection Ei as <-. exact H.
Qed.
Print Assumptions C137_mesh_line.

Theorem C138_mesh_line :
  forall (D : Type) other (current m : lmesh pt D) ids rest, wf_lines m -> l_cells m = ids :: rest ->
  exists l, new_line other current (inr m) = Ok l /\ picks (l_pts m) ids (l_pts l) /\
    forall k, nth_error (l_cells l) k = if k + 1 <? length ids then Some [k; k + 1] else None.
Proof.
  intros D other current m ids rest W E. destruct (base_line_defined m W) as (l & E1 & E2); [congruence|].
  exists l. split; [exact E2|].
  destruct (base_line_first m l E1) as (ids' & Ei & H). rewrite E in Ei. injection Ei as <-. exact H.
Qed.
Print Assumptions C138_mesh_line.

Theorem C137_no_line :
  forall (D : Type) axis (m : lmesh pt D), l_cells m = [] -> stack2d_line axis (inr m) = Err ValueError.
Proof. intros D axis m E. exact (proj1 (base_line_none m E)). Qed.
Print Assumptions C137_no_line.

Theorem C138_no_line :
  forall (D : Type) other (current m : lmesh pt D), l_cells m = [] -> new_line other current (inr m) = Err IndexError.
Proof. intros D other current m E. exact (proj2 (base_line_none m E)). Qed.
Print Assumptions C138_no_line.

Example C137_mesh_case : wf_lines (mkL [(0, 0, 0); (1, 0, 0); (2, 0, 0)]%R [[2; 0; 1]; [0; 1]] [] [] : lmesh pt Z) /\
  exists l, stack2d_line 2 (inr (mkL [(0, 0, 0); (1, 0, 0); (2, 0, 0)]%R [[2; 0; 1]; [0; 1]] [] [] : lmesh pt Z)) = Ok l /\ l_pts l = [(2, 0, 0); (0, 0, 0); (1, 0, 0)]%R /\ l_cells l = [[0; 1]; [1; 2]].
Proof.
  split.
  - split; [|split]; cbn; try contradiction. intros ids [<-|[<-|[]]]; intros i Hi; cbn in Hi; lia.
  - eexists. repeat split; reflexivity.
Qed.

(* C138: a transition to n cells *)
Theorem C138_transition_count :
  forall (D : Type) other (current : lmesh pt D) n p rest, l_pts current = p :: rest ->
  exists l : lmesh pt D, new_line other current (inl (Z.of_nat (S n))) = Ok l /\ length (l_pts l) = S (S n) /\
    (forall k P, nth_error (l_pts l) k = Some P ->
       along (l_pts current) (INR k / INR (S n) * polyline_length (l_pts current)) P) /\
    nth_error (l_pts l) 0 = Some p /\ nth_error (l_pts l) (S n) = Some (last (l_pts current) p) /\
    (forall k, nth_error (l_cells l) k = if k <? S n then Some [k; k + 1] else None).
Proof. exact @new_line_int. Qed.
Print Assumptions C138_transition_count.

Theorem C138_transition_rejected :
  forall (D : Type) other (current : lmesh pt D) n, l_pts current = [] \/ (n < -1)%Z ->
  new_line other current (inl n) = Err ValueError.
Proof. exact @new_line_bad. Qed.
Print Assumptions C138_transition_rejected.

Example C138_case : exists l : lmesh pt Z,
  new_line (fun _ _ l => l) (mkL [(0, 0, 0); (2, 0, 0)]%R [[0; 1]] [] []) (inl 4%Z) = Ok l /\
  length (l_pts l) = 5 /\ l_cells l = [[0; 1]; [1; 2]; [2; 3]; [3; 4]].
Proof.
  destruct (C138_transition_count Z (fun _ _ l => l) (mkL [(0, 0, 0); (2, 0, 0)]%R [[0; 1]] [] []) 3 (0, 0, 0)%R [(2, 0, 0)%R] eq_refl)
    as (l & E & L & _ & _ & _ & HC). exists l. split; [exact E|]. split; [exact L|].
  apply nth_error_ext. intros k. rewrite HC. destruct k as [|[|[|[|[|k]]]]]; reflexivity.
Qed.

(* C139: without lines the surface is the unit square of the first two axes *)
Theorem C139_default_surface :
  forall (D : Type) areas plane r method (g : sgrid D),
  StructuredSurface areas None None plane r method = Ok g ->
  exists perc ax bx, resolution_to_perc r method = Ok perc /\ plane_axes plane ax bx /\
    sg_dims g = grid_dims ax bx 2 (length perc) /\
    forall i j t, i <= 1 -> nth_error perc j = Some t ->
      at_coord (sg_dims g) (sg_pts g) (grid_coord ax bx i j) = Some (INR i, t, 0%R).
Proof. exact @default_surface. Qed.
Print Assumptions C139_default_surface.

Theorem C139_default_defined :
  forall (D : Type) areas plane ax bx r method perc,
  plane_axes plane ax bx -> resolution_to_perc r method = Ok perc ->
  exists g : sgrid D, StructuredSurface areas None None plane r method = Ok g.
Proof. exact @default_surface_defined. Qed.
Print Assumptions C139_default_defined.

Example C139_case : exists (areas : _) (g : sgrid nat), StructuredSurface areas None None "xy" ResNone None = Ok g.
Proof.
  exists (fun _ _ => []). apply (C139_default_defined nat _ "xy" 0 1 ResNone None [0; 1]%R); [constructor|exact perc_default].
Qed.

(* C140: the half stadium is one convex polyhedron, closed and outward, whatever the resolution *)
Theorem C140_half_stadium :
  forall m, 1 <= m -> forall gm result, exists v faces,
  half_stadium gm result true (Z.of_nat m) = Ok v /\
  decode (uv_types v) (uv_stream v) = Some [Poly faces] /\ length faces = m + 5 /\
  length (uv_pts v) = 2 * (m + 3) /\ Forall on_stadium (uv_pts v) /\
  closed_oriented faces /\ outward (at_pts (uv_pts v)) faces.
Proof. exact stadium_mesh. Qed.
Print Assumptions C140_half_stadium.

Theorem C140_bad_resolution :
  forall gm result, half_stadium gm result true 0 = Err ValueError /\
  forall r, (r < 0)%Z -> exists e, half_stadium gm result true r = Err e /\
    (e = if (r =? -1)%Z then IndexError else ValueError).
Proof. intros gm result. split; [apply stadium_zero|intros r; apply stadium_bad]. Qed.
Print Assumptions C140_bad_resolution.

Example C140_case : forall gm result, exists v faces, half_stadium gm result true 16 = Ok v /\
  decode (uv_types v) (uv_stream v) = Some [Poly faces] /\ length faces = 21.
Proof.
  intros gm result. destruct (C140_half_stadium 16 ltac:(lia) gm result) as (v & f & E & D & L & _). exists v, f. auto.
Qed.
