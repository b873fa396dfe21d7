From Coq Require Import Reals Lra Sorted.
From Verif Require Import RealAux Volume_model Volume_spec Lines_spec Groups_model Groups_spec SMerge_model Stack6_proof Unstr_model Unstr_spec Unstr4_proof Unstr_props
  Surface_model Voronoi_model Voronoi_spec Voronoi_props VFinal_model VFinal_spec VFinal_props VDef_spec VDef_proof VDef_props
  Paint_spec Paint_proof MMerge_props Well_model Well_spec Well3_model Well3_spec Well3_proof Well3_props Well4_model Well4_spec Well4_proof Well5_proof Well6_proof.
Open Scope nat_scope.

(* C181: the mesh of a well with Voronoi cells has cells for some of the 704 polygons of load_well_2d, in their order: X and Y are those of the
   center of the polygon (Z is 0), the name is that of the polygon; all of them are there when no vertices are averaged *)
Theorem C181_load_voronoi :
  forall (D : Type) (num : Z -> D) (int : D -> Z) (Hint : forall z, int (num z) = z) areas pvmerge clean e1 e2 geo vo tools tol0 tol r,
  appends pvmerge -> (forall bs, 2 <= length bs -> exists g, pvmerge bs = Ok g) ->
  cleans e1 (clean (/ 10 ^ 8)%R) -> cleans e2 (clean (/ 10 ^ 4)%R) ->
  v_axis vo = 2 -> (forall vpts, length (d_point_region (v_diagram vo vpts)) = length vpts) ->
  tidies tol0 (k_tidy tools) -> tidies tol (k_clean tools) ->
  load_voronoi_2d num int areas pvmerge clean geo vo tools = Ok r ->
  exists g2 groups l sel, load_well_2d num int areas pvmerge clean = Ok (g2, groups) /\ drawn g2 (map snd l) /\ names_of int g2 groups (map fst l) /\
    length l = 704 /\ StronglySorted lt sel /\ length (vr_cells r) = length sel /\ length (vr_groups r) = length sel /\ length (vr_xyz r) = length sel /\
    (forall i c, nth_error sel i = Some c -> exists k ps, nth_error l c = Some (k, ps) /\
       nth_error (vr_xyz r) i = Some (at_height 0 (vg_center geo (map (at_height 0) ps))) /\ named (vr_labels r) (vr_groups r) i k) /\
    numbered (vr_labels r) /\ (forall k, In k (map fst (vr_labels r)) <-> exists i, named (vr_labels r) (vr_groups r) i k) /\
    ((forall vs, v_pairs vo vs = None) -> length (vr_cells r) = 704).
Proof.
  intros D num int Hint areas pvmerge clean e1 e2 geo vo tools tol0 tol r Hm HT H1 H2 Hax HD T0 T H.
  destruct (load_voronoi_2d_ok num int Hint areas pvmerge Hm (fun x y => HT [x; y] (le_n 2)) clean e1 e2 H1 H2 geo vo tools tol0 tol r Hax HD T0 T H)
    as (g2 & groups & l & sel & A & B & C & E & _ & _ & K). exists g2, groups, l, sel. auto 10.
Qed.
Print Assumptions C181_load_voronoi.

(* [C181] it exists when no polygon is invalid or empty and no vertices are averaged; otherwise a ValueError *)
Theorem C181_defined :
  forall (D : Type) (num : Z -> D) (int : D -> Z) (Hint : forall z, int (num z) = z) areas pvmerge clean e1 e2 geo vo tools,
  appends pvmerge -> (forall bs, 2 <= length bs -> exists g, pvmerge bs = Ok g) ->
  cleans e1 (clean (/ 10 ^ 8)%R) -> cleans e2 (clean (/ 10 ^ 4)%R) ->
  tessellates vo -> sorts (v_argsort vo) -> close_pairs vo -> v_boundary vo = true ->
  (forall vpts, length (d_point_region (v_diagram vo vpts)) = length vpts) ->
  (exists r, load_voronoi_2d num int areas pvmerge clean geo vo tools = Ok r) \/
  load_voronoi_2d num int areas pvmerge clean geo vo tools = Err ValueError /\
    ((exists ps, v_valid vo ps = false) \/ (exists ps, v_clip vo ps = []) \/ (exists vs, v_pairs vo vs <> None)).
Proof.
  intros D num int Hint areas pvmerge clean e1 e2 geo vo tools Hm HT H1 H2 Ht Hs Hp Hb HD.
  destruct (background_ok num int Hint areas pvmerge Hm (fun x y => HT [x; y] (le_n 2)) clean e1 e2 H1 H2)
    as (g2 & groups & l & cg & b & A & _ & _ & E & _ & _ & _ & EW & Eb & Ep & Lcg & _).
  assert (WF : well_formed b []).
  { split; [|intros it []]. unfold aligned. rewrite Eb. cbn [gm_cg gm_cells]. rewrite !map_length. congruence. }
  assert (HU : forall S, candidates geo b [] S -> exists s, In s S /\ ~ covered geo b [] s).
  { apply dx_uncovered; [|exact Ep]. rewrite Eb. cbn [gm_cells]. destruct l; discriminate. }
  unfold load_voronoi_2d. rewrite A. cbn [bind]. rewrite EW. cbn [bind].
  apply generate_defined; [exact WF|intros it []|exact HU|assumption..].
Qed.
Print Assumptions C181_defined.

(* C182: the mesh of a well in three dimensions with Voronoi cells: above every polygon of the mesh of C181 ten layers of thickness 3
   from -30 to 0, and above those named Core and Casing three layers of thickness 1 up to 3; the cells are wedges, hexahedra or polyhedra over
   their polygon and have its name and its X, Y and Z; ColumnId, LayerId and ExtrudeItem tell the polygon, the layer and the part; no cell is flagged *)
Theorem C182_load_voronoi :
  forall (D : Type) (num : Z -> D) real (int : D -> Z) (Hint : forall z, int (num z) = z) areas pvmerge clean pick e1 e2 geo vo tools tol0 tol r,
  appends pvmerge -> (forall bs, 2 <= length bs -> exists g, pvmerge bs = Ok g) ->
  cleans e1 (clean (/ 10 ^ 8)%R) -> cleans e2 (clean (/ 10 ^ 4)%R) -> extracts pick ->
  v_axis vo = 2 -> (forall vpts, length (d_point_region (v_diagram vo vpts)) = length vpts) ->
  tidies tol0 (k_tidy tools) -> tidies tol (k_clean tools) -> (forall ps, 3 <= length (v_clip vo ps)) ->
  load_voronoi_2d num int areas pvmerge clean geo vo tools = Ok r ->
  In "Cement"%string (map fst (vr_labels r)) -> In "Matrix"%string (map fst (vr_labels r)) ->
  exists g labels place cells names,
    load_voronoi_3d num real int areas pvmerge clean pick geo vo tools = Ok (g, labels) /\
    cells_of g cells /\ names_of int g labels names /\ length cells = length place /\ length names = length place /\ NoDup place /\
    layer_ids num place g /\ above_data "X" (map (fun '(x, _, _) => real x) (vr_xyz r)) place g /\
    above_data "Y" (map (fun '(_, y, _) => real y) (vr_xyz r)) place g /\ above_data "Z" (map (fun '(_, _, z) => real z) (vr_xyz r)) place g /\
    uv_ghost g = [] /\
    (forall c h, In (c, h) place <-> exists k, named (vr_labels r) (vr_groups r) c k /\ (h < 10 \/ h < 13 /\ (k = "Core" \/ k = "Casing")%string)) /\
    forall i c h, nth_error place i = Some (c, h) ->
      exists k ty ids ps cell, named (vr_labels r) (vr_groups r) c k /\ nth_error names i = Some k /\ nth_error cells i = Some cell /\
        nth_error (vr_cells r) c = Some (ty, ids) /\ picks (vr_pts r) ids ps /\
        column e1 (uv_pts g) cell ty ps (well_height h) (well_height (S h)).
Proof.
  intros D num real int Hint areas pvmerge clean pick e1 e2 geo vo tools tol0 tol r Hm HT H1 H2 Hp Hax HD T0 T HC H HCe HMa.
  exact (load_voronoi_3d_ok num real int Hint areas pvmerge Hm HT clean e1 e2 H1 H2 pick Hp geo vo tools tol0 tol Hax HD T0 T HC r H HCe HMa).
Qed.
Print Assumptions C182_load_voronoi.

(* [C182] without averaging of vertices there are 7328 cells *)
Theorem C182_whole :
  forall (D : Type) (num : Z -> D) real (int : D -> Z) (Hint : forall z, int (num z) = z) areas pvmerge clean pick e1 e2 geo vo tools tol0 tol r,
  appends pvmerge -> (forall bs, 2 <= length bs -> exists g, pvmerge bs = Ok g) ->
  cleans e1 (clean (/ 10 ^ 8)%R) -> cleans e2 (clean (/ 10 ^ 4)%R) -> extracts pick ->
  v_axis vo = 2 -> (forall vpts, length (d_point_region (v_diagram vo vpts)) = length vpts) ->
  tidies tol0 (k_tidy tools) -> tidies tol (k_clean tools) -> (forall ps, 3 <= length (v_clip vo ps)) ->
  load_voronoi_2d num int areas pvmerge clean geo vo tools = Ok r -> (forall vs, v_pairs vo vs = None) ->
  exists g labels cells, load_voronoi_3d num real int areas pvmerge clean pick geo vo tools = Ok (g, labels) /\
    cells_of g cells /\ Z.of_nat (length cells) = 7328%Z.
Proof.
  intros D num real int Hint areas pvmerge clean pick e1 e2 geo vo tools tol0 tol r Hm HT H1 H2 Hp Hax HD T0 T HC H HN.
  destruct (whole_voronoi num int Hint areas pvmerge Hm HT clean e1 e2 H1 H2 geo vo tools tol0 tol Hax HD T0 T r H HN) as (HCe & HMa & HW).
  destruct (load_voronoi_3d_ok num real int Hint areas pvmerge Hm HT clean e1 e2 H1 H2 pick Hp geo vo tools tol0 tol Hax HD T0 T HC r H HCe HMa)
    as (g & labels & place & cells & names & E & F & _ & L & _ & NP & _ & _ & _ & _ & _ & IP & _).
  exists g, labels, cells. split; [exact E|]. split; [exact F|]. rewrite L, (HW place NP IP). reflexivity.
Qed.
Print Assumptions C182_whole.

(* [C182] a mesh without cells named Cement, or without cells named Matrix, is rejected *)
Theorem C182_missing :
  forall (D : Type) (num : Z -> D) real (int : D -> Z) areas pvmerge clean pick geo vo tools r,
  load_voronoi_2d num int areas pvmerge clean geo vo tools = Ok r ->
  ~ (In "Cement"%string (map fst (vr_labels r)) /\ In "Matrix"%string (map fst (vr_labels r))) ->
  load_voronoi_3d num real int areas pvmerge clean pick geo vo tools = Err KeyError.
Proof.
  intros D num real int areas pvmerge clean pick geo vo tools r H HN. unfold load_voronoi_3d. rewrite H. cbn [bind]. unfold raise_well.
  destruct (dget "Cement" (vr_labels r)) as [a|] eqn:Ea; [|reflexivity]. destruct (dget "Matrix" (vr_labels r)) as [b|] eqn:Eb; [|reflexivity].
  exfalso. apply HN. apply Groups_proof.dget_In in Ea, Eb. split; [exact (in_map fst _ _ Ea)|exact (in_map fst _ _ Eb)].
Qed.
Print Assumptions C182_missing.

Definition wx_geo : vgeo (list pt) := mkGeo (fun ps => hd (0, 0, 0)%R ps) (fun _ _ => None).
Lemma wx_keep : cleans 0 (fun g : uvol Z => ux_keep g).
Proof. apply keep_cleans. lra. Qed.
Lemma wx_2d : exists r, load_voronoi_2d zz zz (fun _ _ => []) append_blocks (fun _ => ux_keep) wx_geo (dx_vo false) rx_tools = Ok r.
Proof.
  destruct (C181_defined Z zz zz (fun z => eq_refl) (fun _ _ => []) append_blocks (fun _ => ux_keep) 0 0 wx_geo (dx_vo false) rx_tools
    append_blocks_appends ux_total wx_keep wx_keep (dx_tessellates false) ex_sorts (dx_pairs false) eq_refl rx_diagram)
    as [H|[_ [(ps & H)|[(ps & H)|(vs & H)]]]]; [exact H|discriminate|discriminate|now destruct H].
Qed.
Example C181_example : exists r, load_voronoi_2d zz zz (fun _ _ => []) append_blocks (fun _ => ux_keep) wx_geo (dx_vo false) rx_tools = Ok r /\
  length (vr_cells r) = 704.
Proof.
  destruct wx_2d as (r & Hr). exists r. split; [exact Hr|].
  destruct (C181_load_voronoi Z zz zz (fun z => eq_refl) (fun _ _ => []) append_blocks (fun _ => ux_keep) 0 0 wx_geo (dx_vo false) rx_tools 0 0 r
    append_blocks_appends ux_total wx_keep wx_keep eq_refl rx_diagram rx_tidies rx_tidies Hr)
    as (g2 & groups & l & sel & _ & _ & _ & _ & _ & _ & _ & _ & _ & _ & _ & Hall). now apply Hall.
Qed.
Example C182_example : exists g labels cells,
  load_voronoi_3d zz (fun _ => 0%Z) zz (fun _ _ => []) append_blocks (fun _ => ux_keep) pick_cells wx_geo (dx_vo false) rx_tools = Ok (g, labels) /\
  cells_of g cells /\ Z.of_nat (length cells) = 7328%Z.
Proof.
  destruct wx_2d as (r & Hr).
  apply (C182_whole Z zz (fun _ => 0%Z) zz (fun z => eq_refl) (fun _ _ => []) append_blocks (fun _ => ux_keep) pick_cells 0 0 wx_geo (dx_vo false) rx_tools 0 0 r
    append_blocks_appends ux_total wx_keep wx_keep pick_cells_extracts eq_refl rx_diagram rx_tidies rx_tidies); [|exact Hr|reflexivity].
  intros ps. cbn [dx_vo v_clip app length]. lia.
Qed.
