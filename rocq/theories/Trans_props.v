From Verif Require Import RealAux Perc_model Perc_spec Surface_model Surface_spec Volume_model Volume_spec
  SMerge_model SMerge_spec Groups_model Groups_spec Lines_model Lines_spec Polygon_model Stack_model Stack_spec
  Stack_proof Stack4_proof Stack5_proof Stack6_proof Trans_model Trans_spec Trans1_proof Trans2_proof Trans3_proof Trans4_proof Trans5_proof Trans6_proof.
From Verif Require Polygon_spec.
From Coq Require Import Lra.
Open Scope nat_scope.

(* C39: a stack of lines along any axis *)
Theorem C39_lines_defined :
  forall (D : Type) (num : Z -> D) areas o ax bu np items,
  ax <= 2 -> 2 <= length items ->
  Forall (fun i => wf_line np (it_mesh i)) items ->
  Forall (fun it => it_trans it = false /\ positions_span it /\ group_by_name it) (tl items) ->
  exists g groups n js, stack2d num areas o ax bu items = Ok (g, groups, n, js).
Proof. exact @stack2d_defined. Qed.
Print Assumptions C39_lines_defined.

Theorem C39_stack_lines :
  forall (D : Type) (num : Z -> D) areas o ax bu np items g groups n js,
  ax <= 2 ->
  Forall (fun i => wf_line np (it_mesh i)) items ->
  Forall (fun it => it_trans it = false /\ positions_span it) (tl items) ->
  stack2d num areas o ax bu items = Ok (g, groups, n, js) ->
  exists nsubs, layer_counts (tl items) nsubs /\ n = list_sum nsubs /\
    sg_dims g = grid_dims (line_axis ax) ax np (S n) /\
    Forall2 (only_points (lops num)) items js /\
    forall j a i, nth_error js j = Some a -> i < np ->
      exists p, along (it_mesh a) i = Some p /\
        at_coord (sg_dims g) (sg_pts g) (grid_coord (line_axis ax) ax i (list_sum (firstn j nsubs))) = Some p.
Proof. exact @stack2d_lines. Qed.
Print Assumptions C39_stack_lines.

Example C39_lines_example : exists g groups n js,
  stack2d zz tx_areas (mkOpt "d" []) 0 true [tx_item (tx3 0) GNone false; tx_item (tx3 1) GNone false] = Ok (g, groups, n, js) /\
  sg_dims g = (2, 3, 1).
Proof.
  destruct (C39_lines_defined Z zz tx_areas (mkOpt "d" []) 0 true 3 [tx_item (tx3 0) GNone false; tx_item (tx3 1) GNone false])
    as (g & gs & n & js & E); try (simpl; lia).
  - repeat constructor; apply tx_wf3.
  - constructor; [|constructor]. split; [reflexivity|]. split; [apply tx_spans|left; reflexivity].
  - exists g, gs, n, js. split; [exact E|].
    apply (C39_stack_lines Z zz tx_areas (mkOpt "d" []) 0 true 3) in E as (nsubs & [L1 L2] & En & Hd & _); try lia.
    + destruct (L2 0 _ eq_refl) as (ns & Hn & perc & Hp & Hns). cbn in Hp.
      destruct nsubs as [|x [|]]; simpl in L1; try lia. injection Hn as ->.
      assert (ns = 1) as -> by (injection Hp as <-; rewrite Hns; destruct (Rleb _ _); reflexivity).
      rewrite Hd, En. reflexivity.
    + repeat constructor; apply tx_wf3.
    + constructor; [|constructor]. split; [reflexivity|apply tx_spans].
Qed.

(* C35: stacks of lines with transitions.  Missing: the first axis (see C35_ids_refuted) *)
Theorem C35_transition_ids_partial :
  forall (D : Type) (num : Z -> D) gm result areas pvmerge o ax bu items g groups n js,
  1 <= ax <= 2 ->
  Forall (fun i => wf_lbase (it_mesh i)) items ->
  stack2d_generate num gm result areas pvmerge o ax bu items = Ok (g, groups, n, js) ->
  exists bs nsubs, merge_blocks pvmerge ax bs = Ok g /\
    length nsubs = length (tl items) /\ length bs = length (tl items) /\ n = list_sum nsubs /\
    forall j a b, nth_error items j = Some a -> nth_error (tl items) j = Some b ->
      exists ns blk, nth_error nsubs j = Some ns /\ nth_error bs j = Some blk /\
      (it_trans b = true -> ns = 1 /\
         transition_cells num groups (default_group o) b (list_sum (firstn j nsubs)) j blk) /\
      (it_trans b = false -> layers_of b ns /\ exists g, blk = BGrid g /\
         line_block_ids num "StackItem" ax ns (lb_nc (it_mesh a)) (list_sum (firstn j nsubs)) j g).
Proof. exact @stack_transition_ids. Qed.
Print Assumptions C35_transition_ids_partial.

Example C35_transition_example :
  (exists r, stack2d_generate zz tx_gm tx_result tx_areas tx_merge (mkOpt "d" []) 2 true tx_items = Ok r) /\
  Forall (fun i => wf_lbase (it_mesh i)) tx_items.
Proof.
  split; [exact tx_defined|]. unfold tx_items.
  repeat constructor; cbn; try lia; discriminate.
Qed.

(* C126 *)
Theorem C126_transition_outline :
  forall (D : Type) (num : Z -> D) gm result areas pvmerge o ax bu items g groups n js,
  1 <= ax <= 2 ->
  Forall (fun i => wf_lbase (it_mesh i)) items ->
  stack2d_generate num gm result areas pvmerge o ax bu items = Ok (g, groups, n, js) ->
  exists bs, merge_blocks pvmerge ax bs = Ok g /\ length bs = length (tl items) /\
    forall j a b, nth_error js j = Some a -> nth_error (tl js) j = Some b -> it_trans b = true ->
      forall p q, nth_error (points (tops num) a) 0 = Some p -> nth_error (points (tops num) b) 0 = Some q -> p <> q ->
      exists blk ring t s pts cells cd,
        nth_error bs j = Some blk /\ blk = BTri pts (flat_map snd cells) cd /\
        around (points (tops num) a) (points (tops num) b) ring /\
        map fst (Polygon_spec.added t) = map (fun p => [fst (fst p); snd (fst p); snd p]) ring /\
        (Polygon_spec.numbered gm ->
           Forall2 (Polygon_spec.draws t) (Polygon_spec.drawn t) (ring_edges (map fst (Polygon_spec.added t)))) /\
        t = s ++ [Clear; Finalize] /\ to_pyvista (result s) = Ok (pts, cells).
Proof.
  intros D num gm result areas pvmerge o ax bu items g groups n js Hax HW H.
  destruct (stack_outlines num gm result areas pvmerge o ax bu items g groups n js Hax HW H) as (bs & A & B & C). exists bs. split; [exact A|]. split; [exact B|].
  intros j a b Ha Hb Ht p q Hp Hq Hpq. destruct (C j a b Ha Hb Ht p q Hp Hq Hpq) as (blk & ring & t & s & pts & cells & cd & H1 & H2 & H3 & H4 & H5 & H6).
  exists blk, ring, t, s, pts, cells, cd. rewrite H4. repeat (split; [assumption|]). split; [|split; assumption].
  apply map_ext. now intros [[x y] z].
Qed.
Print Assumptions C126_transition_outline.

Example C126_example : around [0; 1] [5; 6; 7] [0; 1; 7; 6; 5] /\ Polygon_spec.numbered tx_gm /\
  exists p q, nth_error (points (tops zz) (tx_item (tx2 0) GNone false)) 0 = Some p /\
    nth_error (points (tops zz) (tx_item (tx3 1) GNone true)) 0 = Some q /\ p <> q.
Proof.
  split; [|split].
  - split; [reflexivity|]. split; intros k Hk; cbn in Hk.
    + destruct k as [|[|]]; [reflexivity|reflexivity|lia].
    + destruct k as [|[|[|]]]; [reflexivity|reflexivity|reflexivity|lia].
  - intros t r s k [= <-]. reflexivity.
  - eexists _, _. split; [reflexivity|]. split; [reflexivity|]. intros E. injection E. lra.
Qed.

(* C127 *)
Theorem C127_cut_independent :
  forall (D : Type) (num : Z -> D) ax bu r1 t r2 i1 js,
  it_trans t = true ->
  (cut_loop (tops num) ax bu i1 (r1 ++ t :: r2) = Ok js <->
   exists a b, js = a ++ b /\ cut_loop (tops num) ax bu i1 r1 = Ok a /\ cut_loop (tops num) ax bu t r2 = Ok b).
Proof. exact @split_cut. Qed.
Print Assumptions C127_cut_independent.

(* the items keep their numbers of points, and every property but the points *)
Theorem C127_cut_sizes :
  forall (D : Type) (num : Z -> D) ax bu i1 rest js,
  cut_loop (tops num) ax bu i1 rest = Ok js ->
  Forall2 (fun i j => only_points (tops num) i j /\
             length (points (tops num) j) = length (points (tops num) i)) (i1 :: rest) js.
Proof. intros. eapply cut_loop_sizes; [apply tops_lawful|eassumption]. Qed.
Print Assumptions C127_cut_sizes.

Example C127_example : exists js,
  cut_loop (tops zz) 2 true (tx_item (tx2 5) GNone false) [tx_item (tx3 1) GNone true; tx_item (tx3 2) GNone false] = Ok js /\
  map (points (tops zz)) (firstn 1 js) = [[(0, 0, 5); (2, 0, 5)]]%R.
Proof.
  destruct (cut_defined (tops zz) (tops_lawful zz) 2 true [tx_item (tx3 1) GNone true; tx_item (tx3 2) GNone false]
    (tx_item (tx2 5) GNone false)) as [js E].
  - intros [|[|[|j]]] a b Ha Hb; cbn in Ha, Hb; try (injection Ha as <-); try (injection Hb as <-); try discriminate.
    intros _. reflexivity.
  - exists js. split; [exact E|].
    apply (C127_cut_independent Z zz 2 true [] (tx_item (tx3 1) GNone true)) in E as (a & b & -> & Ea & _); [|reflexivity].
    cbn in Ea. injection Ea as <-. reflexivity.
Qed.

(* C128 *)
Theorem C128_sizes_rejected :
  forall (D : Type) (num : Z -> D) gm result areas pvmerge o ax bu items,
  2 <= length items -> ~ same_sizes items ->
  stack2d_generate num gm result areas pvmerge o ax bu items = Err ValueError.
Proof. exact @sizes_rejected. Qed.
Print Assumptions C128_sizes_rejected.

Theorem C128_defined :
  forall (D : Type) (num : Z -> D) gm result areas pvmerge o ax bu items,
  ax <= 2 -> 2 <= length items -> gmsh_works gm result -> (forall bs, exists m, pvmerge bs = Ok m) ->
  Forall (fun i => wf_line (size i) (it_mesh i)) items ->
  Forall (fun it => (it_trans it = false -> positions_span it) /\ group_by_name it) (tl items) ->
  same_sizes items ->
  exists r, stack2d_generate num gm result areas pvmerge o ax bu items = Ok r.
Proof. exact @trans_defined. Qed.
Print Assumptions C128_defined.

(* no distance right after set_transition *)
Theorem C128_build_partial :
  forall (D : Type) (num : Z -> D) ax bu interp,
  (forall p b z, interp p b = Ok z -> length z = length b) ->
  forall base l st, ~ scalar_after_transition l ->
  run_ops num ax bu interp (mkStack base [] false) l = Ok st -> same_sizes (st_items st).
Proof. exact @build_sizes. Qed.
Print Assumptions C128_build_partial.

Theorem C128_build_refuted : exists l st,
  run_ops zz 2 true tx_interp (mkStack (tx2 0) [] false) l = Ok st /\
  map size (st_items st) = [2; 2; 3] /\ map it_trans (st_items st) = [false; true; false] /\
  forall gm result areas pvmerge o,
    stack2d_generate zz gm result areas pvmerge o 2 true (st_items st) = Err ValueError.
Proof.
  destruct tx_scalar_fails as (st & E1 & E2 & E3 & _). exists tx_ops, st. repeat (split; [assumption|]).
  intros. apply C128_sizes_rejected.
  - rewrite <- (map_length size), E2. simpl. lia.
  - intros HS. destruct (st_items st) as [|a [|b [|c [|]]]]; try discriminate.
    cbn in E2, E3. injection E2 as Ea Eb Ec. injection E3 as Ta Tb Tc.
    specialize (HS 1 b c eq_refl eq_refl Tc). unfold size in *. lia.
Qed.
Print Assumptions C128_build_refuted.

Example C128_example : (exists st, run_ops zz 2 true tx_interp (mkStack (tx2 0) [] false) tx_good = Ok st /\
   map size (st_items st) = [2; 3; 3]) /\ ~ scalar_after_transition tx_good /\
  (forall p b z, tx_interp p b = Ok z -> length z = length b).
Proof.
  split; [|split].
  - eexists. split; reflexivity.
  - intros [].
  - intros p b z [= <-]. apply map_length.
Qed.

(* C129 *)
Theorem C129_no_transition :
  forall (D : Type) (num : Z -> D) gm result areas pvmerge o ax bu items g groups n js,
  Forall (fun it => it_trans it = false) (tl items) ->
  (stack2d_generate num gm result areas pvmerge o ax bu items = Ok (g, groups, n, js) <->
   exists g', g = BGrid g' /\ stack2d num areas o ax bu items = Ok (g', groups, n, js)).
Proof. exact @no_transition_grid. Qed.
Print Assumptions C129_no_transition.

Theorem C129_one_transition :
  forall (D : Type) (num : Z -> D) gm result areas pvmerge o ax bu i1 i2 g groups n js,
  1 <= ax <= 2 -> wf_lbase (it_mesh i1) -> wf_lbase (it_mesh i2) -> it_trans i2 = true ->
  stack2d_generate num gm result areas pvmerge o ax bu [i1; i2] = Ok (g, groups, n, js) ->
  n = 1 /\ transition_cells num groups (default_group o) i2 0 0 g.
Proof. exact @one_transition. Qed.
Print Assumptions C129_one_transition.

Theorem C129_mixed :
  forall (D : Type) (num : Z -> D) gm result areas pvmerge o ax bu items g groups n js,
  1 <= ax <= 2 -> Forall (fun i => wf_lbase (it_mesh i)) items ->
  3 <= length items -> Exists (fun i => it_trans i = true) (tl items) ->
  stack2d_generate num gm result areas pvmerge o ax bu items = Ok (g, groups, n, js) ->
  exists bs, pvmerge bs = Ok g /\ length bs = length (tl items) /\
    forall j b, nth_error (tl items) j = Some b -> exists blk, nth_error bs j = Some blk /\
      (is_grid blk <-> it_trans b = false).
Proof. exact @mixed_merge. Qed.
Print Assumptions C129_mixed.

Example C129_example : 3 <= length tx_items /\ Exists (fun i => it_trans i = true) (tl tx_items) /\
  exists r, stack2d_generate zz tx_gm tx_result tx_areas tx_merge (mkOpt "d" []) 2 true tx_items = Ok r.
Proof. split; [cbn; lia|]. split; [constructor; reflexivity|exact tx_defined]. Qed.

(* C130: no group or a name; see C35_transition_ids_partial for stacks *)
Theorem C130_transition_groups_partial :
  forall (D : Type) (num : Z -> D) gm result areas pvmerge o ax bu i1 i2 g groups n js,
  1 <= ax <= 2 -> wf_lbase (it_mesh i1) -> wf_lbase (it_mesh i2) -> it_trans i2 = true ->
  stack2d_generate num gm result areas pvmerge o ax bu [i1; i2] = Ok (g, groups, n, js) ->
  exists pts cells cd cg, g = BTri pts cells cd /\ In ("CellGroup"%string, map num cg) cd /\
    length cg = length cells /\
    (it_group i2 = GNone -> forall c, c < length cells -> named groups cg c (default_group o)) /\
    forall s, it_group i2 = GStr s -> s <> ""%string -> plain s ->
      forall c, c < length cells -> named groups cg c s.
Proof.
  intros D num gm result areas pvmerge o ax bu i1 i2 g groups n js Hax W1 W2 Ht H.
  destruct (one_transition num gm result areas pvmerge o ax bu i1 i2 g groups n js Hax W1 W2 Ht H)
    as (_ & pts & cells & cd & cg & E1 & _ & E3 & E4 & E5 & E6).
  exists pts, cells, cd, cg. auto.
Qed.
Print Assumptions C130_transition_groups_partial.

Theorem C130_masks_refuted : exists items,
  Forall (fun i => wf_line (size i) (it_mesh i)) items /\ same_sizes items /\ gmsh_works tx_gm tx_result /\
  map (fun i => lb_nc (it_mesh i)) items = [1; 2] /\
  map it_group items = [GNone; GDict [("g"%string, SelArr (MBool [true]))]] /\
  stack2d_generate zz tx_gm tx_result tx_areas tx_merge (mkOpt "d" []) 2 true items = Err IndexError.
Proof.
  exists tx_masked. split; [repeat constructor; try apply tx_wf2; try apply tx_wf3|].
  split; [|split; [apply tx_works|split; [reflexivity|split; [reflexivity|exact tx_mask_fails]]]].
  intros [|[|j]] a b Ha Hb; cbn in Ha, Hb; try (injection Ha as <-); try (injection Hb as <-); try discriminate.
Qed.
Print Assumptions C130_masks_refuted.

Example C130_example : wf_lbase (tx2 0) /\ wf_lbase (tx3 1) /\ it_trans (tx_item (tx3 1) (GStr "t") true) = true /\ plain "t".
Proof. repeat split; cbn; try lia; discriminate. Qed.

(* C131: a mesh of one polyline *)
Theorem C131_base_line_partial :
  forall (D : Type) (m : lmesh pt D) ids, wf_lines m -> l_cells m = [ids] ->
  exists l, base_line m = Ok l /\ transition_line m = Ok l /\ picks (l_pts m) ids (l_pts l) /\
    forall k, nth_error (l_cells l) k = if k + 1 <? length ids then Some [k; k + 1] else None.
Proof.
  intros D m ids W E. destruct (base_line_defined m W) as (l & E1 & E2); [congruence|].
  exists l. split; [exact E1|]. split; [exact E2|].
  destruct (base_line_first m l E1) as (ids' & Ei & H). rewrite E in Ei. injection Ei as <-. exact H.
Qed.
Print Assumptions C131_base_line_partial.

(* the other cells are lost *)
Theorem C131_base_line_refuted : exists (m : lmesh pt Z) l ids p, base_line m = Ok l /\ transition_line m = Ok l /\
  In ids (l_cells m) /\ (exists k, In k ids /\ nth_error (l_pts m) k = Some p) /\ ~ In p (l_pts l).
Proof.
  destruct tx_first_segment as (l & E1 & E2 & E3). exists tx_segments, l, [1; 2], (2, 0, 0)%R.
  split; [exact E1|]. split; [exact E2|]. split; [right; left; reflexivity|].
  split; [exists 2; split; [right; left; reflexivity|reflexivity]|].
  rewrite E3. intros [E|[E|[]]]; injection E; lra.
Qed.
Print Assumptions C131_base_line_refuted.

Theorem C131_no_line :
  forall (D : Type) (m : lmesh pt D), l_cells m = [] ->
  base_line m = Err ValueError /\ transition_line m = Err IndexError.
Proof. exact @base_line_none. Qed.
Print Assumptions C131_no_line.

Example C131_example : exists l, base_line (mkL [(0, 0, 0); (1, 0, 0); (2, 0, 0)]%R [[2; 0; 1]] [] [] : lmesh pt Z) = Ok l /\
  l_pts l = [(2, 0, 0); (0, 0, 0); (1, 0, 0)]%R /\ l_cells l = [[0; 1]; [1; 2]].
Proof. eexists. repeat split; reflexivity. Qed.
