From Verif Require Import RealAux Perc_model Perc_spec Surface_model Surface_spec
  Volume_model Volume_spec UVol3_proof SMerge_model SMerge_spec SMerge_proof Groups_model Groups_spec
  Stack_model Stack_spec Cut_proof Stack_proof Stack2_proof Stack3_proof Stack4_proof Stack5_proof Stack6_proof Stack7_proof Settle_spec Settle_proof Vec_spec Plane_proof.
From Coq Require Import Lra.
Open Scope nat_scope.

(* C30 *)
Theorem C30_pair_cut :
  forall (M B : Type) (ops : mesh_ops M B) (Hops : lawful ops) (ax : nat) i1 i2 j1 j2, ax <= 2 ->
  it_trans i2 = false -> cut_pair ops ax true i1 i2 = Ok (j1, j2) ->
  above ops ax j1 j2 /\
  only_points ops i1 j1 /\ only_points ops i2 j2 /\
  ((it_prio i2 < it_prio i1)%Z -> j1 = i1) /\ ((it_prio i1 <= it_prio i2)%Z -> j2 = i2) /\
  length (points ops j1) = length (points ops i1) /\
  length (points ops j2) = length (points ops i2) /\
  forall k p q p' q', nth_error (points ops i1) k = Some p -> nth_error (points ops i2) k = Some q ->
     nth_error (points ops j1) k = Some p' -> nth_error (points ops j2) k = Some q' ->
     same_column ax p p' /\ same_column ax q q' /\
     ((coord ax q - coord ax p >= it_thick i2)%R -> p' = p /\ q' = q) /\
     ((coord ax q - coord ax p < it_thick i2)%R -> (coord ax q' - coord ax p')%R = it_thick i2).
Proof. exact @cut_pair_spec. Qed.
Print Assumptions C30_pair_cut.

Theorem C30_pair_cut_defined :
  forall (M B : Type) (ops : mesh_ops M B) (ax : nat) bu i1 i2,
  length (points ops i1) = length (points ops i2) -> exists j, cut_pair ops ax bu i1 i2 = Ok j.
Proof. exact @cut_pair_defined. Qed.
Print Assumptions C30_pair_cut_defined.

(* the three classes of base meshes behave as assumed *)
Theorem C30_lawful_meshes :
  forall (D : Type) (num : Z -> D), lawful (sops num) /\ lawful (uops num) /\ lawful (lops num).
Proof. intros. split; [apply sops_lawful|split; [apply uops_lawful|apply lops_lawful]]. Qed.
Print Assumptions C30_lawful_meshes.

Example C30_example : exists j1 j2, cut_pair (sops zz) 2 true (cx_item 4) (cx_item 3) = Ok (j1, j2) /\
  ~ above (sops zz) 2 (cx_item 4) (cx_item 3).
Proof.
  rewrite cx_pair. eexists; eexists; split; [reflexivity|].
  intros H. specialize (H eq_refl 0 _ _ eq_refl eq_refl). cbn in H. lra.
Qed.

(* C31 *)
Theorem C31_surfaces_ordered_partial :
  forall (M B : Type) (ops : mesh_ops M B) (Hops : lawful ops) o ax extrude transition merge items g groups n js,
  ax <= 2 -> chain yields (tl items) ->
    stack_generate ops o ax true extrude transition merge items = Ok (g, groups, n, js) ->
    chain (above ops ax) js.
Proof. exact @stack_ordered. Qed.
Print Assumptions C31_surfaces_ordered_partial.

Theorem C31_last_pair_ordered_partial :
  forall (M B : Type) (ops : mesh_ops M B) (Hops : lawful ops) o ax extrude transition merge items g groups n js lo up tl,
  ax <= 2 ->
    stack_generate ops o ax true extrude transition merge items = Ok (g, groups, n, js) ->
    js = tl ++ [lo; up] -> above ops ax lo up.
Proof. exact @stack_ordered_last. Qed.
Print Assumptions C31_last_pair_ordered_partial.

Theorem C31_ordered_unchanged :
  forall (M B : Type) (ops : mesh_ops M B) (Hops : lawful ops) o ax extrude transition merge items g groups n js,
  (forall i i', In i items -> In i' items -> length (points ops i) = length (points ops i')) ->
    chain (above ops ax) items ->
    stack_generate ops o ax true extrude transition merge items = Ok (g, groups, n, js) ->
    js = items.
Proof. exact @stack_unchanged_up. Qed.
Print Assumptions C31_ordered_unchanged.

(* what becomes of the surfaces of any stack from bottom to top, in any column *)
Theorem C31_elevations_partial :
  forall (M B : Type) (ops : mesh_ops M B) (Hops : lawful ops) o ax extrude transition merge items g groups n js,
  ax <= 2 -> Forall (fun i => it_trans i = false) (tl items) ->
  stack_generate ops o ax true extrude transition merge items = Ok (g, groups, n, js) ->
  Forall2 (moved_along ops ax) items js /\
  forall k ls, levels ops ax k items ls -> exists out, settled ls out /\ Forall2 (elevation ops ax k) js out.
Proof. intros M B ops Hops o ax e t m. exact (stack_levels ops Hops o ax true e t m). Qed.
Print Assumptions C31_elevations_partial.

(* with equal priorities every surface is cut by the one that follows, as it was before any cut *)
Theorem C31_equal_priorities_partial :
  forall (M B : Type) (ops : mesh_ops M B) (Hops : lawful ops) o ax extrude transition merge items g groups n js p,
  ax <= 2 -> Forall (fun i => it_trans i = false) (tl items) -> Forall (fun i => it_prio i = p) items ->
  stack_generate ops o ax true extrude transition merge items = Ok (g, groups, n, js) ->
  forall j a a' k z, nth_error items j = Some a -> nth_error js j = Some a' -> elevation ops ax k a z ->
    (nth_error items (S j) = None -> elevation ops ax k a' z) /\
    (forall b, nth_error items (S j) = Some b ->
       exists z', elevation ops ax k b z' /\ elevation ops ax k a' (Rmin z (z' - it_thick b))).
Proof. exact @stack_equal. Qed.
Print Assumptions C31_equal_priorities_partial.

(* surfaces at 4, 3 and 1 become 3, 1 and 1: the first one ends above the second one *)
Example C31_settled_case : settled [(0%Z, 0, 4); (0%Z, 0, 3); (0%Z, 0, 1)]%R [3; 1; 1]%R /\
  settled [(2%Z, 0, 4); (1%Z, 0, 3); (0%Z, 1, 1)]%R [4; 4; 5]%R.
Proof.
  split.
  - replace [3; 1; 1]%R with [Rmin 4 (3 - 0); Rmin 3 (1 - 0); 1]%R by (unfold Rmin; repeat destruct (Rle_dec _ _); repeat f_equal; lra).
    repeat (apply settled_lower; [lia|]). constructor.
  - apply settled_raise; [lia|]. replace (Rmax 3 (4 + 0)) with 4%R by (unfold Rmax; destruct (Rle_dec _ _); lra).
    apply settled_raise; [lia|]. replace (Rmax 1 (4 + 1)) with 5%R by (unfold Rmax; destruct (Rle_dec _ _); lra). constructor.
Qed.

(* the surface of a later item may be pushed back under an earlier one *)
Theorem C31_never_cross_refuted : exists items g groups n js,
  Forall (fun i => wf_base (2, 2, 1) (it_mesh i) /\ it_trans i = false) items /\
  stack3d_structured zz no_volumes cx_opt 2 true items = Ok (g, groups, n, js) /\
  ~ chain (above (sops zz) 2) js.
Proof. exact never_cross_false. Qed.
Print Assumptions C31_never_cross_refuted.

Example C31_example : chain yields (tl [cx_item 4; cx_item 3]) /\
  exists g groups n js, stack3d_structured zz no_volumes cx_opt 2 true [cx_item 4; cx_item 3] = Ok (g, groups, n, js).
Proof. split; [exact I|]. apply (cx_defined true 4 [3%R]). discriminate. Qed.

(* C32 *)
Theorem C32_ordered_unchanged_partial :
  forall (M B : Type) (ops : mesh_ops M B) (Hops : lawful ops) o ax extrude transition merge items g groups n js,
  (forall i i', In i items -> In i' items -> length (points ops i) = length (points ops i')) ->
    (forall i, In i items -> (0 <= it_thick i)%R) ->
    chain (below ops ax) items ->
    stack_generate ops o ax false extrude transition merge items = Ok (g, groups, n, js) ->
    js = items.
Proof. exact @stack_unchanged_down. Qed.
Print Assumptions C32_ordered_unchanged_partial.

(* what becomes of the surfaces of any stack from top to bottom: surfaces that are not in order move away from each other *)
Theorem C32_elevations_partial :
  forall (M B : Type) (ops : mesh_ops M B) (Hops : lawful ops) o ax extrude transition merge items g groups n js,
  ax <= 2 -> Forall (fun i => it_trans i = false) (tl items) ->
  stack_generate ops o ax false extrude transition merge items = Ok (g, groups, n, js) ->
  Forall2 (moved_along ops ax) items js /\
  forall k ls, levels ops ax k items ls -> exists out, settled_down ls out /\ Forall2 (elevation ops ax k) js out.
Proof. intros M B ops Hops o ax e t m. exact (stack_levels ops Hops o ax false e t m). Qed.
Print Assumptions C32_elevations_partial.

(* a second surface at 3 over a first one at 1 sends the first one to -1 *)
Example C32_settled_case : settled_down [(0%Z, 0, 1); (0%Z, 0, 3)]%R [-1; 3]%R.
Proof.
  replace (-1)%R with (1 - Rmax 0 (3 - 1 - 0))%R by (unfold Rmax; destruct (Rle_dec _ _); lra).
  apply down_lower; [lia|]. constructor.
Qed.

Theorem C32_top_down_refuted : exists items g groups n js,
  Forall (fun i => wf_base (2, 2, 1) (it_mesh i) /\ it_trans i = false) items /\
  stack3d_structured zz no_volumes cx_opt 2 false items = Ok (g, groups, n, js) /\
  ~ chain (below (sops zz) 2) js.
Proof. exact top_down_false. Qed.
Print Assumptions C32_top_down_refuted.

Example C32_example : chain (below (sops zz) 2) [cx_item 1; cx_item 0] /\
  exists g groups n js, stack3d_structured zz no_volumes cx_opt 2 false [cx_item 1; cx_item 0] = Ok (g, groups, n, js).
Proof.
  split; [|apply (cx_defined false 1 [0%R]); discriminate].
  split; [|exact I]. intros _ k p q Hp Hq. unfold points in *. cbn in Hp, Hq.
  destruct k as [|[|[|[|[|]]]]]; cbn in Hp, Hq; try discriminate; injection Hp as <-; injection Hq as <-; cbn; lra.
Qed.

(* C33 *)
Open Scope R_scope.
Theorem C33_repeatable_partial :
  forall (M B : Type) (ops : mesh_ops M B) (Hops : lawful ops) ax o extrude transition merge items g groups n js,
  (ax <= 2)%nat -> chain yields (tl items) ->
    (forall i i', In i items -> In i' items -> length (points ops i) = length (points ops i')) ->
    stack_generate ops o ax true extrude transition merge items = Ok (g, groups, n, js) ->
    stack_generate ops o ax true extrude transition merge js = Ok (g, groups, n, js).
Proof. exact @repeatable. Qed.
Print Assumptions C33_repeatable_partial.
Close Scope R_scope.

Theorem C33_repeatable_refuted : exists items g groups n js g' groups' n' js',
  stack3d_structured zz no_volumes cx_opt 2 true items = Ok (g, groups, n, js) /\
  stack3d_structured zz no_volumes cx_opt 2 true js = Ok (g', groups', n', js') /\
  map (points (sops zz)) js' <> map (points (sops zz)) js.
Proof. exact repeat_false. Qed.
Print Assumptions C33_repeatable_refuted.

Example C33_example : chain yields (tl [cx_item 4; cx_item 3]) /\
  exists g groups n js, stack3d_structured zz no_volumes cx_opt 2 true [cx_item 4; cx_item 3] = Ok (g, groups, n, js).
Proof. split; [exact I|]. apply (cx_defined true 4 [3%R]). discriminate. Qed.

(* C34 *)
Open Scope R_scope.
Theorem C34_add_scalar :
  forall (M B : Type) (ops : mesh_ops M B) (Hops : lawful ops) ax bu interp st x ao,
  (ax <= 2)%nat ->
    exists it, stack_add ops ax bu interp st (ArgScalar x) ao =
        Ok (mkStack (st_base st) (st_items st ++ [it]) false) /\
      it_prio it = ao_prio ao /\
      (st_items st <> [] -> it_res it = ao_res ao /\ it_method it = ao_method ao /\
         it_thick it = ao_thick ao /\ it_group it = ao_group ao /\ it_trans it = st_flag st) /\
      (st_items st = [] -> length (points ops it) = length (getp ops (st_base st)) /\
         forall k p q, nth_error (getp ops (st_base st)) k = Some p -> nth_error (points ops it) k = Some q ->
           same_column ax p q /\ coord ax q = x) /\
      (forall pre last, st_items st = pre ++ [last] ->
         length (points ops it) = length (points ops last) /\
         forall k p q, nth_error (points ops last) k = Some p -> nth_error (points ops it) k = Some q ->
           same_column ax p q /\ Rabs (coord ax q - coord ax p) = Rabs x /\
           (bu = true -> coord ax p <= coord ax q) /\ (bu = false -> coord ax q <= coord ax p)).
Proof. exact @add_scalar. Qed.
Print Assumptions C34_add_scalar.
Close Scope R_scope.

Example C34_example : exists it,
  stack_add (sops zz) 2 false tr_interp (mkStack (cx_base 0) [cx_item 1] false) (ArgScalar (-2)) tr_opts =
    Ok (mkStack (cx_base 0) [cx_item 1; it] false) /\
  nth_error (points (sops zz) it) 3 = Some (1, 1, -1)%R.
Proof.
  eexists. split; [reflexivity|]. unfold points. cbn.
  rewrite Rabs_left by lra. do 2 f_equal. lra.
Qed.

(* C35 *)
Theorem C35_stack_ids_partial :
  forall (D : Type) (num : Z -> D) volumes o bu d items g groups n js,
  unit_along 2 d ->
    Forall (fun i => wf_base d (it_mesh i)) items ->
    Forall (fun it => it_trans it = false) (tl items) ->
    stack3d_structured num volumes o 2 bu items = Ok (g, groups, n, js) ->
    exists nsubs, layer_counts (tl items) nsubs /\ n = list_sum nsubs /\
      sg_dims g = setc 2 (S n) d /\ ids_of num d StackItem g nsubs.
Proof. exact @stack_ids_axis2. Qed.
Print Assumptions C35_stack_ids_partial.

Theorem C35_extrude_ids_partial :
  forall (D : Type) (num : Z -> D) volumes o d items g groups n,
  unit_along 2 d ->
    Forall (fun i => wf_base d (it_mesh i)) items ->
    Forall (fun it => it_trans it = false) (tl items) ->
    extrude_structured num volumes o items = Ok (g, groups, n) ->
    exists nsubs, layer_counts (tl items) nsubs /\ n = list_sum nsubs /\
      sg_dims g = setc 2 (S n) d /\ ids_of num d ExtrudeItem g nsubs.
Proof. exact @extrude_ids_axis2. Qed.
Print Assumptions C35_extrude_ids_partial.

Theorem C35_unstructured_ids_partial :
  forall (D : Type) (num : Z -> D) o ax bu invert merge items g groups n js np,
  (forall i, In i items -> length (us_pts (ub_surf (it_mesh i))) = np) ->
    Forall (fun i => ub_aligned (it_mesh i)) items ->
    Forall (fun it => it_trans it = false) (tl items) ->
    stack3d_unstructured num o ax bu invert merge items = Ok (g, groups, n, js) ->
    exists bs nsubs, merge bs = Ok g /\ length bs = length (tl items) /\
      layer_counts (tl items) nsubs /\ n = list_sum nsubs /\
      forall j a blk ns, nth_error items j = Some a -> nth_error bs j = Some blk ->
        nth_error nsubs j = Some ns ->
        block_ids num StackItem ns (length (us_cells (ub_surf (it_mesh a)))) (list_sum (firstn j nsubs)) j (uv_cd blk).
Proof. exact @stack_unstructured_ids. Qed.
Print Assumptions C35_unstructured_ids_partial.

Theorem C35_unstructured_extrude_ids_partial :
  forall (D : Type) (num : Z -> D) o invert merge items g groups n,
  Forall (fun i => ub_aligned (it_mesh i)) items ->
  Forall (fun it => it_trans it = false) (tl items) ->
  extrude_unstructured num o invert merge items = Ok (g, groups, n) ->
  exists bs nsubs, merge bs = Ok g /\ length bs = length (tl items) /\
    layer_counts (tl items) nsubs /\ n = list_sum nsubs /\
    forall j a blk ns, nth_error items j = Some a -> nth_error bs j = Some blk ->
      nth_error nsubs j = Some ns ->
      block_ids num ExtrudeItem ns (length (us_cells (ub_surf (it_mesh a)))) (list_sum (firstn j nsubs)) j (uv_cd blk).
Proof. exact @extrude_unstructured_ids. Qed.
Print Assumptions C35_unstructured_extrude_ids_partial.

Theorem C35_line_ids_partial :
  forall (D : Type) (num : Z -> D) areas o ax bu items g groups n js np,
  1 <= ax <= 2 ->
    (forall i, In i items -> length (ln_pts (lb_line (it_mesh i))) = np) ->
    Forall (fun i => wf_lbase (it_mesh i)) items ->
    Forall (fun it => it_trans it = false) (tl items) ->
    stack2d num areas o ax bu items = Ok (g, groups, n, js) ->
    exists bs nsubs, merge_structured bs (Some ax) = Ok g /\ length bs = length (tl items) /\
      layer_counts (tl items) nsubs /\ n = list_sum nsubs /\
      forall j a blk ns, nth_error items j = Some a -> nth_error bs j = Some blk ->
        nth_error nsubs j = Some ns ->
        line_block_ids num StackItem ax ns (lb_nc (it_mesh a)) (list_sum (firstn j nsubs)) j blk.
Proof. exact @stack_line_ids. Qed.
Print Assumptions C35_line_ids_partial.

(* along the first axis the arrays do not follow the order of the cells *)
Theorem C35_ids_refuted : exists items g groups n js col lay,
  Forall (fun i => wf_base (1, 3, 2) (it_mesh i) /\ it_trans i = false) items /\
  stack3d_structured zz no_volumes cx_opt 0 true items = Ok (g, groups, n, js) /\
  sg_dims g = (3, 3, 2) /\
  In ("ColumnId"%string, col) (sg_cd g) /\ In ("LayerId"%string, lay) (sg_cd g) /\
  at_coord (cell_shape (sg_dims g)) col (0, 1, 0) <>
    Some (Z.of_nat (fidx (cell_shape (1, 3, 2)) (0, 1, 0))) /\
  at_coord (cell_shape (sg_dims g)) lay (1, 0, 0) <> Some 1%Z.
Proof. exact ids_axis0_false. Qed.
Print Assumptions C35_ids_refuted.

Example C35_example : unit_along 2 (2, 2, 1) /\
  Forall (fun i => wf_base (2, 2, 1) (it_mesh i)) [cx_item 0; cx_item 1; cx_item 2] /\
  exists g groups n js, stack3d_structured zz no_volumes cx_opt 2 true [cx_item 0; cx_item 1; cx_item 2] = Ok (g, groups, n, js).
Proof.
  split; [apply cx_unit|]. split; [repeat (constructor; [apply cx_wf|]); constructor|].
  apply (cx_defined true 0 [1; 2]%R). discriminate.
Qed.

(* C36 *)
Theorem C36_too_few_stack :
  forall (M B : Type) (ops : mesh_ops M B) o ax bu extrude transition merge items,
  length items < 2 -> stack_generate ops o ax bu extrude transition merge items = Err ValueError.
Proof. exact @too_few_stack. Qed.
Print Assumptions C36_too_few_stack.

Theorem C36_too_few_extrude :
  forall (M B : Type) (ops : mesh_ops M B) o extrude merge items,
  length items < 2 -> extrude_generate ops o extrude merge items = Err ValueError.
Proof. exact @too_few_extrude. Qed.
Print Assumptions C36_too_few_extrude.

Theorem C36_merge_none : forall (A : Type) o swap, @merge_generate A o swap [] = Err ValueError.
Proof. exact @merge_none. Qed.
Print Assumptions C36_merge_none.

Theorem C36_stack_layers :
  forall (D : Type) (num : Z -> D) volumes o ax bu d items g groups n js,
  ax <= 2 -> unit_along ax d ->
  Forall (fun i => wf_base d (it_mesh i)) items ->
  Forall (fun it => it_trans it = false /\ positions_span it) (tl items) ->
  stack3d_structured num volumes o ax bu items = Ok (g, groups, n, js) ->
  exists nsubs, layer_counts (tl items) nsubs /\ n = list_sum nsubs /\ sg_dims g = setc ax (S n) d.
Proof.
  intros. destruct (stack_surfaces num volumes o ax bu d items g groups n js) as (ns & ? & ? & ? & _); eauto.
Qed.
Print Assumptions C36_stack_layers.

Theorem C36_extrude_layers :
  forall (D : Type) (num : Z -> D) volumes o ax d items g groups n,
  ax <= 2 -> unit_along ax d ->
  Forall (fun i => wf_base d (it_mesh i)) items ->
  Forall (fun it => it_trans it = false /\ positions_span it) (tl items) ->
  extrude_structured num volumes o items = Ok (g, groups, n) ->
  exists nsubs, layer_counts (tl items) nsubs /\ n = list_sum nsubs /\ sg_dims g = setc ax (S n) d.
Proof.
  intros. destruct (extrude_surfaces num volumes o ax d items g groups n) as (ns & ? & ? & ? & _); eauto.
Qed.
Print Assumptions C36_extrude_layers.

Example C36_example : Forall (fun it => it_trans it = false /\ positions_span it) (tl [cx_item 0; cx_item 1; cx_item 2]).
Proof. repeat constructor; try apply cx_ok. Qed.

(* C37 *)
Theorem C37_structured_merge :
  forall (D : Type) ax (l : list (sgrid D)) g,
  ax <= 2 -> Forall (wf_grid ax) l ->
    merge_structured l (Some ax) = Ok g ->
    wf_grid ax g /\
    comp ax (sg_dims g) = 1 + list_sum (map (fun b => comp ax (sg_dims b) - 1) l) /\
    (forall a b, a <= 2 -> a <> ax -> In b l -> comp a (sg_dims g) = comp a (sg_dims b)) /\
    (forall j b c, nth_error l j = Some b -> in_shape (sg_dims b) c ->
      (j = 0 \/ 0 < comp ax c ->
       at_coord (sg_dims g) (sg_pts g) (shifted ax (offset ax l j) c)
       = at_coord (sg_dims b) (sg_pts b) c) /\
      (forall p q, at_coord (sg_dims g) (sg_pts g) (shifted ax (offset ax l j) c) = Some p ->
         at_coord (sg_dims b) (sg_pts b) c = Some q -> near p q)) /\
    (forall k, In k (map fst (sg_cd g)) <-> forall b, In b l -> In k (map fst (sg_cd b))) /\
    (forall k x j b v c, In (k, x) (sg_cd g) -> nth_error l j = Some b -> In (k, v) (sg_cd b) ->
       in_shape (cell_shape (sg_dims b)) c ->
       at_coord (cell_shape (sg_dims g)) x (shifted ax (offset ax l j) c)
       = at_coord (cell_shape (sg_dims b)) v c) /\
    (forall j b c, nth_error l j = Some b -> in_shape (cell_shape (sg_dims b)) c ->
       at_coord (cell_shape (sg_dims g)) (sg_ghost g) (shifted ax (offset ax l j) c)
       = at_coord (cell_shape (sg_dims b)) (sg_ghost b) c).
Proof. exact @merge_concatenates. Qed.
Print Assumptions C37_structured_merge.

(* two blocks of one cell, sharing the plane z = 1 *)
Definition ex_block (z : R) (v : Z) : sgrid Z :=
  mkSgrid (2, 2, 2) [(0, 0, z); (1, 0, z); (0, 1, z); (1, 1, z); (0, 0, z + 1); (1, 0, z + 1); (0, 1, z + 1); (1, 1, z + 1)]%R
    [] [("v"%string, [v])] [0].

Lemma ex_block_wf z v : wf_grid 2 (ex_block z v).
Proof.
  unfold wf_grid, ex_block; cbn. repeat split; try lia; try reflexivity.
  - repeat constructor. intros [].
  - intros k w [[= <- <-]|[]]. reflexivity.
Qed.

Lemma ex_interface : interface_ok 2 (ex_block 0 5) (ex_block 1 7).
Proof.
  split; [reflexivity|]. intros [[x y] z] p q (Hx & Hy & Hz) Hp Hq.
  assert (E : p = q); [|subst; apply near_refl].
  destruct x as [|[|]], y as [|[|]]; cbn in Hx, Hy, Hz; try lia; cbn in Hp, Hq;
    injection Hp as <-; injection Hq as <-; do 2 f_equal; lra.
Qed.

Example C37_example : Forall (wf_grid 2) [ex_block 0 5; ex_block 1 7] /\
  exists g, merge_structured [ex_block 0 5; ex_block 1 7] (Some 2) = Ok g.
Proof.
  assert (W : Forall (wf_grid 2) [ex_block 0 5; ex_block 1 7]) by (constructor; [apply ex_block_wf|constructor; [apply ex_block_wf|constructor]]).
  split; auto. apply (merge_validates 2 (ex_block 0 5) (ex_block 1 7) []); auto.
  split; [apply ex_interface|exact I].
Qed.

(* C38 *)
Theorem C38_merge_validated :
  forall (D : Type) (ax : nat) (a b : sgrid D) l,
  ax <= 2 -> Forall (wf_grid ax) (a :: b :: l) ->
    merge_structured (a :: b :: l) None = Err ValueError /\
    (forall x, merge_structured [a] x = Ok a) /\
    (chain (interface_ok ax) (a :: b :: l) <-> exists g, merge_structured (a :: b :: l) (Some ax) = Ok g) /\
    (~ chain (interface_ok ax) (a :: b :: l) -> merge_structured (a :: b :: l) (Some ax) = Err ValueError).
Proof. exact @merge_validates. Qed.
Print Assumptions C38_merge_validated.

Example C38_example : Forall (wf_grid 2) [ex_block 0 5; ex_block 3 7] /\
  ~ chain (interface_ok 2) [ex_block 0 5; ex_block 3 7].
Proof.
  split; [constructor; [apply ex_block_wf|constructor; [apply ex_block_wf|constructor]]|]. intros [[_ H] _].
  specialize (H (0, 0, 0) _ _ ltac:(repeat constructor) eq_refl eq_refl). destruct H as (_ & _ & H).
  rewrite Rabs_left, Rabs_right in H; lra.
Qed.

(* C39 *)
Theorem C39_stack_defined :
  forall (D : Type) (num : Z -> D) volumes o ax bu d items,
  ax <= 2 -> unit_along ax d -> 2 <= length items ->
    Forall (fun i => wf_base d (it_mesh i)) items ->
    Forall (fun it => it_trans it = false /\ positions_span it /\ group_by_name it) (tl items) ->
    exists g groups n js, stack3d_structured num volumes o ax bu items = Ok (g, groups, n, js).
Proof. exact @stack_defined. Qed.
Print Assumptions C39_stack_defined.

Theorem C39_extrude_defined :
  forall (D : Type) (num : Z -> D) volumes o ax d items,
  ax <= 2 -> unit_along ax d -> 2 <= length items ->
    Forall (fun i => wf_base d (it_mesh i)) items ->
    Forall (fun it => it_trans it = false /\ positions_span it /\ group_by_name it) (tl items) ->
    exists g groups n, extrude_structured num volumes o items = Ok (g, groups, n).
Proof. exact @extrude_defined. Qed.
Print Assumptions C39_extrude_defined.

Theorem C39_integer_resolution :
  forall (M : Type) (it : item M) g,
  (it_res it = ResNone \/ exists z, it_res it = ResInt z) -> names_method (it_method it) g ->
    positions_span it.
Proof. exact @int_spans. Qed.
Print Assumptions C39_integer_resolution.

Theorem C39_stack_surfaces :
  forall (D : Type) (num : Z -> D) volumes o ax bu d items g groups n js,
  ax <= 2 -> unit_along ax d ->
    Forall (fun i => wf_base d (it_mesh i)) items ->
    Forall (fun it => it_trans it = false /\ positions_span it) (tl items) ->
    stack3d_structured num volumes o ax bu items = Ok (g, groups, n, js) ->
    exists nsubs, layer_counts (tl items) nsubs /\ n = list_sum nsubs /\ sg_dims g = setc ax (S n) d /\
      Forall2 (only_points (sops num)) items js /\
      forall j a c, nth_error js j = Some a -> in_shape d c ->
        at_coord (sg_dims g) (sg_pts g) (setc ax (list_sum (firstn j nsubs)) c)
        = at_coord d (points (sops num) a) c.
Proof. exact @stack_surfaces. Qed.
Print Assumptions C39_stack_surfaces.

Theorem C39_extrude_surfaces :
  forall (D : Type) (num : Z -> D) volumes o ax d items g groups n,
  ax <= 2 -> unit_along ax d ->
    Forall (fun i => wf_base d (it_mesh i)) items ->
    Forall (fun it => it_trans it = false /\ positions_span it) (tl items) ->
    extrude_structured num volumes o items = Ok (g, groups, n) ->
    exists nsubs, layer_counts (tl items) nsubs /\ n = list_sum nsubs /\ sg_dims g = setc ax (S n) d /\
      forall j a c, nth_error items j = Some a -> in_shape d c ->
        at_coord (sg_dims g) (sg_pts g) (setc ax (list_sum (firstn j nsubs)) c)
        = at_coord d (points (sops num) a) c.
Proof. exact @extrude_surfaces. Qed.
Print Assumptions C39_extrude_surfaces.

Theorem C39_extrude_iff :
  forall (D : Type) (num : Z -> D) volumes o ax d items,
  ax <= 2 -> unit_along ax d -> 2 <= length items ->
    Forall (fun i => wf_base d (it_mesh i)) items ->
    Forall (fun it => it_trans it = false /\ has_positions it /\ group_by_name it) (tl items) ->
    (junctions_ok (points (sops num)) items ->
       exists g groups n, extrude_structured num volumes o items = Ok (g, groups, n)) /\
    (~ junctions_ok (points (sops num)) items ->
       extrude_structured num volumes o items = Err ValueError).
Proof. exact @extrude_iff. Qed.
Print Assumptions C39_extrude_iff.

Theorem C39_stack_iff :
  forall (D : Type) (num : Z -> D) volumes o ax bu d items,
  ax <= 2 -> unit_along ax d -> 2 <= length items ->
    Forall (fun i => wf_base d (it_mesh i)) items ->
    Forall (fun it => it_trans it = false /\ has_positions it /\ group_by_name it) (tl items) ->
    exists js, Forall2 (only_points (sops num)) items js /\
    (junctions_ok (points (sops num)) js ->
       exists g groups n, stack3d_structured num volumes o ax bu items = Ok (g, groups, n, js)) /\
    (~ junctions_ok (points (sops num)) js ->
       stack3d_structured num volumes o ax bu items = Err ValueError).
Proof. exact @stack_iff. Qed.
Print Assumptions C39_stack_iff.

Example C39_example : Forall (fun it => it_trans it = false /\ positions_span it /\ group_by_name it)
  (tl [cx_item 0; cx_item 1; cx_item 2]).
Proof. repeat constructor; try apply cx_ok. Qed.

(* the first block stops half-way *)
Definition half_item (z : R) : item (sbase Z) := mkItem (cx_base z) (ResArr [0; 1/2]%R) None 0%Z 0 GNone false.
Example C39_example_fails : has_positions (half_item 1) /\
  ~ junctions_ok (points (sops zz)) [cx_item 0; half_item 1; cx_item 2].
Proof.
  assert (E : resolution_to_perc (it_res (half_item 1)) (it_method (half_item 1)) = Ok [0; 1/2]%R).
  { unfold half_item, resolution_to_perc, it_res. rewrite np_sort_id; [reflexivity|].
    repeat constructor; lra. }
  split; [exists [0; 1/2]%R; split; [exact E|simpl; lia]|]. intros H.
  specialize (H 0 _ _ _ eq_refl eq_refl eq_refl).
  destruct (cx_ok 2) as (_ & (pc & Hpc & _ & H0 & _) & _).
  specialize (H [0; 1/2]%R pc (1/2)%R 0%R 0 _ _ _ E Hpc eq_refl H0 eq_refl eq_refl eq_refl).
  cbn in H. destruct H as (_ & _ & H). rewrite Rabs_left, Rabs_right in H; lra.
Qed.

(* C75 *)
Theorem C75_plane_partial :
  forall (M B : Type) (ops : mesh_ops M B) (Hops : lawful ops) ax bu interp st nd angles point ao st' ang',
  ax <= 2 ->
    add_plane ops ax bu interp st nd angles point ao = Ok (st', ang') ->
    exists it a b c d, st_items st' = st_items st ++ [it] /\
      (match ax with 0%nat => a | 1%nat => b | _ => c end = 0)%R /\
      (coord ax point = a * coord 0 point + b * coord 1 point + c * coord 2 point + d)%R /\
      length (points ops it) = length (getp ops (st_base st)) /\
      (forall k p q, nth_error (getp ops (st_base st)) k = Some p -> nth_error (points ops it) k = Some q ->
         same_column ax p q /\
         (coord ax q = a * coord 0 q + b * coord 1 q + c * coord 2 q + d)%R) /\
      (nd = false -> ang' = angles) /\
      (nd = true -> coord ax ang' = 0%R /\ forall b, b <= 2 -> b <> ax -> coord b ang' = coord b angles).
Proof. exact @add_plane_spec. Qed.
Print Assumptions C75_plane_partial.

Theorem C75_angles_kept_refuted : exists angles point st' angles',
  add_plane (sops zz) 2 true tr_interp (mkStack (cx_base 0) [] false) true angles point
    (mkAdd (ResInt 1) None 0%Z 0 GNone) = Ok (st', angles') /\ angles' <> angles.
Proof. exact plane_mutates. Qed.
Print Assumptions C75_angles_kept_refuted.

Example C75_example : exists st' ang', add_plane (sops zz) 2 true tr_interp (mkStack (cx_base 0) [] false) false
  (30, 40, 50)%R (1, 2, 3)%R tr_opts = Ok (st', ang').
Proof. eexists. eexists. reflexivity. Qed.

(* C76 *)
Open Scope R_scope.
Theorem C76_translate_scale :
  forall ds da last vx vy vz s q c,
  last <> [] -> da = None -> box_middle last c ->
    extrude_add ds da last [vx; vy; vz] s None = Ok q ->
    box_middle q (vplus c (vx, vy, vz)) /\
    exists f, (match s with Some f' => f = f' | None => match ds with Some f' => f = f' | None => f = 1 end end) /\
      length q = length last /\
      forall k p, nth_error last k = Some p ->
        nth_error q k = Some (vplus (vplus c (vx, vy, vz)) (vtimes f (vminus p c))).
Proof. exact extrude_add_middle. Qed.
Print Assumptions C76_translate_scale.
Close Scope R_scope.

Theorem C76_vector_size :
  forall ds da last v s a, length v <> 3 -> extrude_add ds da last v s a = Err ValueError.
Proof. exact vector_rejected. Qed.
Print Assumptions C76_vector_size.

Example C76_example : exists q,
  extrude_add (Some 2%R) None [(0, 0, 0); (2, 0, 0)]%R [0; 0; 1]%R None None = Ok q /\
  [(0, 0, 0); (2, 0, 0)]%R <> [] /\ box_middle [(0, 0, 0); (2, 0, 0)]%R (1, 0, 0)%R.
Proof.
  eexists. split; [reflexivity|]. split; [discriminate|]. intros k Hk. exists (0, 0, 0)%R, (2, 0, 0)%R.
  split; [cbn; auto|]. split; [cbn; auto|].
  destruct k as [|[|[|k]]]; try lia; (split; [cbn; lra|]); intros r [<-|[<-|[]]]; cbn; lra.
Qed.

(* C79 *)
Theorem C79_construction :
  forall (M : Type) (mesh : M) dims axis,
  ((0 <= axis <= 2)%Z /\ (forall d, dims = Some d -> comp (Z.to_nat axis) d = 1) <->
     stack_init mesh dims axis = Ok (mesh, Z.to_nat axis)) /\
    (stack_init mesh dims axis = Ok (mesh, Z.to_nat axis) \/ stack_init mesh dims axis = Err ValueError).
Proof. exact @init_spec. Qed.
Print Assumptions C79_construction.

Theorem C79_arrays_rejected :
  forall (M B : Type) (ops : mesh_ops M B) ax bu interp st ndim ncols rows ao,
  ndim <> 2 \/ ncols <> 3 ->
    stack_add ops ax bu interp st (ArgArray ndim ncols rows) ao = Err ValueError.
Proof. exact @add_array_rejected. Qed.
Print Assumptions C79_arrays_rejected.

Theorem C79_added_item :
  forall (M B : Type) (ops : mesh_ops M B) (Hops : lawful ops) ax bu interp st arg ao st',
  stack_add ops ax bu interp st arg ao = Ok st' ->
    exists it, st_items st' = st_items st ++ [it] /\ st_base st' = st_base st /\ st_flag st' = false /\
      it_prio it = ao_prio ao /\
      (st_items st <> [] -> it_trans it = st_flag st) /\
      (st_items st = [] -> it_trans it = false) /\
      ((forall x, arg <> ArgScalar x) \/ st_items st = [] ->
         it_mesh it = setp ops (points ops it) (st_base st)).
Proof. exact @add_fields. Qed.
Print Assumptions C79_added_item.

Example C79_example : stack_init tt (Some (3, 3, 1)) 2 = Ok (tt, 2) /\
  stack_init tt (Some (3, 3, 1)) 0 = Err ValueError /\ stack_init tt None 3 = Err ValueError.
Proof. repeat split. Qed.

(* C80 *)
Theorem C80_transition_partial :
  forall (M B : Type) (ops : mesh_ops M B) (Hops : lawful ops) ax bu interp st m arg ao arg' ao' st1 st2,
  st_items st <> [] -> (forall x, arg <> ArgScalar x) -> (forall x, arg' <> ArgScalar x) ->
    stack_add ops ax bu interp (set_transition m st) arg ao = Ok st1 ->
    stack_add ops ax bu interp st1 arg' ao' = Ok st2 ->
    exists it it', st_items st2 = st_items st ++ [it; it'] /\
      it_trans it = true /\ it_trans it' = false /\
      it_mesh it = setp ops (points ops it) m /\ it_mesh it' = setp ops (points ops it') m.
Proof. exact @transition_next. Qed.
Print Assumptions C80_transition_partial.

(* adding a scalar after set_transition does not use the new base mesh *)
Theorem C80_transition_refuted : exists st m x ao st1 it,
  st_items st <> [] /\
  stack_add (lops zz) 2 true tr_interp (set_transition m st) (ArgScalar x) ao = Ok st1 /\
  st_items st1 = st_items st ++ [it] /\ it_trans it = true /\
  length (points (lops zz) it) <> length (getp (lops zz) m).
Proof. exact transition_scalar_false. Qed.
Print Assumptions C80_transition_refuted.

Example C80_example : exists st1 st2,
  stack_add (lops zz) 2 true tr_interp (set_transition (tr_line 3)
     (mkStack (tr_line 2) [mkItem (tr_line 2) ResNone None 0%Z 0%R GNone false] false))
     (ArgCall (fun x y z => 1%R)) tr_opts = Ok st1 /\
  stack_add (lops zz) 2 true tr_interp st1 (ArgCall (fun x y z => 2%R)) tr_opts = Ok st2.
Proof. eexists. eexists. split; reflexivity. Qed.

(* C81: the angles about the axes i and j other than the stacking axis make the vector of a rotation by w degrees; full statement: the
   slope is tan w (false, below).  It is sin w across that vector, 0 along it *)
Theorem C81_slope_partial :
  forall (M B : Type) (ops : mesh_ops M B) (Hops : lawful ops) ax i j bu interp st nd angles point ao st' ang',
  In (ax, i, j) [(0, 1, 2); (1, 2, 0); (2, 0, 1)] ->
  add_plane ops ax bu interp st nd angles point ao = Ok (st', ang') ->
  let w := sqrt (xyz i angles * xyz i angles + xyz j angles * xyz j angles) in
  exists it, st_items st' = st_items st ++ [it] /\
    length (points ops it) = length (getp ops (st_base st)) /\
    forall k p q, nth_error (getp ops (st_base st)) k = Some p -> nth_error (points ops it) k = Some q ->
      (forall l, l <= 2 -> l <> ax -> xyz l q = xyz l p) /\
      (w = 0%R -> xyz ax q = xyz ax point) /\
      (w * (xyz ax q - xyz ax point) =
        sin (w * PI / 180) * (xyz j angles * (xyz i p - xyz i point) - xyz i angles * (xyz j p - xyz j point)))%R.
Proof. exact @add_plane_slope. Qed.
Print Assumptions C81_slope_partial.

(* 90 degrees about the x axis: the point at distance 1 along y is one unit lower *)
Example C81_example : exists st' ang' it q, add_plane (sops zz) 2 true tr_interp (mkStack (cx_base 0) [] false) false
  (90, 0, 0)%R (0, 0, 0)%R tr_opts = Ok (st', ang') /\ st_items st' = [it] /\
  nth_error (points (sops zz) it) 2 = Some q /\ xyz 2 q = (-1)%R.
Proof.
  assert (E : exists st' ang', add_plane (sops zz) 2 true tr_interp (mkStack (cx_base 0) [] false) false
    (90, 0, 0)%R (0, 0, 0)%R tr_opts = Ok (st', ang')) by (eexists; eexists; reflexivity).
  destruct E as (st' & ang' & E).
  destruct (C81_slope_partial _ _ (sops zz) (sops_lawful zz) 2 0 1 _ _ _ _ _ _ _ _ _ ltac:(cbn; auto) E) as (it & I & L & H).
  destruct (nth_error (points (sops zz) it) 2) as [q|] eqn:Eq; [|apply nth_error_None in Eq; rewrite L in Eq; cbn in Eq; lia].
  exists st', ang', it, q. split; [exact E|]. split; [exact I|]. split; [exact Eq|].
  destruct (H 2 _ q eq_refl Eq) as (_ & _ & H2). revert H2. cbn [xyz]. replace (90 * 90 + 0 * 0)%R with (90 * 90)%R by ring.
  rewrite sqrt_square by lra. replace (90 * PI / 180)%R with (PI / 2)%R by field. rewrite sin_PI2. intros H2. lra.
Qed.

Theorem C81_inclination_refuted : exists st' ang' it q, add_plane (sops zz) 2 true tr_interp (mkStack (cx_base 0) [] false) false
    (45, 0, 0)%R (0, 0, 0)%R tr_opts = Ok (st', ang') /\ st_items st' = [it] /\
  nth_error (getp (sops zz) (cx_base 0)) 2 = Some (0, 1, 0)%R /\ nth_error (points (sops zz) it) 2 = Some q /\
  Rabs (xyz 2 q) <> tan (45 * PI / 180).
Proof.
  assert (E : exists st' ang', add_plane (sops zz) 2 true tr_interp (mkStack (cx_base 0) [] false) false
    (45, 0, 0)%R (0, 0, 0)%R tr_opts = Ok (st', ang')) by (eexists; eexists; reflexivity).
  destruct E as (st' & ang' & E).
  destruct (C81_slope_partial _ _ (sops zz) (sops_lawful zz) 2 0 1 _ _ _ _ _ _ _ _ _ ltac:(cbn; auto) E) as (it & I & L & H).
  destruct (nth_error (points (sops zz) it) 2) as [q|] eqn:Eq; [|apply nth_error_None in Eq; rewrite L in Eq; cbn in Eq; lia].
  exists st', ang', it, q. split; [exact E|]. split; [exact I|]. split; [reflexivity|]. split; [exact Eq|].
  destruct (H 2 _ q eq_refl Eq) as (_ & _ & H2). revert H2. cbn [xyz]. replace (45 * 45 + 0 * 0)%R with (45 * 45)%R by ring.
  rewrite sqrt_square by lra. replace (45 * PI / 180)%R with (PI / 4)%R by field. rewrite sin_PI4, tan_PI4. intros H2 H3.
  assert (Hs : (1 < sqrt 2)%R) by (rewrite <- sqrt_1; apply sqrt_lt_1; lra).
  assert (Hq : let '(_, _, z) := q in z = (- (1 / sqrt 2))%R) by (destruct q as [[? ?] z]; cbn [xyz] in H2; set (r2 := (1 / sqrt 2)%R) in *; lra).
  destruct q as [[? ?] z]. cbn [xyz] in H3. rewrite Hq, Rabs_Ropp, Rabs_right in H3.
  - assert (1 / sqrt 2 < 1)%R by (apply Rmult_lt_reg_r with (sqrt 2); [lra|]; field_simplify; lra). lra.
  - apply Rle_ge, Rlt_le, Rdiv_lt_0_compat; lra.
Qed.
Print Assumptions C81_inclination_refuted.

(* C82 *)
Theorem C82_stack_groups :
  forall (D : Type) (num : Z -> D) volumes o ax bu d items g groups n js,
  ax <= 2 -> unit_along ax d ->
    Forall (fun i => wf_base d (it_mesh i)) items ->
    Forall (fun it => it_trans it = false) (tl items) ->
    stack3d_structured num volumes o ax bu items = Ok (g, groups, n, js) ->
    numbered groups /\
    exists nsubs, layer_counts (tl items) nsubs /\
    exists cg, In ("CellGroup"%string, cg) (sg_cd g) /\
      forall c, in_shape (cell_shape (sg_dims g)) c ->
        exists j a b k z, layer_in nsubs (comp ax c) j /\
          nth_error items j = Some a /\ nth_error items (S j) = Some b /\
          at_coord (cell_shape (sg_dims g)) cg c = Some (num z) /\ In (k, z) groups /\
          (forall s, it_group b = GStr s -> s <> ""%string -> plain s -> k = s) /\
          (it_group b = GNone ->
             base_name (labelled (gview (sops num) (it_mesh a))) (ignore_groups o)
               (the_default o "") (fidx (cell_shape d) (setc ax 0 c)) k).
Proof. exact @stack_groups. Qed.
Print Assumptions C82_stack_groups.

Theorem C82_extrude_groups :
  forall (D : Type) (num : Z -> D) volumes o ax d items g groups n,
  ax <= 2 -> unit_along ax d ->
    Forall (fun i => wf_base d (it_mesh i)) items ->
    Forall (fun it => it_trans it = false) (tl items) ->
    extrude_structured num volumes o items = Ok (g, groups, n) ->
    numbered groups /\
    exists nsubs, layer_counts (tl items) nsubs /\
    exists cg, In ("CellGroup"%string, cg) (sg_cd g) /\
      forall c, in_shape (cell_shape (sg_dims g)) c ->
        exists j a b k z, layer_in nsubs (comp ax c) j /\
          nth_error items j = Some a /\ nth_error items (S j) = Some b /\
          at_coord (cell_shape (sg_dims g)) cg c = Some (num z) /\ In (k, z) groups /\
          (forall s, it_group b = GStr s -> s <> ""%string -> plain s -> k = s) /\
          (it_group b = GNone ->
             base_name (labelled (gview (sops num) (it_mesh a))) (ignore_groups o)
               (the_default o "") (fidx (cell_shape d) (setc ax 0 c)) k).
Proof. exact @extrude_groups. Qed.
Print Assumptions C82_extrude_groups.

Example C82_example : exists g groups n js,
  stack3d_structured zz no_volumes cx_opt 2 true [cx_item 0; cx_item 1; cx_item 2] = Ok (g, groups, n, js).
Proof. apply (cx_defined true 0 [1; 2]%R). discriminate. Qed.

(* C83 *)
Open Scope R_scope.
Theorem C83_extrusion_similar :
  forall ds da last vx vy vz s a q,
  last <> [] -> (vx, vy, vz) <> (0, 0, 0) ->
    extrude_add ds da last [vx; vy; vz] s a = Ok q ->
    exists f, (match s with Some f' => f = f' | None => match ds with Some f' => f = f' | None => f = 1 end end) /\
      length q = length last /\
      forall i j p p' r r', nth_error last i = Some p -> nth_error last j = Some p' ->
        nth_error q i = Some r -> nth_error q j = Some r' -> dist2 r r' = f * f * dist2 p p'.
Proof. exact @extrude_add_similar. Qed.
Print Assumptions C83_extrusion_similar.
Close Scope R_scope.

Example C83_example : (0, 0, 1)%R <> (0, 0, 0)%R /\ exists q,
  extrude_add (Some 2%R) (Some 30%R) [(0, 0, 0); (2, 0, 0)]%R [0; 0; 1]%R None None = Ok q.
Proof. split; [intros H; injection H; lra|]. eexists. reflexivity. Qed.
