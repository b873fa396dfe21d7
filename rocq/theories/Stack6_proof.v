From Verif Require Import RealAux Perc_model Perc_spec Perc_proof Surface_model Surface_spec Surface_proof
  Volume_model Volume_spec Volume_proof Ring_proof UVol_proof UVol2_proof UVol3_proof
  SMerge_model SMerge_spec SMerge_proof Groups_model Groups_spec Groups_proof Groups2_proof
  Stack_model Stack_spec Cut_proof Gen_proof Stack_proof Stack2_proof Stack3_proof Stack4_proof Stack5_proof.
From Coq Require Import Lra.
Open Scope R_scope.

(* ---- counterexamples ---- *)
Definition cx_base (z : R) : sbase Z :=
  mkSbase (mkSsurf (2, 2, 1)%nat [(0, 0, z); (1, 0, z); (0, 1, z); (1, 1, z)] [] [] None) None None.
Definition cx_item (z : R) : item (sbase Z) := mkItem (cx_base z) (ResInt 1) None 0%Z 0 GNone false.
Definition cx_opt := mk_options "" [].
Definition no_volumes : shape3 -> list pt -> list R := fun _ _ => [].
Definition zz : Z -> Z := fun z => z.

Lemma cx_wf z : wf_base (2, 2, 1)%nat (it_mesh (cx_item z)).
Proof. repeat split; cbn; try tauto; try discriminate. constructor. Qed.
Lemma cx_unit : unit_along 2 (2, 2, 1)%nat.
Proof. split; [reflexivity|]. intros [|[|[|]]] H1 H2; cbn; lia. Qed.
Lemma cx_ok z : it_trans (cx_item z) = false /\ positions_span (cx_item z) /\ group_by_name (cx_item z).
Proof.
  split; [reflexivity|]. split; [|left; reflexivity].
  apply (int_spans (cx_item z) Constant); [right; exists 1%Z; reflexivity|constructor].
Qed.

Lemma cx_defined bu a l : l <> [] ->
  exists g groups n js,
    stack3d_structured zz no_volumes cx_opt 2 bu (map cx_item (a :: l)) = Ok (g, groups, n, js).
Proof.
  intros Hl. apply (stack_defined zz no_volumes cx_opt 2 bu (2, 2, 1)%nat); auto using cx_unit.
  - destruct l; [congruence|]. simpl; lia.
  - rewrite Forall_forall. intros i Hi. apply in_map_iff in Hi as (z & <- & _). apply cx_wf.
  - cbn [map tl]. rewrite Forall_forall. intros i Hi. apply in_map_iff in Hi as (z & <- & _). apply cx_ok.
Qed.

Lemma cx_pair bu a b : cut_pair (sops zz) 2 bu (cx_item a) (cx_item b) =
  Ok (cx_item (if Rltb ((if bu then 1 else -1) * (b - a)) 0 then a + (if bu then 1 else -1) * (b - a) else a),
      cx_item b).
Proof.
  unfold cut_pair. cbn -[Rltb]. unfold with_mesh, cx_item, cx_base, ss_setp. cbn -[Rltb].
  destruct bu.
  - replace (1 * (b - a)) with (b - a - 0) by ring.
    destruct (Rltb (b - a - 0) 0); reflexivity.
  - replace (-1 * (b - a)) with ((b - a - 0) * -1) by ring.
    destruct (Rltb ((b - a - 0) * -1) 0); reflexivity.
Qed.

Lemma cx_cut_453 : cut_loop (sops zz) 2 true (cx_item 4) [cx_item 5; cx_item 3] =
  Ok [cx_item 4; cx_item 3; cx_item 3].
Proof.
  cbn [cut_loop]. rewrite cx_pair. cbn [bind]. rewrite cx_pair. cbn [bind].
  destruct (Rltb_spec (1 * (5 - 4)) 0); [lra|]. destruct (Rltb_spec (1 * (3 - 5)) 0); [|lra].
  do 3 f_equal. f_equal. lra.
Qed.
Lemma cx_cut_433 : cut_loop (sops zz) 2 true (cx_item 4) [cx_item 3; cx_item 3] =
  Ok [cx_item 3; cx_item 3; cx_item 3].
Proof.
  cbn [cut_loop]. rewrite cx_pair. cbn [bind]. rewrite cx_pair. cbn [bind].
  destruct (Rltb_spec (1 * (3 - 4)) 0); [|lra]. destruct (Rltb_spec (1 * (3 - 3)) 0); [lra|].
  f_equal. f_equal. f_equal. lra.
Qed.
Lemma cx_cut_01 : cut_loop (sops zz) 2 false (cx_item 0) [cx_item 1] = Ok [cx_item (-1); cx_item 1].
Proof.
  cbn [cut_loop]. rewrite cx_pair. cbn [bind].
  destruct (Rltb_spec (-1 * (1 - 0)) 0); [|lra]. do 2 f_equal. f_equal. lra.
Qed.

Lemma cx_js bu a l js0 g groups n js :
  cut_loop (sops zz) 2 bu (cx_item a) (map cx_item l) = Ok js0 ->
  stack3d_structured zz no_volumes cx_opt 2 bu (map cx_item (a :: l)) = Ok (g, groups, n, js) -> js = js0.
Proof.
  intros Hc H. apply stack_inv in H as (i1 & rest & j1 & rest' & bs & E & _ & -> & _ & Hc' & _).
  cbn [map] in E. injection E as <- <-. rewrite Hc in Hc'. injection Hc' as ->. reflexivity.
Qed.

Lemma never_cross_false : exists items g groups n js,
  Forall (fun i => wf_base (2, 2, 1)%nat (it_mesh i) /\ it_trans i = false) items /\
  stack3d_structured zz no_volumes cx_opt 2 true items = Ok (g, groups, n, js) /\
  ~ chain (above (sops zz) 2) js.
Proof.
  destruct (cx_defined true 4 [5; 3]) as (g & groups & n & js & H); [discriminate|].
  exists (map cx_item [4; 5; 3]), g, groups, n, js. split.
  { repeat constructor; cbn; try tauto; try discriminate; constructor. }
  split; [exact H|].
  rewrite (cx_js true 4 [5; 3] _ _ _ _ _ cx_cut_453 H). intros [Hab _].
  specialize (Hab eq_refl 0%nat _ _ eq_refl eq_refl). cbn in Hab. lra.
Qed.

Lemma top_down_false : exists items g groups n js,
  Forall (fun i => wf_base (2, 2, 1)%nat (it_mesh i) /\ it_trans i = false) items /\
  stack3d_structured zz no_volumes cx_opt 2 false items = Ok (g, groups, n, js) /\
  ~ chain (below (sops zz) 2) js.
Proof.
  destruct (cx_defined false 0 [1]) as (g & groups & n & js & H); [discriminate|].
  exists (map cx_item [0; 1]), g, groups, n, js. split.
  { repeat constructor; cbn; try tauto; try discriminate; constructor. }
  split; [exact H|].
  rewrite (cx_js false 0 [1] _ _ _ _ _ cx_cut_01 H). intros [Hab _].
  specialize (Hab eq_refl 0%nat _ _ eq_refl eq_refl). cbn in Hab. lra.
Qed.

Lemma repeat_false : exists items g groups n js g' groups' n' js',
  stack3d_structured zz no_volumes cx_opt 2 true items = Ok (g, groups, n, js) /\
  stack3d_structured zz no_volumes cx_opt 2 true js = Ok (g', groups', n', js') /\
  map (points (sops zz)) js' <> map (points (sops zz)) js.
Proof.
  destruct (cx_defined true 4 [5; 3]) as (g & groups & n & js & H); [discriminate|].
  destruct (cx_defined true 4 [3; 3]) as (g' & groups' & n' & js' & H'); [discriminate|].
  pose proof (cx_js true 4 [5; 3] _ _ _ _ _ cx_cut_453 H) as ->.
  pose proof (cx_js true 4 [3; 3] _ _ _ _ _ cx_cut_433 H') as ->.
  exists (map cx_item [4; 5; 3]), g, groups, n, (map cx_item [4; 3; 3]), g', groups', n', (map cx_item [3; 3; 3]).
  split; [exact H|split; [exact H'|]]. cbn. intros E. injection E as E _. lra.
Qed.

(* ---- C35, axis 0 ---- *)
Definition cy_base (x : R) : sbase Z :=
  mkSbase (mkSsurf (1, 3, 2)%nat [(x, 0, 0); (x, 1, 0); (x, 2, 0); (x, 0, 1); (x, 1, 1); (x, 2, 1)] [] [] None) None None.
Definition cy_item (x : R) : item (sbase Z) := mkItem (cy_base x) (ResInt 2) None 0%Z 0 GNone false.

Lemma cy_unit : unit_along 0 (1, 3, 2)%nat.
Proof. split; [reflexivity|]. intros [|[|[|]]] H1 H2; cbn; lia. Qed.

Lemma ids_axis0_false : exists items g groups n js col lay,
  Forall (fun i => wf_base (1, 3, 2)%nat (it_mesh i) /\ it_trans i = false) items /\
  stack3d_structured zz no_volumes cx_opt 0 true items = Ok (g, groups, n, js) /\
  sg_dims g = (3, 3, 2)%nat /\
  In ("ColumnId"%string, col) (sg_cd g) /\ In ("LayerId"%string, lay) (sg_cd g) /\
  at_coord (cell_shape (sg_dims g)) col (0, 1, 0)%nat <>
    Some (Z.of_nat (fidx (cell_shape (1, 3, 2)%nat) (0, 1, 0)%nat)) /\
  at_coord (cell_shape (sg_dims g)) lay (1, 0, 0)%nat <> Some 1%Z.
Proof.
  assert (Hw : Forall (fun i => wf_base (1, 3, 2)%nat (it_mesh i)) [cy_item 0; cy_item 1]).
  { repeat constructor; cbn; try tauto; try discriminate; constructor. }
  assert (Ht : Forall (fun it => it_trans it = false) (tl [cy_item 0; cy_item 1])) by (repeat constructor).
  destruct (stack_defined zz no_volumes cx_opt 0 true (1, 3, 2)%nat [cy_item 0; cy_item 1])
    as (g & groups & n & js & H); auto using cy_unit; try lia.
  { cbn [tl]. constructor; [|constructor]. split; [reflexivity|]. split; [|left; reflexivity].
    apply (int_spans (cy_item 1) Constant); [right; exists 2%Z; reflexivity|constructor]. }
  destruct (stack_structured_pre _ _ _ 0 _ _ _ _ _ _ _ ltac:(lia) cy_unit Hw Ht H)
    as (i1 & rest & j1 & rest' & bs & E & Hne & -> & Hne' & HF & Hw' & Ht' & Hg & Hm).
  injection E as <- <-.
  destruct (generated_cells zz no_volumes 0 ltac:(lia) (1, 3, 2)%nat cy_unit _ StackItem _ _ _ _ _ _
    ltac:(discriminate) ltac:(discriminate) ltac:(discriminate) Hne' Ht' Hw' Hg Hm)
    as (_ & nsubs & Ln & En & HL & Hd & col & lay & itm & cg & Hcol & Hlay & Hitm & _ & HC).
  inversion HF as [|? ? ? ? Ho1 HF']; subst. inversion HF' as [|? ? ? ? Ho2 HF'']; subst. inversion HF''; subst.
  rename y into j2.
  assert (En : nsubs = [2%nat]).
  { destruct nsubs as [|a [|? ?]]; try discriminate Ln.
    destruct (HL 0%nat j2 eq_refl) as (ns & E & Hlay'). injection E as ->.
    apply (layers_only _ _ _ _ Ho2) in Hlay' as (perc & Hp & ->).
    cbn [cy_item it_res it_method] in Hp.
    destruct (perc_proper 2 None Constant ltac:(constructor)) as (p & Hp' & L & _).
    rewrite Hp in Hp'. injection Hp' as <-. rewrite L. reflexivity. }
  subst nsubs. change (list_sum [2%nat]) with 2%nat in *. cbn [setc] in Hd.
  exists [cy_item 0; cy_item 1], g, groups, 2%nat, [j1; j2], col, lay.
  split. { repeat constructor; cbn; try tauto; try discriminate; constructor. }
  split; [exact H|]. split; [exact Hd|]. split; [exact Hcol|]. split; [exact Hlay|].
  split.
  - destruct (HC (0, 1, 0)%nat) as (j & a & b & arr & gj & gj' & nsub & Hj & _ & _ & _ & _ & _ & _ & _ & Hns & _ & E1 & _).
    { rewrite Hd. cbn. lia. }
    destruct j as [|[|j]]; cbn in Hns; try discriminate. injection Hns as <-.
    rewrite E1. discriminate.
  - destruct (HC (1, 0, 0)%nat) as (j & a & b & arr & gj & gj' & nsub & Hj & _ & _ & _ & _ & _ & _ & _ & Hns & _ & _ & E2 & _).
    { rewrite Hd. cbn. lia. }
    destruct j as [|[|j]]; cbn in Hns; try discriminate. injection Hns as <-.
    rewrite E2. discriminate.
Qed.

(* ---- C35: stacked lines ---- *)
Open Scope nat_scope.

Lemma lb_align {D} (num : Z -> D) m : wf_lbase m -> aligned (gview (lops num) m).
Proof. intros (_ & _ & H). unfold aligned. cbn. destruct (lb_cg m); auto. rewrite seq_length; auto. Qed.


Lemma line_ids {D} (num : Z -> D) areas o name ax i1 rest bs groups n :
  1 <= ax <= 2 ->
  name <> "ColumnId"%string -> name <> "LayerId"%string ->
  Forall (fun it => it_trans it = false) rest ->
  Forall (fun i => wf_lbase (it_mesh i)) (i1 :: rest) ->
  gen_loop (lops num) o name
    (fun a b r m => generate_surface_from_two_lines areas (LinePoly (lb_line a))
                      (LinePoly (lb_line b)) (stack2d_plane ax) r m)
    (fun _ _ _ _ => Err NotImplementedError) 0 0 [] i1 rest = Ok (bs, groups, n) ->
  exists nsubs, layer_counts rest nsubs /\ length bs = length rest /\ n = list_sum nsubs /\
    forall j a blk ns, nth_error (i1 :: rest) j = Some a -> nth_error bs j = Some blk ->
      nth_error nsubs j = Some ns ->
      line_block_ids num name ax ns (lb_nc (it_mesh a)) (list_sum (firstn j nsubs)) j blk.
Proof.
  intros Hax N1 N2 Ht Hal Hg.
  destruct (gen_loop_inv _ _ _ _ _ _ _ _ _ _ _ _ _ Ht numbered_nil
    (Forall_impl _ (fun i => lb_align num (it_mesh i)) Hal) Hg) as (_ & _ & nsubs & Ln & Lb & En & HJ).
  exists nsubs.
  assert (HK : forall j a b, nth_error (i1 :: rest) j = Some a -> nth_error rest j = Some b ->
     exists ns blk, nth_error nsubs j = Some ns /\ layers_of b ns /\ nth_error bs j = Some blk /\
       line_block_ids num name ax ns (lb_nc (it_mesh a)) (list_sum (firstn j nsubs)) j blk).
  { intros j a b Ha Hb.
    destruct (HJ j a b Ha Hb) as (arr & gj & gj' & b0 & nsub & H1 & H2 & H3 & H4 & H5 & H6 & H7 & H8 & H9).
    assert (Wa : wf_lbase (it_mesh a)).
    { rewrite Forall_forall in Hal. apply Hal. eapply nth_error_In; eauto. }
    assert (Larr : length arr = lb_nc (it_mesh a)).
    { destruct (initialize_spec _ _ _ _ _ _ _ H2 (lb_align num _ Wa) H1) as (_ & _ & L & _).
      rewrite L. cbn. apply seq_length. }
    destruct Wa as (W1 & W2 & W3).
    pose proof H5 as H5'.
    apply surface_coords in H5 as (pa & pb & perc & la & lb & Hpa & _ & _ & Hp & Hpl & Hd & _ & _).
    apply get_points_length in Hpa. cbn [set_cg lops lb_line ln_ids] in Hpa.
    assert (la = 0 /\ lb = ax) as [-> ->].
    { destruct ax as [|[|[|]]]; try lia; cbn in Hpl; inversion Hpl; auto. }
    destruct (surface_data_inv _ _ _ _ _ _ _ H5') as (perc' & Hp' & _ & _ & _ & Hcd).
    rewrite Hp in Hp'. injection Hp' as <-.
    cbn [set_cg lops lb_line ln_cd ncM lb_nc ncB] in *.
    assert (Hlen : length (tile (map num arr) (length perc - 1)) = n_cells (sg_dims b0)).
    { apply (Hcd "CellGroup"%string). apply aput_In. }
    rewrite tile_length, map_length, Larr in Hlen.
    assert (Hnp : length pa = S (lb_nc (it_mesh a))) by lia.
    assert (Hns : nsub = length perc - 1).
    { rewrite <- Hlen in H8. apply Nat.mul_cancel_r in H8; auto. }
    assert (Hperc : length perc = S nsub).
    { assert (nsub <> 0); [|lia]. intros E0. rewrite E0, Hd in H8. 
      assert (0 < n_cells (grid_dims 0 ax (length pa) (length perc))); [|lia].
      unfold n_cells, cell_shape, size3. destruct ax as [|[|[|]]]; try lia; cbn -[Nat.max]; nia. }
    exists nsub. eexists. split; [auto|]. split; [exists perc; auto|]. split; [exact H9|].
    rewrite Hnp, Hperc in Hd.
    assert (Hcells : forall i l, i < lb_nc (it_mesh a) -> l < nsub ->
      fidx (cell_shape (sg_dims b0)) (grid_coord 0 ax i l) = l * lb_nc (it_mesh a) + i).
    { intros i l Hi Hl. rewrite Hd. unfold fidx, cell_shape, grid_dims, grid_coord.
      destruct ax as [|[|[|]]]; try lia; cbn -[Nat.max Nat.mul Nat.sub].
      - rewrite (Nat.max_r 1 (S (lb_nc (it_mesh a)) - 1)) by lia. nia.
      - rewrite (Nat.max_r 1 (S (lb_nc (it_mesh a)) - 1)) by lia.
        replace (Nat.max 1 (1 - 1)) with 1 by reflexivity. nia. }
    split; [exact Hd|].
    destruct (put_block_ids num name nsub (lb_nc (it_mesh a)) (list_sum (firstn j nsubs)) j (sg_cd b0) N1 N2)
      as (col & lay & itm & I1 & I2 & I3 & _ & _ & _ & HB).
    exists col, lay, itm. repeat (split; [assumption|]).
    intros i l Hi Hl. unfold at_coord.
    cbn [put_all numbered_ids fold_left fst snd put_ids lops sg_dims]. rewrite Hcells by auto. apply HB; auto. }
  split; [|split; [auto|split; [exact En|]]].
  - split; auto. intros j b Hb.
    destruct (nth_error (i1 :: rest) j) as [a|] eqn:Ha.
    + destruct (HK j a b Ha Hb) as (ns & blk & ? & ? & _); eauto.
    + apply nth_error_None in Ha. assert (j < length rest) by (apply nth_error_Some; congruence). simpl in Ha. lia.
  - intros j a blk ns Ha Hblk Hns.
    destruct (nth_error rest j) as [b|] eqn:Hb.
    + destruct (HK j a b Ha Hb) as (ns' & blk' & E1 & _ & E2 & E3). congruence.
    + apply nth_error_None in Hb. assert (j < length bs) by (apply nth_error_Some; congruence). lia.
Qed.

Lemma stack_line_ids {D} (num : Z -> D) areas o ax bu items g groups n js np :
  1 <= ax <= 2 ->
  (forall i, In i items -> length (ln_pts (lb_line (it_mesh i))) = np) ->
  Forall (fun i => wf_lbase (it_mesh i)) items ->
  Forall (fun it => it_trans it = false) (tl items) ->
  stack2d num areas o ax bu items = Ok (g, groups, n, js) ->
  exists bs nsubs, merge_structured bs (Some ax) = Ok g /\ length bs = length (tl items) /\
    layer_counts (tl items) nsubs /\ n = list_sum nsubs /\
    forall j a blk ns, nth_error items j = Some a -> nth_error bs j = Some blk ->
      nth_error nsubs j = Some ns ->
      line_block_ids num StackItem ax ns (lb_nc (it_mesh a)) (list_sum (firstn j nsubs)) j blk.
Proof.
  intros Hax Hnp Hal Ht H.
  apply stack_inv in H as (i1 & rest & j1 & rest' & bs & -> & Hne & -> & Hl & Hc & Hg & Hm).
  destruct (cut_loop_lengths (lops num) (lops_lawful num) ax bu rest i1 _ np Hnp Hc) as [HF _].
  assert (HF' : Forall2 (only_points (lops num)) rest rest') by (inversion HF; auto).
  assert (Hal' : Forall (fun i => wf_lbase (it_mesh i)) (j1 :: rest')).
  { clear -HF Hal. revert Hal; induction HF as [|i j l l' Ho HF IH]; intros Hal; constructor;
      inversion Hal; subst; auto.
    destruct Ho as (E & _). rewrite E. exact H1. }
  destruct (line_ids num areas o "StackItem"%string ax j1 rest' bs groups n)
    as (nsubs & H1 & H2 & H3 & H4); auto; try discriminate.
  { eapply only_points_trans; eauto. }
  exists bs, nsubs. cbn [tl]. split; [auto|]. split; [lia|].
  split; [eapply layer_counts_only; eauto|]. split; [auto|].
  intros j a blk ns Ha Hblk Hns.
  destruct (Forall2_nth_error _ _ _ _ _ HF Ha) as (a' & Ha' & Ho).
  specialize (H4 j a' blk ns Ha' Hblk Hns). destruct Ho as (E & _). rewrite E in H4. exact H4.
Qed.
