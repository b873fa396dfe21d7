From Verif Require Import RealAux Perc_model Perc_spec Perc_proof Surface_model Surface_spec Surface_proof
  Volume_model Volume_spec Volume_proof Ring_proof UVol_proof UVol2_proof UVol3_proof
  SMerge_model SMerge_spec SMerge_proof Groups_model Groups_spec Groups_proof Groups2_proof
  Stack_model Stack_spec Cut_proof Gen_proof Stack_proof Stack2_proof.
From Coq Require Import Lra Ascii.
Open Scope nat_scope.

Lemma Forall2_nth_error_r {A B} (P : A -> B -> Prop) l m i y :
  Forall2 P l m -> nth_error m i = Some y -> exists x, nth_error l i = Some x /\ P x y.
Proof.
  intros H; revert i; induction H; intros [|i]; simpl; try discriminate; eauto.
  intros [= <-]; eauto.
Qed.

Lemma plain_dec s : plain s \/ ~ plain s.
Proof.
  destruct s as [|c s]; [left; intros s'; discriminate|].
  destruct (Ascii.ascii_dec c "~"%char) as [->|Hc].
  - right. intros H. apply (H s eq_refl).
  - left. intros s' [= E _]. contradiction.
Qed.

Lemma stack_inv {M B} (ops : mesh_ops M B) o ax bu extrude transition merge items g groups n js :
  stack_generate ops o ax bu extrude transition merge items = Ok (g, groups, n, js) ->
  exists i1 rest j1 rest' bs, items = i1 :: rest /\ rest <> [] /\ js = j1 :: rest' /\
    length rest' = length rest /\
    cut_loop ops ax bu i1 rest = Ok js /\
    gen_loop ops o "StackItem" extrude transition 0 0 [] j1 rest' = Ok (bs, groups, n) /\
    merge bs = Ok g.
Proof.
  unfold stack_generate. destruct items as [|i1 [|i2 rest]]; try discriminate.
  destruct (cut_loop ops ax bu i1 (i2 :: rest)) as [js0|] eqn:Hc; [|discriminate]. cbn [bind].
  destruct (cut_loop_cons _ _ _ _ _ _ Hc) as (j1 & rest' & -> & Hl).
  destruct (gen_loop _ _ _ _ _ _ _ _ _ _) as [[[bs gr] n']|] eqn:Hg; [|discriminate]. cbn [bind].
  destruct (merge bs) as [m|] eqn:Hm; [|discriminate]. cbn [bind].
  intros H%Ok_inj. injection H as <- <- <- <-.
  exists i1, (i2 :: rest), j1, rest', bs. repeat split; auto. discriminate.
Qed.

Lemma extrude_inv {M B} (ops : mesh_ops M B) o extrude merge items g groups n :
  extrude_generate ops o extrude merge items = Ok (g, groups, n) ->
  exists i1 rest bs, items = i1 :: rest /\ rest <> [] /\
    gen_loop ops o "ExtrudeItem" extrude (fun _ _ _ _ => Err NotImplementedError) 0 0 [] i1 rest
      = Ok (bs, groups, n) /\ merge bs = Ok g.
Proof.
  unfold extrude_generate. destruct items as [|i1 [|i2 rest]]; try discriminate.
  destruct (gen_loop _ _ _ _ _ _ _ _ _ _) as [[[bs gr] n']|] eqn:Hg; [|discriminate]. cbn [bind].
  destruct (merge bs) as [m|] eqn:Hm; [|discriminate]. cbn [bind].
  intros H%Ok_inj. injection H as <- <- <-.
  exists i1, (i2 :: rest), bs. repeat split; auto. discriminate.
Qed.

(* ---- C35: axis 2 ---- *)


Lemma nth_error_repeat_lt {X} (x : X) n k : k < n -> nth_error (repeat x n) k = Some x.
Proof. revert k; induction n as [|n IH]; intros [|k] H; simpl; auto; [lia|lia|apply IH; lia]. Qed.

Lemma nth_error_seq_lt s n k : k < n -> nth_error (seq s n) k = Some (s + k).
Proof.
  revert s k; induction n as [|n IH]; intros s [|k] H; simpl; [lia|lia|f_equal; lia|].
  rewrite IH by lia. f_equal; lia.
Qed.

Lemma ids_axis2 {D} (num : Z -> D) volumes o name d i1 rest bs groups n g :
  name <> "ColumnId"%string -> name <> "LayerId"%string -> name <> "CellGroup"%string ->
  rest <> [] -> unit_along 2 d ->
  Forall (fun it => it_trans it = false) rest ->
  Forall (fun i => wf_base d (it_mesh i)) (i1 :: rest) ->
  gen_loop (sops num) o name (extr volumes) (fun _ _ _ _ => Err NotImplementedError) 0 0 [] i1 rest
    = Ok (bs, groups, n) ->
  merge_structured bs (Some 2) = Ok g ->
  exists nsubs, layer_counts rest nsubs /\ n = list_sum nsubs /\
    sg_dims g = setc 2 (S n) d /\ ids_of num d name g nsubs.
Proof.
  intros N1 N2 N3 Hne Hu Ht Hw Hg Hm.
  destruct (generated_cells num volumes 2 ltac:(lia) d Hu _ _ _ _ _ _ _ _ N1 N2 N3 Hne Ht Hw Hg Hm)
    as (_ & nsubs & Ln & En & HL & Hd & col & lay & itm & cg & Hcol & Hlay & Hitm & _ & HC).
  exists nsubs. split; [split; auto|]. split; [auto|]. split; [auto|].
  exists col, lay, itm. split; [auto|split; [auto|split; [auto|]]].
  intros x y l Hin.
  destruct (HC _ Hin) as (j & a & b & arr & gj & gj' & nsub & Hj & _ & _ & _ & _ & _ & _ & _ & Hns & Hc' & E1 & E2 & E3 & _).
  rewrite E1, E2, E3. clear E1 E2 E3. cbn [comp setc] in *.
  unfold layer_in in Hj. rewrite (list_sum_firstn_S _ _ _ Hns) in Hj.
  set (off := list_sum (firstn j nsubs)) in *. set (k := l - off) in *.
  destruct d as [[dx dy] dz]. destruct Hu as [Hz _]. cbn in Hz. subst dz.
  assert (Hk : k < nsub) by lia.
  assert (Hsh : cell_shape (dx, dy, S nsub) = (Nat.max 1 (dx - 1), Nat.max 1 (dy - 1), nsub)).
  { unfold cell_shape. f_equal. lia. }
  cbn [setc] in Hc' |- *. rewrite Hsh in *.
  set (cx := Nat.max 1 (dx - 1)) in *. set (cy := Nat.max 1 (dy - 1)) in *.
  assert (Hnc : n_cells (dx, dy, 1) = cx * cy) by (unfold n_cells, cell_shape, size3; fold cx cy; simpl; lia).
  destruct Hc' as (Hx & Hy & _).
  assert (Hi : fidx (cx, cy, nsub) (x, y, k) = k * (cx * cy) + (x + cx * y)) by (unfold fidx; nia).
  assert (Hi0 : fidx (cell_shape (dx, dy, 1)) (x, y, 0) = x + cx * y).
  { unfold fidx, cell_shape. fold cx cy. nia. }
  assert (Hlt : x + cx * y < cx * cy) by nia.
  unfold at_coord. rewrite Hi, Hi0, Hnc, !nth_error_map.
  split; [|split].
  - pose proof (tile_nth_error (map Z.of_nat (seq 0 (cx * cy))) nsub k (x + cx * y)) as T.
    rewrite map_length, seq_length in T. rewrite T by auto.
    rewrite nth_error_map, nth_error_seq_lt by auto. reflexivity.
  - rewrite repeat_each_nth_error by auto.
    rewrite nth_error_map, nth_error_seq_lt by auto. cbn. repeat f_equal. lia.
  - exists j. split.
    + unfold layer_in. rewrite (list_sum_firstn_S _ _ _ Hns). fold off. lia.
    + rewrite nth_error_repeat_lt; [reflexivity|]. nia.
Qed.

Definition StackItem := "StackItem"%string.
Definition ExtrudeItem := "ExtrudeItem"%string.

Lemma layers_only {M B} (ops : mesh_ops M B) i j n : only_points ops i j -> layers_of j n -> layers_of i n.
Proof. intros (_ & E1 & E2 & _) (p & Hp & ->). exists p. rewrite <- E1, <- E2. auto. Qed.

Lemma layer_counts_only {M B} (ops : mesh_ops M B) rest rest' nsubs :
  Forall2 (only_points ops) rest rest' -> layer_counts rest' nsubs -> layer_counts rest nsubs.
Proof.
  intros HF [L H]. split; [rewrite L; symmetry; eapply Forall2_len; eauto|].
  intros j b Hb. destruct (Forall2_nth_error _ _ _ _ _ HF Hb) as (b' & Hb' & Ho).
  destruct (H j b' Hb') as (ns & H1 & H2). exists ns. split; auto. eapply layers_only; eauto.
Qed.

Lemma stack_structured_pre {D} (num : Z -> D) volumes o ax bu d items g groups n js :
  ax <= 2 -> unit_along ax d ->
  Forall (fun i => wf_base d (it_mesh i)) items ->
  Forall (fun it => it_trans it = false) (tl items) ->
  stack3d_structured num volumes o ax bu items = Ok (g, groups, n, js) ->
  exists i1 rest j1 rest' bs, items = i1 :: rest /\ rest <> [] /\ js = j1 :: rest' /\ rest' <> [] /\
    Forall2 (only_points (sops num)) items js /\
    Forall (fun i => wf_base d (it_mesh i)) js /\
    Forall (fun it => it_trans it = false) rest' /\
    gen_loop (sops num) o StackItem (extr volumes) (fun _ _ _ _ => Err NotImplementedError) 0 0 [] j1 rest'
      = Ok (bs, groups, n) /\
    merge_structured bs (Some ax) = Ok g.
Proof.
  intros Hax Hu Hw Ht H. apply stack_inv in H as (i1 & rest & j1 & rest' & bs & -> & Hne & -> & Hl & Hc & Hg & Hm).
  destruct (wf_after_cut num ax Hax d bu i1 rest (j1 :: rest') Hw Hc) as [H1 H2].
  exists i1, rest, j1, rest', bs. repeat (split; [assumption || reflexivity|]).
  assert (rest' <> []) by (destruct rest', rest; auto; simpl in Hl; congruence).
  split; [auto|]. split; [auto|]. split; [auto|]. split; [|split; [exact Hg|exact Hm]].
  inversion H1; subst. eapply only_points_trans; eauto.
Qed.

Lemma stack_ids_axis2 {D} (num : Z -> D) volumes o bu d items g groups n js :
  unit_along 2 d ->
  Forall (fun i => wf_base d (it_mesh i)) items ->
  Forall (fun it => it_trans it = false) (tl items) ->
  stack3d_structured num volumes o 2 bu items = Ok (g, groups, n, js) ->
  exists nsubs, layer_counts (tl items) nsubs /\ n = list_sum nsubs /\
    sg_dims g = setc 2 (S n) d /\ ids_of num d StackItem g nsubs.
Proof.
  intros Hu Hw Ht H.
  destruct (stack_structured_pre _ _ _ 2 _ _ _ _ _ _ _ (le_n 2) Hu Hw Ht H)
    as (i1 & rest & j1 & rest' & bs & -> & Hne & -> & Hne' & HF & Hw' & Ht' & Hg & Hm).
  destruct (ids_axis2 num volumes o StackItem d j1 rest' bs groups n g) as (nsubs & H1 & H2 & H3 & H4);
    auto; try discriminate.
  exists nsubs. split; auto. inversion HF; subst. simpl. eapply layer_counts_only; eauto.
Qed.

Lemma extrude_ids_axis2 {D} (num : Z -> D) volumes o d items g groups n :
  unit_along 2 d ->
  Forall (fun i => wf_base d (it_mesh i)) items ->
  Forall (fun it => it_trans it = false) (tl items) ->
  extrude_structured num volumes o items = Ok (g, groups, n) ->
  exists nsubs, layer_counts (tl items) nsubs /\ n = list_sum nsubs /\
    sg_dims g = setc 2 (S n) d /\ ids_of num d ExtrudeItem g nsubs.
Proof.
  intros Hu Hw Ht H. unfold extrude_structured in H.
  apply extrude_inv in H as (i1 & rest & bs & -> & Hne & Hg & Hm).
  assert (E : first_unit_axis (ss_dims (sb_surf (it_mesh i1))) = 2).
  { inversion Hw; subst. destruct H1 as (-> & _). apply (unit_along_dim 2); auto. }
  rewrite E in Hm.
  apply (ids_axis2 num volumes o ExtrudeItem d i1 rest bs groups n g); auto; discriminate.
Qed.

(* ---- groups ---- *)
Lemma groups_along {D} (num : Z -> D) volumes o ax name d i1 rest bs groups n g :
  ax <= 2 ->
  name <> "ColumnId"%string -> name <> "LayerId"%string -> name <> "CellGroup"%string ->
  rest <> [] -> unit_along ax d ->
  Forall (fun it => it_trans it = false) rest ->
  Forall (fun i => wf_base d (it_mesh i)) (i1 :: rest) ->
  gen_loop (sops num) o name (extr volumes) (fun _ _ _ _ => Err NotImplementedError) 0 0 [] i1 rest
    = Ok (bs, groups, n) ->
  merge_structured bs (Some ax) = Ok g ->
  numbered groups /\
  exists nsubs, layer_counts rest nsubs /\
  exists cg, In ("CellGroup"%string, cg) (sg_cd g) /\
    forall c, in_shape (cell_shape (sg_dims g)) c ->
      exists j a b k z, layer_in nsubs (comp ax c) j /\
        nth_error (i1 :: rest) j = Some a /\ nth_error rest j = Some b /\
        at_coord (cell_shape (sg_dims g)) cg c = Some (num z) /\ In (k, z) groups /\
        (forall s, it_group b = GStr s -> s <> ""%string -> plain s -> k = s) /\
        (it_group b = GNone ->
           base_name (labelled (gview (sops num) (it_mesh a))) (ignore_groups o)
             (the_default o "") (fidx (cell_shape d) (setc ax 0 c)) k).
Proof.
  intros Hax N1 N2 N3 Hne Hu Ht Hw Hg Hm.
  destruct (generated_cells num volumes ax Hax d Hu _ _ _ _ _ _ _ _ N1 N2 N3 Hne Ht Hw Hg Hm)
    as (Hnum & nsubs & Ln & En & HL & Hd & col & lay & itm & cg & _ & _ & _ & Hcg & HC).
  split; [auto|]. exists nsubs. split; [split; auto|]. exists cg. split; auto.
  intros c Hin.
  destruct (HC _ Hin) as (j & a & b & arr & gj & gj' & nsub & Hj & Ha & Hb & Hi & G1 & G2 & G3 & La & Hns & Hc' & _ & _ & _ & E).
  assert (Wa : wf_base d (it_mesh a)).
  { rewrite Forall_forall in Hw. apply Hw. eapply nth_error_In; eauto. }
  assert (Hal : aligned (gview (sops num) (it_mesh a))) by (apply (base_aligned num d); auto).
  assert (Hgc : length (gm_cells (gview (sops num) (it_mesh a))) = n_cells d).
  { cbn. rewrite seq_length. destruct Wa as (-> & _); auto. }
  set (i0 := fidx (cell_shape d) (setc ax 0 c)) in *.
  assert (Hi0 : i0 < n_cells d).
  { unfold i0, n_cells.
    assert (Hsh : in_shape (cell_shape d) (setc ax 0 c)).
    { rewrite Hd, cell_shape_setc in Hin.
      rewrite <- (setc_comp ax (cell_shape d)).
      apply (in_shape_swap ax _ _ _ c _ Hin); [rewrite setc_setc; auto|].
      rewrite cell_shape_comp. lia. }
    apply fidx_lt; auto. }
  destruct (initialize_spec _ _ _ _ _ _ _ G1 Hal Hi) as (_ & _ & _ & kms & gb & _ & _ & _ & _ & _ & _).
  assert (Hname : exists k, named gj' arr i0 k /\
      (forall s, it_group b = GStr s -> s <> ""%string -> plain s -> k = s) /\
      (it_group b = GNone -> base_name (labelled (gview (sops num) (it_mesh a))) (ignore_groups o)
             (the_default o "") i0 k)).
  { destruct (it_group b) as [|s|dd] eqn:Eg.
    - destruct (base_groups_kept o (gview (sops num) (it_mesh a)) gj "" G1 Hal) as (arr' & t' & H1 & _ & H2).
      rewrite Hi in H1. apply Ok_inj in H1. injection H1 as <- <-.
      destruct (H2 i0) as (k & Hk & Hb'); [lia|]. exists k. repeat split; auto. discriminate.
    - destruct (every_cell_named _ _ _ _ _ _ _ G1 Hal Hi) as [L Hk].
      destruct (Hk i0) as [k Hk']; [lia|].
      destruct (String.eqb_spec s "") as [->|Hs].
      { exists k. repeat split; auto; try discriminate. intros s [= <-]. congruence. }
      destruct (plain_dec s) as [Hpl|Hpl].
      + destruct (string_group_overrides o (gview (sops num) (it_mesh a)) gj s "" G1 Hal Hs Hpl)
          as (arr' & t' & H1 & _ & H2).
        rewrite Hi in H1. apply Ok_inj in H1. injection H1 as <- <-.
        exists s. split; [apply H2; lia|]. split; [intros ? [= <-]; auto|discriminate].
      + exists k. repeat split; auto; try discriminate. intros s' [= <-]. contradiction.
    - destruct (every_cell_named _ _ _ _ _ _ _ G1 Hal Hi) as [L Hk].
      destruct (Hk i0) as [k Hk']; [lia|]. exists k. repeat split; auto; discriminate. }
  destruct Hname as (k & (z & Hz & Hkz) & Hs & Hnone).
  exists j, a, b, k, z. repeat (split; [assumption|]).
  split.
  - rewrite E. unfold at_coord. fold i0. rewrite nth_error_map, Hz. reflexivity.
  - split; [|auto]. destruct G3 as [ext ->]. apply in_or_app; auto.
Qed.

Lemma stack_groups {D} (num : Z -> D) volumes o ax bu d items g groups n js :
  ax <= 2 -> unit_along ax d ->
  Forall (fun i => wf_base d (it_mesh i)) items ->
  Forall (fun it => it_trans it = false) (tl items) ->
  stack3d_structured num volumes o ax bu items = Ok (g, groups, n, js) ->
  numbered groups /\
  exists nsubs, layer_counts (tl items) nsubs /\
  exists cg, In ("CellGroup"%string, cg) (sg_cd g) /\
    forall c, in_shape (cell_shape (sg_dims g)) c ->
      exists j a b k z, layer_in nsubs (comp ax c) j /\
        nth_error items j = Some a /\ nth_error items (S j) = Some b /\
        at_coord (cell_shape (sg_dims g)) cg c = Some (num z) /\ In (k, z) groups /\
        (forall s, it_group b = GStr s -> s <> ""%string -> plain s -> k = s) /\
        (it_group b = GNone ->
           base_name (labelled (gview (sops num) (it_mesh a))) (ignore_groups o)
             (the_default o "") (fidx (cell_shape d) (setc ax 0 c)) k).
Proof.
  intros Hax Hu Hw Ht H.
  destruct (stack_structured_pre _ _ _ _ _ _ _ _ _ _ _ Hax Hu Hw Ht H)
    as (i1 & rest & j1 & rest' & bs & -> & Hne & -> & Hne' & HF & Hw' & Ht' & Hg & Hm).
  destruct (groups_along num volumes o ax StackItem d j1 rest' bs groups n g) as (Hn & nsubs & H1 & cg & H2 & H3);
    auto; try discriminate.
  split; auto. exists nsubs. split.
  { inversion HF; subst. simpl. eapply layer_counts_only; eauto. }
  exists cg. split; auto. intros c Hc.
  destruct (H3 c Hc) as (j & a & b & k & z & Hj & Ha & Hb & R1 & R2 & R3 & R4).
  destruct (Forall2_nth_error_r _ _ _ _ _ HF Ha) as (a0 & Ha0 & Oa).
  destruct (Forall2_nth_error_r _ _ _ (S j) b HF Hb) as (b0 & Hb0 & Ob).
  exists j, a0, b0, k, z. repeat (split; [assumption|]).
  destruct Ob as (_ & _ & _ & _ & _ & Eg & _). rewrite <- Eg. split; [auto|].
  intros Hn0. specialize (R4 Hn0). destruct Oa as (Em & _). rewrite Em in R4. exact R4.
Qed.

Lemma extrude_groups {D} (num : Z -> D) volumes o ax d items g groups n :
  ax <= 2 -> unit_along ax d ->
  Forall (fun i => wf_base d (it_mesh i)) items ->
  Forall (fun it => it_trans it = false) (tl items) ->
  extrude_structured num volumes o items = Ok (g, groups, n) ->
  numbered groups /\
  exists nsubs, layer_counts (tl items) nsubs /\
  exists cg, In ("CellGroup"%string, cg) (sg_cd g) /\
    forall c, in_shape (cell_shape (sg_dims g)) c ->
      exists j a b k z, layer_in nsubs (comp ax c) j /\
        nth_error items j = Some a /\ nth_error items (S j) = Some b /\
        at_coord (cell_shape (sg_dims g)) cg c = Some (num z) /\ In (k, z) groups /\
        (forall s, it_group b = GStr s -> s <> ""%string -> plain s -> k = s) /\
        (it_group b = GNone ->
           base_name (labelled (gview (sops num) (it_mesh a))) (ignore_groups o)
             (the_default o "") (fidx (cell_shape d) (setc ax 0 c)) k).
Proof.
  intros Hax Hu Hw Ht H. unfold extrude_structured in H.
  apply extrude_inv in H as (i1 & rest & bs & -> & Hne & Hg & Hm).
  assert (E : first_unit_axis (ss_dims (sb_surf (it_mesh i1))) = ax).
  { inversion Hw; subst. destruct H1 as (-> & _). apply (unit_along_dim ax); auto. }
  rewrite E in Hm.
  apply (groups_along num volumes o ax ExtrudeItem d i1 rest bs groups n g); auto; discriminate.
Qed.

(* ---- C39 ---- *)


Lemma int_spans {M} (it : item M) g :
  (it_res it = ResNone \/ exists z, it_res it = ResInt z) -> names_method (it_method it) g ->
  positions_span it.
Proof.
  intros Hr Hm. unfold positions_span.
  assert (exists z, resolution_to_perc (it_res it) (it_method it) = resolution_to_perc (ResInt z) (it_method it))
    as [z ->].
  { destruct Hr as [->|[z ->]]; [exists 1%Z; apply perc_none|exists z; auto]. }
  destruct (perc_proper z _ _ Hm) as (p & Hp & L & H0 & H1 & _).
  exists p. rewrite Hp, L. repeat split; auto; [|replace (S _ - 1) with (Z.to_nat (Z.max 1 z)) by lia; auto].
  lia.
Qed.

Lemma stack_defined {D} (num : Z -> D) volumes o ax bu d items :
  ax <= 2 -> unit_along ax d -> 2 <= length items ->
  Forall (fun i => wf_base d (it_mesh i)) items ->
  Forall (fun it => it_trans it = false /\ positions_span it /\ group_by_name it) (tl items) ->
  exists g groups n js, stack3d_structured num volumes o ax bu items = Ok (g, groups, n, js).
Proof.
  intros Hax Hu H2 Hw Ht. destruct items as [|i1 [|i2 rest]]; simpl in H2; try lia. clear H2.
  set (r := i2 :: rest) in *. cbn [tl] in Ht.
  destruct (cut_loop_defined (sops num) (sops_lawful num) ax bu (size3 d) r i1) as [js Hc].
  { intros i Hi. rewrite Forall_forall in Hw. apply (Hw i Hi). }
  destruct (wf_after_cut num ax Hax d bu i1 r js Hw Hc) as [HF HW].
  destruct (cut_loop_cons _ _ _ _ _ _ Hc) as (j1 & rest' & -> & Hl).
  assert (HF' : Forall2 (only_points (sops num)) r rest') by (inversion HF; auto).
  assert (HP : Forall (fun it => it_trans it = false /\ positions_span it /\ group_by_name it) rest').
  { clear -HF' Ht. revert Ht; induction HF' as [|i j l l' Ho HF IH]; intros Ht; constructor;
      inversion Ht as [|? ? Hi Hl]; subst; auto.
    destruct Ho as (_ & E1 & E2 & _ & _ & E3 & E4). unfold positions_span, group_by_name in *.
    rewrite E1, E2, E3, E4. auto. }
  destruct (structured_defined num volumes ax Hax d Hu o "StackItem"%string j1 rest')
    as (bs & groups & n & g & Hg & Hm); try discriminate; auto.
  - destruct rest'; [simpl in Hl; lia|discriminate].
  - eapply Forall_impl; [|exact HP]. cbn; tauto.
  - eapply Forall_impl; [|exact HP]. cbn; tauto.
  - eapply Forall_impl; [|exact HP]. cbn; tauto.
  - exists g, groups, n, (j1 :: rest'). unfold stack3d_structured, stack_generate, r in *. rewrite Hc.
    cbn [bind]. unfold extr in Hg. rewrite Hg. cbn [bind]. rewrite Hm. reflexivity.
Qed.

Lemma extrude_defined {D} (num : Z -> D) volumes o ax d items :
  ax <= 2 -> unit_along ax d -> 2 <= length items ->
  Forall (fun i => wf_base d (it_mesh i)) items ->
  Forall (fun it => it_trans it = false /\ positions_span it /\ group_by_name it) (tl items) ->
  exists g groups n, extrude_structured num volumes o items = Ok (g, groups, n).
Proof.
  intros Hax Hu H2 Hw HP. destruct items as [|i1 [|i2 rest]]; simpl in H2; try lia. clear H2.
  cbn [tl] in HP.
  assert (E : first_unit_axis (ss_dims (sb_surf (it_mesh i1))) = ax).
  { inversion Hw; subst. destruct H1 as (-> & _). apply (unit_along_dim ax); auto. }
  destruct (structured_defined num volumes ax Hax d Hu o "ExtrudeItem"%string i1 (i2 :: rest))
    as (bs & groups & n & g & Hg & Hm); try discriminate; auto.
  - eapply Forall_impl; [|exact HP]. cbn; tauto.
  - eapply Forall_impl; [|exact HP]. cbn; tauto.
  - eapply Forall_impl; [|exact HP]. cbn; tauto.
  - exists g, groups, n. unfold extrude_structured, extrude_generate. rewrite E.
    unfold extr in Hg. rewrite Hg. cbn [bind]. rewrite Hm. reflexivity.
Qed.

(* every surface of the stack (after the cut) is a layer of points of the mesh *)
Lemma surfaces_are_layers {D} (num : Z -> D) volumes o ax name d i1 rest bs groups n g :
  ax <= 2 ->
  name <> "ColumnId"%string -> name <> "LayerId"%string -> name <> "CellGroup"%string ->
  rest <> [] -> unit_along ax d ->
  Forall (fun it => it_trans it = false) rest -> Forall positions_span rest ->
  Forall (fun i => wf_base d (it_mesh i)) (i1 :: rest) ->
  gen_loop (sops num) o name (extr volumes) (fun _ _ _ _ => Err NotImplementedError) 0 0 [] i1 rest
    = Ok (bs, groups, n) ->
  merge_structured bs (Some ax) = Ok g ->
  exists nsubs, layer_counts rest nsubs /\ n = list_sum nsubs /\ sg_dims g = setc ax (S n) d /\
    forall j a c, nth_error (i1 :: rest) j = Some a -> in_shape d c ->
      at_coord (sg_dims g) (sg_pts g) (setc ax (list_sum (firstn j nsubs)) c)
      = at_coord d (points (sops num) a) c.
Proof.
  intros Hax N1 N2 N3 Hne Hu Ht Hs Hw Hg Hm.
  destruct (generated_points num volumes ax Hax d Hu _ _ _ _ _ _ _ _ N1 N2 N3 Hne Ht Hw Hg Hm)
    as (nsubs & Ln & En & Hd & HL & HP).
  exists nsubs. split; [split; auto|]. split; [auto|split; [auto|]].
  rewrite Forall_forall in Hs.
  intros j a c Ha Hc. destruct j as [|j].
  - destruct rest as [|b rest]; [congruence|].
    destruct (Hs b) as (perc & Hp & Hp2 & H0 & _); [simpl; auto|].
    destruct (HP 0 a b perc 0 0%R c Ha eq_refl Hp H0 (or_introl eq_refl) Hc) as (p & q & H1 & H2 & H3).
    cbn [firstn] in *. change (list_sum []) with 0 in *. cbn [Nat.add] in H3.
    rewrite H3, H1, lerp_0. reflexivity.
  - cbn [nth_error] in Ha.
    destruct (nth_error (i1 :: rest) j) as [a0|] eqn:Ha0.
    2:{ apply nth_error_None in Ha0. assert (j < length rest) by (apply nth_error_Some; congruence). simpl in Ha0. lia. }
    destruct (Hs a) as (perc & Hp & Hp2 & _ & H1); [eapply nth_error_In; eauto|].
    destruct (HL j a Ha) as (ns & Hns & perc' & Hp' & Ens). rewrite Hp in Hp'. injection Hp' as <-.
    destruct (HP j a0 a perc _ 1%R c Ha0 Ha Hp H1 ltac:(right; lia) Hc) as (p & q & H3 & H4 & H5).
    rewrite (list_sum_firstn_S _ _ _ Hns). rewrite Ens, H5, H4, lerp_1. reflexivity.
Qed.

Lemma stack_surfaces {D} (num : Z -> D) volumes o ax bu d items g groups n js :
  ax <= 2 -> unit_along ax d ->
  Forall (fun i => wf_base d (it_mesh i)) items ->
  Forall (fun it => it_trans it = false /\ positions_span it) (tl items) ->
  stack3d_structured num volumes o ax bu items = Ok (g, groups, n, js) ->
  exists nsubs, layer_counts (tl items) nsubs /\ n = list_sum nsubs /\ sg_dims g = setc ax (S n) d /\
    Forall2 (only_points (sops num)) items js /\
    forall j a c, nth_error js j = Some a -> in_shape d c ->
      at_coord (sg_dims g) (sg_pts g) (setc ax (list_sum (firstn j nsubs)) c)
      = at_coord d (points (sops num) a) c.
Proof.
  intros Hax Hu Hw Ht H.
  assert (Ht1 : Forall (fun it => it_trans it = false) (tl items)) by (eapply Forall_impl; [|exact Ht]; cbn; tauto).
  destruct (stack_structured_pre _ _ _ _ _ _ _ _ _ _ _ Hax Hu Hw Ht1 H)
    as (i1 & rest & j1 & rest' & bs & -> & Hne & -> & Hne' & HF & Hw' & Ht' & Hg & Hm).
  assert (HF' : Forall2 (only_points (sops num)) rest rest') by (inversion HF; auto).
  destruct (surfaces_are_layers num volumes o ax StackItem d j1 rest' bs groups n g) as (nsubs & H1 & H2 & H3 & H4);
    auto; try discriminate.
  { cbn [tl] in Ht. clear -HF' Ht. revert Ht; induction HF' as [|i j l l' Ho HF IH]; intros Ht; constructor;
      inversion Ht as [|? ? Hi Hl]; subst; auto.
    destruct Ho as (_ & E1 & E2 & _). unfold positions_span in *. rewrite E1, E2. tauto. }
  exists nsubs. split; [cbn [tl]; eapply layer_counts_only; eauto|]. auto.
Qed.

Lemma extrude_surfaces {D} (num : Z -> D) volumes o ax d items g groups n :
  ax <= 2 -> unit_along ax d ->
  Forall (fun i => wf_base d (it_mesh i)) items ->
  Forall (fun it => it_trans it = false /\ positions_span it) (tl items) ->
  extrude_structured num volumes o items = Ok (g, groups, n) ->
  exists nsubs, layer_counts (tl items) nsubs /\ n = list_sum nsubs /\ sg_dims g = setc ax (S n) d /\
    forall j a c, nth_error items j = Some a -> in_shape d c ->
      at_coord (sg_dims g) (sg_pts g) (setc ax (list_sum (firstn j nsubs)) c)
      = at_coord d (points (sops num) a) c.
Proof.
  intros Hax Hu Hw Ht H. unfold extrude_structured in H.
  apply extrude_inv in H as (i1 & rest & bs & -> & Hne & Hg & Hm).
  assert (E : first_unit_axis (ss_dims (sb_surf (it_mesh i1))) = ax).
  { inversion Hw; subst. destruct H1 as (-> & _). apply (unit_along_dim ax); auto. }
  rewrite E in Hm.
  apply (surfaces_are_layers num volumes o ax ExtrudeItem d i1 rest bs groups n g); auto; try discriminate;
    (eapply Forall_impl; [|exact Ht]; cbn; tauto).
Qed.
