From Verif Require Import RealAux Perc_model Perc_spec Perc_proof Surface_model Surface_spec Surface_proof
  Volume_model Volume_spec SMerge_model SMerge_spec SMerge_proof Groups_model Groups_spec Groups_proof Groups2_proof
  Lines_model Polygon_model Stack_model Stack_spec Cut_proof Gen_proof Stack_proof Stack2_proof Stack3_proof Stack4_proof
  Stack5_proof Stack6_proof Stack7_proof Trans_model Trans_spec Trans1_proof Trans2_proof.
From Verif Require Polygon_spec Polygon5_proof.
From Coq Require Import Lra.
Open Scope nat_scope.

Lemma al0 n : aligned (mkG (seq 0 n) None None : gmesh nat).
Proof. exact I. Qed.

Section T.
Context {D : Type} (num : Z -> D) (gm : gmsh) (result : list gop -> gmsh_mesh).
Notation ops := (tops num).
Notation trans := (transition num gm result).
Notation gmesh_of ring := (polygon gm result false None "gmsh" (Some "triangle"%string) ring []).

Lemma tops_lawful : lawful ops.
Proof. exact (lops_lawful num). Qed.

Lemma transition_inv o a b groups grp blk g' :
  trans o a b groups grp = Ok (blk, g') ->
  exists t pts cells arr,
    gmesh_of (transition_ring a b) = (t, Ok (Meshed pts cells)) /\
    initialize_group_array o (mkG (seq 0 (length (flat_map snd cells))) None None) groups grp "" = Ok (arr, g') /\
    blk = BTri pts (flat_map snd cells) [("CellGroup"%string, map num arr)].
Proof.
  unfold transition. destruct (gmesh_of _) as [t [[|pts cells]|]] eqn:E; cbn [snd bind]; try discriminate.
  destruct (initialize_group_array _ _ _ _ _) as [[arr g2]|] eqn:Hi; [|discriminate]. cbn [bind fst snd].
  intros [= <- <-]. exists t, pts, cells, arr. auto.
Qed.

Lemma transition_keeps o a b g grp blk g' : numbered g -> trans o a b g grp = Ok (blk, g') ->
  numbered g' /\ extends g g'.
Proof.
  intros Hn H. apply transition_inv in H as (t & pts & cells & arr & _ & Hi & _).
  destruct (initialize_spec _ _ _ _ _ _ _ Hn (al0 _) Hi) as (? & ? & _). auto.
Qed.

(* identifiers of the cells of a transition *)
Lemma put_uniform name i off pts cells cd : name <> "ColumnId"%string -> name <> "LayerId"%string ->
  exists cd', put_transition ops name i off (BTri pts cells cd) = BTri pts cells cd' /\
    uniform_ids num name (length cells) (-1) (Z.of_nat off) (Z.of_nat i) cd' /\
    (forall v, In ("CellGroup"%string, v) cd -> name <> "CellGroup"%string -> In ("CellGroup"%string, v) cd').
Proof.
  intros N1 N2. unfold put_transition. cbn [put_ids ncB tops]. eexists. split; [reflexivity|]. split.
  - do 3 eexists.
    split; [apply aput_other; [auto|]; apply aput_other; [discriminate|]; apply aput_In|].
    split; [apply aput_other; [auto|]; apply aput_In|].
    split; [apply aput_In|].
    rewrite !map_length, !repeat_length. repeat (split; [reflexivity|]).
    intros c Hc. rewrite !nth_error_map, !nth_error_repeat by auto. auto.
  - intros v Hv N3. apply aput_other; [auto|]. apply aput_other; [discriminate|]. apply aput_other; [discriminate|]. exact Hv.
Qed.

(* one block of a stack of lines *)
Lemma one_line_block areas o name ax j off nsub a b arr gj gj' b0 :
  1 <= ax <= 2 -> name <> "ColumnId"%string -> name <> "LayerId"%string ->
  wf_lbase (it_mesh a) -> numbered gj ->
  initialize_group_array o (gview (lops num) (it_mesh a)) gj (it_group b) "" = Ok (arr, gj') ->
  generate_surface_from_two_lines areas (LinePoly (lb_line (set_cg (lops num) arr (it_mesh a))))
    (LinePoly (lb_line (it_mesh b))) (stack2d_plane ax) (it_res b) (it_method b) = Ok b0 ->
  ncM (lops num) (set_cg (lops num) arr (it_mesh a)) <> 0 ->
  ncB (lops num) b0 = nsub * ncM (lops num) (set_cg (lops num) arr (it_mesh a)) ->
  layers_of b nsub /\
  line_block_ids num name ax nsub (lb_nc (it_mesh a)) off j
    (put_all (lops num) (numbered_ids name j off nsub (ncM (lops num) (set_cg (lops num) arr (it_mesh a)))) b0).
Proof.
  intros Hax N1 N2 Wa H2 H1 H5 H7 H8.
  assert (Larr : length arr = lb_nc (it_mesh a)).
  { destruct (initialize_spec _ _ _ _ _ _ _ H2 (lb_align num _ Wa) H1) as (_ & _ & L & _).
    rewrite L. cbn. apply seq_length. }
  destruct Wa as (W1 & W2 & W3).
  pose proof H5 as H5'.
  apply surface_coords in H5 as (pa & pb & perc & la & lb & Hpa & _ & _ & Hp & Hpl & Hd & _ & _).
  apply get_points_length in Hpa. cbn [set_cg lops lb_line ln_ids] in Hpa.
  assert (la = 0 /\ lb = ax) as [-> ->].
  { destruct ax as [|[|[|]]]; try lia; cbn in Hpl; inversion Hpl; auto. }
  destruct (surface_data_inv _ _ _ _ _ _ _ H5') as (perc' & Hp' & _ & _ & _ & Hcd).
  rewrite Hp in Hp'. injection Hp' as <-.
  cbn [set_cg lops lb_line ln_cd ncM lb_nc ncB] in *.
  assert (Hlen : length (tile (map num arr) (length perc - 1)) = n_cells (sg_dims b0)).
  { apply (Hcd "CellGroup"%string). apply aput_In. }
  rewrite tile_length, map_length, Larr in Hlen.
  assert (Hnp : length pa = S (lb_nc (it_mesh a))) by lia.
  assert (Hns : nsub = length perc - 1).
  { rewrite <- Hlen in H8. apply Nat.mul_cancel_r in H8; auto. }
  assert (Hperc : length perc = S nsub).
  { assert (nsub <> 0); [|lia]. intros E0. rewrite E0, Hd in H8.
    pose proof (n_cells_pos (grid_dims 0 ax (length pa) (length perc))). lia. }
  split; [exists perc; auto|].
  rewrite Hnp, Hperc in Hd.
  assert (Hcells : forall i l, i < lb_nc (it_mesh a) -> l < nsub ->
    fidx (cell_shape (sg_dims b0)) (grid_coord 0 ax i l) = l * lb_nc (it_mesh a) + i).
  { intros i l Hi Hl. rewrite Hd. unfold fidx, cell_shape, grid_dims, grid_coord.
    destruct ax as [|[|[|]]]; try lia; cbn -[Nat.max Nat.mul Nat.sub].
    - rewrite (Nat.max_r 1 (S (lb_nc (it_mesh a)) - 1)) by lia. nia.
    - rewrite (Nat.max_r 1 (S (lb_nc (it_mesh a)) - 1)) by lia.
      replace (Nat.max 1 (1 - 1)) with 1 by reflexivity. nia. }
  split; [exact Hd|].
  destruct (put_block_ids num name nsub (lb_nc (it_mesh a)) off j (sg_cd b0) N1 N2)
    as (col & lay & itm & I1 & I2 & I3 & _ & _ & _ & HB).
  exists col, lay, itm. repeat (split; [assumption|]).
  intros i l Hi Hl. unfold at_coord.
  cbn [put_all numbered_ids fold_left fst snd put_ids lops sg_dims]. rewrite Hcells by auto. apply HB; auto.
Qed.

Lemma put_all_grid ids g : put_all ops ids (BGrid g) = BGrid (put_all (lops num) ids g).
Proof. unfold put_all. revert g. induction ids as [|[k v] ids IH]; intros g; cbn; [reflexivity|apply IH]. Qed.

Lemma named_extends t t' arr c k : extends t t' -> named t arr c k -> named t' arr c k.
Proof. intros [e ->] (z & H1 & H2). exists z. rewrite in_app_iff. auto. Qed.

(* what a transition block is *)
Definition transition_block (groups : table) (a b : item (lbase D)) (off j : nat) (o : options) (blk : block D) : Prop :=
  exists t pts cells cd cg,
    blk = BTri pts (flat_map snd cells) cd /\
    gmesh_of (transition_ring (it_mesh a) (it_mesh b)) = (t, Ok (Meshed pts cells)) /\
    uniform_ids num "StackItem" (length (flat_map snd cells)) (-1) (Z.of_nat off) (Z.of_nat j) cd /\
    In ("CellGroup"%string, map num cg) cd /\ length cg = length (flat_map snd cells) /\
    (it_group b = GNone -> forall c, c < length cg -> named groups cg c (default_group o)) /\
    (forall s, it_group b = GStr s -> s <> ""%string -> plain s -> forall c, c < length cg -> named groups cg c s).

Lemma gen_trans areas o ax i1 rest bs groups n :
  1 <= ax <= 2 ->
  Forall (fun i => wf_lbase (it_mesh i)) (i1 :: rest) ->
  gen_loop ops o "StackItem"
    (fun a b r m => let! g := generate_surface_from_two_lines areas (LinePoly (lb_line a))
                                (LinePoly (lb_line b)) (stack2d_plane ax) r m in Ok (BGrid g))
    (trans o) 0 0 [] i1 rest = Ok (bs, groups, n) ->
  exists nsubs, length nsubs = length rest /\ length bs = length rest /\ n = list_sum nsubs /\
    forall j a b, nth_error (i1 :: rest) j = Some a -> nth_error rest j = Some b ->
      exists ns blk, nth_error nsubs j = Some ns /\ nth_error bs j = Some blk /\
      (it_trans b = true -> ns = 1 /\ transition_block groups a b (list_sum (firstn j nsubs)) j o blk) /\
      (it_trans b = false -> layers_of b ns /\ exists g, blk = BGrid g /\
         line_block_ids num "StackItem" ax ns (lb_nc (it_mesh a)) (list_sum (firstn j nsubs)) j g).
Proof.
  intros Hax Hal Hg.
  destruct (gen_blocks ops o _ _ (trans o) rest (fun a b g grp blk g' => transition_keeps o a b g grp blk g') 0 0 [] i1 bs groups n
    numbered_nil (Forall_impl _ (fun i => lb_align num (it_mesh i)) Hal) Hg)
    as (_ & _ & nsubs & Ln & Lb & En & HJ).
  exists nsubs. split; [exact Ln|]. split; [exact Lb|]. split; [exact En|].
  intros j a b Ha Hb.
  destruct (HJ j a b Ha Hb) as (arr & gj & g1 & b0 & nsub & blk & H1 & H2 & H3 & H4 & H5 & H6 & HT & HF).
  exists nsub, blk. split; [exact H5|]. split; [exact H6|].
  assert (Wa : wf_lbase (it_mesh a)).
  { rewrite Forall_forall in Hal. apply Hal. eapply nth_error_In; eauto. }
  split.
  - intros T. destruct (HT T) as (T1 & (g2 & T2 & T3) & T4). split; [exact T1|].
    apply transition_inv in T2 as (t & pts & cells & arr2 & P1 & P2 & P3). subst b0.
    destruct (put_uniform "StackItem" j (list_sum (firstn j nsubs)) pts (flat_map snd cells)
      [("CellGroup"%string, map num arr2)]) as (cd' & C1 & C2 & C3); try discriminate.
    change (0 + j) with j in T4. change (0 + list_sum (firstn j nsubs)) with (list_sum (firstn j nsubs)) in T4.
    exists t, pts, cells, cd', arr2. split; [rewrite T4; exact C1|]. split; [exact P1|]. split; [exact C2|].
    split; [apply C3; [left; reflexivity|discriminate]|].
    destruct (every_cell_named o (mkG (seq 0 (length (flat_map snd cells))) None None) g1 (it_group b) ""%string arr2 g2 H3 (al0 _) P2)
      as [L _]. cbn [gm_cells] in L. rewrite seq_length in L.
    split; [exact L|]. split.
    + intros Eg c Hc. rewrite Eg in P2.
      destruct (base_groups_kept o (mkG (seq 0 (length (flat_map snd cells))) None None) g1 ""%string H3 (al0 _)) as (arr3 & t3 & Q1 & Q2 & Q3).
      rewrite P2 in Q1. injection Q1 as <- <-.
      destruct (Q3 c) as (k & K1 & K2); [cbn [gm_cells]; rewrite seq_length; lia|].
      cbn in K2. inversion K2 as [? ? ? E|]; [discriminate E|]. subst k.
      eapply named_extends; [exact T3|]. exact K1.
    + intros s Eg Hs Hpl c Hc. rewrite Eg in P2.
      destruct (string_group_overrides o (mkG (seq 0 (length (flat_map snd cells))) None None) g1 s ""%string H3 (al0 _) Hs Hpl) as (arr3 & t3 & Q1 & Q2 & Q3).
      rewrite P2 in Q1. injection Q1 as <- <-.
      eapply named_extends; [exact T3|]. apply Q3. cbn [gm_cells]. rewrite seq_length. lia.
  - intros F. destruct (HF F) as (F1 & F2 & F3 & F4).
    destruct (generate_surface_from_two_lines areas _ _ _ _ _) as [gb|] eqn:Hs in F1; [|discriminate].
    cbn [bind] in F1. injection F1 as <-.
    change (0 + j) with j in F4. change (0 + list_sum (firstn j nsubs)) with (list_sum (firstn j nsubs)) in F4.
    rewrite put_all_grid in F4.
    destruct (one_line_block areas o "StackItem" ax j (list_sum (firstn j nsubs)) nsub a b arr gj g1 gb)
      as [X1 X2]; auto; try discriminate.
    split; [exact X1|]. exists (put_all (lops num) (numbered_ids "StackItem" j (list_sum (firstn j nsubs)) nsub
         (ncM (lops num) (set_cg (lops num) arr (it_mesh a)))) gb). auto.
Qed.
End T.

Lemma stack2d_trans_inv {D} (num : Z -> D) gm result areas pvmerge o ax bu items g groups n js :
  stack2d_generate num gm result areas pvmerge o ax bu items = Ok (g, groups, n, js) ->
  exists i1 rest j1 rest' bs, items = i1 :: rest /\ rest <> [] /\ js = j1 :: rest' /\
    cut_loop (tops num) ax bu i1 rest = Ok js /\
    gen_loop (tops num) o "StackItem"
    (fun a b r m => let! g := generate_surface_from_two_lines areas (LinePoly (lb_line a))
                                (LinePoly (lb_line b)) (stack2d_plane ax) r m in Ok (BGrid g))
    (transition num gm result o) 0 0 [] j1 rest' = Ok (bs, groups, n) /\
    merge_blocks pvmerge ax bs = Ok g.
Proof.
  unfold stack2d_generate, stack_generate.
  destruct items as [|i1 [|i2 rest]]; try discriminate.
  destruct (cut_loop _ _ _ _ _) as [js'|] eqn:Hc; [|discriminate]. cbn [bind].
  destruct js' as [|j1 rest']; [discriminate|].
  destruct (gen_loop _ _ _ _ _ _ _ _ _ _) as [[[bs gs] n']|] eqn:Hg; [|discriminate]. cbn [bind].
  destruct (merge_blocks _ _ _) as [m|] eqn:Hm; [|discriminate]. cbn [bind].
  intros [= <- <- <- <-]. exists i1, (i2 :: rest), j1, rest', bs. repeat split; auto. discriminate.
Qed.

Lemma wf_lbase_only {D} (num : Z -> D) i j : only_points (tops num) i j -> wf_lbase (it_mesh i) -> wf_lbase (it_mesh j).
Proof. intros (E & _) (W1 & W2 & W3). rewrite E. repeat split; auto. Qed.

Lemma Forall2_only_wf {D} (num : Z -> D) l l' :
  Forall2 (fun i j => only_points (tops num) i j /\ length (points (tops num) j) = length (points (tops num) i)) l l' ->
  Forall (fun i => wf_lbase (it_mesh i)) l -> Forall (fun i => wf_lbase (it_mesh i)) l'.
Proof.
  induction 1 as [|i j l l' (Ho & _) HF IH]; intros HW; constructor; inversion HW; subst; auto.
  eapply wf_lbase_only; eauto.
Qed.

(* C35, C129, C130 *)
Lemma transition_ids {D} (num : Z -> D) gm result areas pvmerge o ax bu items g groups n js :
  1 <= ax <= 2 ->
  Forall (fun i => wf_lbase (it_mesh i)) items ->
  stack2d_generate num gm result areas pvmerge o ax bu items = Ok (g, groups, n, js) ->
  Forall2 (only_points (tops num)) items js /\
  exists bs nsubs, merge_blocks pvmerge ax bs = Ok g /\
    length nsubs = length (tl items) /\ length bs = length (tl items) /\ n = list_sum nsubs /\
    forall j a b, nth_error js j = Some a -> nth_error (tl js) j = Some b ->
      exists ns blk, nth_error nsubs j = Some ns /\ nth_error bs j = Some blk /\
      (it_trans b = true -> ns = 1 /\ transition_block num gm result groups a b (list_sum (firstn j nsubs)) j o blk) /\
      (it_trans b = false -> layers_of b ns /\ exists g, blk = BGrid g /\
         line_block_ids num "StackItem" ax ns (lb_nc (it_mesh a)) (list_sum (firstn j nsubs)) j g).
Proof.
  intros Hax HW H.
  apply stack2d_trans_inv in H as (i1 & rest & j1 & rest' & bs & -> & Hne & -> & Hc & Hg & Hm).
  pose proof (cut_loop_sizes _ (tops_lawful num) _ _ _ _ _ Hc) as HF.
  assert (HF' : Forall2 (only_points (tops num)) (i1 :: rest) (j1 :: rest')).
  { clear -HF. induction HF as [|? ? ? ? [? _] ? ?]; constructor; auto. }
  split; [exact HF'|].
  destruct (gen_trans num gm result areas o ax j1 rest' bs groups n Hax (Forall2_only_wf _ _ _ HF HW) Hg)
    as (nsubs & L1 & L2 & L3 & HJ).
  apply Forall2_len in HF'. simpl in HF'. injection HF' as HF'.
  exists bs, nsubs. cbn [tl]. split; [exact Hm|]. split; [lia|]. split; [lia|]. split; [exact L3|]. exact HJ.
Qed.

(* ---- the outline of a transition ---- *)
Lemma row_inj p q : row p = row q -> p = q.
Proof. destruct p as [[? ?] ?], q as [[? ?] ?]. cbn. congruence. Qed.

Lemma ring_around {D} (a b : lbase D) : exists ring, transition_ring a b = map row ring /\
  around (ln_pts (lb_line a)) (ln_pts (lb_line b)) ring.
Proof.
  eexists. split; [reflexivity|]. set (A := ln_pts _). set (B := ln_pts _). clearbody A B.
  split; [rewrite app_length, rev_length; auto|]. split.
  - intros k Hk. apply nth_error_app1; auto.
  - intros k Hk. rewrite nth_error_app2 by lia.
    replace (length A + (length B - 1 - k) - length A) with (length B - 1 - k) by lia.
    destruct (nth_error B k) as [x|] eqn:E; [|apply nth_error_None in E; lia].
    apply nth_error_nth with (d := x) in E as E1.
    rewrite (nth_error_nth' (rev B) x) by (rewrite rev_length; lia).
    rewrite rev_nth by lia. replace (length B - S (length B - 1 - k)) with k by lia. congruence.
Qed.

Lemma outline {D} (num : Z -> D) gm result o a b groups grp blk g' :
  (forall p q, nth_error (ln_pts (lb_line a)) 0 = Some p -> nth_error (ln_pts (lb_line b)) 0 = Some q -> p <> q) ->
  ln_pts (lb_line a) <> [] -> ln_pts (lb_line b) <> [] ->
  transition num gm result o a b groups grp = Ok (blk, g') ->
  exists ring t s pts cells cd,
    around (ln_pts (lb_line a)) (ln_pts (lb_line b)) ring /\
    blk = BTri pts (flat_map snd cells) cd /\
    map fst (Polygon_spec.added t) = map row ring /\
    (Polygon_spec.numbered gm ->
       Forall2 (Polygon_spec.draws t) (Polygon_spec.drawn t) (ring_edges (map row ring))) /\
    t = s ++ [Clear; Finalize] /\ to_pyvista (result s) = Ok (pts, cells).
Proof.
  intros Hd Ha Hb H. apply transition_inv in H as (t & pts & cells & arr & Hp & _ & ->).
  destruct (ring_around a b) as (ring & Er & Hr).
  assert (Ho : Polygon_spec.open_ring (transition_ring a b)).
  { unfold transition_ring. destruct (ln_pts (lb_line a)) as [|p A] eqn:EA; [congruence|].
    destruct (ln_pts (lb_line b)) as [|q B] eqn:EB; [congruence|].
    specialize (Hd p q eq_refl eq_refl). cbn [app map rev Polygon_spec.open_ring].
    rewrite app_assoc, map_app. cbn [map]. change (row p :: ?l ++ [row q]) with ((row p :: l) ++ [row q]).
    rewrite last_last. intros E. apply row_inj in E. congruence. }
  assert (Hrow : Polygon_spec.rows_of 3 (transition_ring a b)).
  { unfold Polygon_spec.rows_of, transition_ring. rewrite Forall_forall. intros r Hin.
    apply in_map_iff in Hin as ([[? ?] ?] & <- & _). reflexivity. }
  destruct (Polygon5_proof.polygon_outline _ _ _ _ _ _ _ _ _ _ _ Ho Hrow (Forall_nil _) (Forall_nil _) Hp)
    as ((blocks & E1 & E2) & E3 & s & E4 & E5).
  exists ring, t, s, pts, cells, [("CellGroup"%string, map num arr)].
  split; [exact Hr|]. split; [reflexivity|].
  inversion E2 as [|? b1 ? ? S1 S2]; subst. inversion S2; subst.
  split; [|split; [|auto]].
  - rewrite E1. cbn [concat]. rewrite app_nil_r. cbn [String.eqb Ascii.eqb] in S1. rewrite <- Er.
    unfold Polygon_spec.sized_as, Polygon_spec.sized in S1.
    destruct S1 as [S1 _]. exact S1.
  - intros Hn. specialize (E3 Hn). cbn [flat_map] in E3. rewrite app_nil_r, Er in E3. exact E3.
Qed.
