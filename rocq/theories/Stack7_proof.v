From Verif Require Import RealAux Perc_model Perc_spec Perc_proof Surface_model Surface_spec Surface_proof
  Volume_model Volume_spec Volume_proof Ring_proof UVol_proof UVol2_proof UVol3_proof
  SMerge_model SMerge_spec SMerge_proof Groups_model Groups_spec Groups_proof Groups2_proof
  Stack_model Stack_spec Cut_proof Gen_proof Stack_proof Stack2_proof Stack3_proof Stack4_proof Stack5_proof
  Stack6_proof.
From Coq Require Import Lra.
Open Scope nat_scope.

Lemma on_way_lerp t p q : on_way t p q = lerp t p q.
Proof.
  destruct p as [[? ?] ?], q as [[? ?] ?]. unfold on_way, lerp, lerp1.
  f_equal; [f_equal|]; ring.
Qed.

Lemma chain_nth_iff {X} (P : X -> X -> Prop) l :
  chain P l <-> (forall j a b, nth_error l j = Some a -> nth_error l (S j) = Some b -> P a b).
Proof.
  split; [|apply chain_nth].
  induction l as [|x l IH]; intros H j a b Ha Hb; [destruct j; discriminate|].
  destruct l as [|y l]; [destruct j as [|[|]]; discriminate|]. destruct H as [H1 H2].
  destruct j as [|j].
  - injection Ha as <-. injection Hb as <-. auto.
  - apply (IH H2 j); auto.
Qed.

Section S.
Context {D : Type} (num : Z -> D) (volumes : shape3 -> list pt -> list R).
Context (ax : nat) (Hax : ax <= 2) (d : shape3) (Hu : unit_along ax d).
Notation ops := (sops num).
Notation gl := (gen_loop ops).
Notation ext := (extr volumes).
Notation notrans := (fun _ _ _ _ => Err NotImplementedError).

Lemma fidx_cover k : k < size3 d -> exists c, in_shape d c /\ fidx d c = k.
Proof.
  intros Hk. destruct d as [[nx ny] nz]. unfold size3 in Hk.
  assert (nx <> 0) by nia. assert (ny <> 0) by nia.
  exists (k mod nx, (k / nx) mod ny, k / nx / ny). unfold in_shape, fidx.
  assert (k / nx / ny < nz).
  { apply Nat.div_lt_upper_bound; auto. apply Nat.div_lt_upper_bound; auto. nia. }
  repeat split; auto using Nat.mod_upper_bound.
  pose proof (Nat.div_mod k nx ltac:(auto)). pose proof (Nat.div_mod (k / nx) ny ltac:(auto)). nia.
Qed.

Lemma chain_junctions o name i1 rest bs groups n :
  Forall (fun it => it_trans it = false) rest ->
  Forall (fun i => wf_base d (it_mesh i)) (i1 :: rest) ->
  gl o name ext notrans 0 0 [] i1 rest = Ok (bs, groups, n) ->
  chain (interface_ok ax) bs <-> junctions_ok (points ops) (i1 :: rest).
Proof.
  intros Ht Hw Hg.
  destruct (blocks_inv num volumes ax Hax d Hu _ _ _ _ _ _ _ Ht Hw Hg) as (Hnum & nsubs & Ln & Lb & En & HB).
  assert (HP : forall j A B a b e, nth_error bs j = Some A -> nth_error bs (S j) = Some B ->
    nth_error (i1 :: rest) j = Some a -> nth_error (i1 :: rest) (S j) = Some b ->
    nth_error (i1 :: rest) (S (S j)) = Some e ->
    interface_ok ax A B <-> junction_ok (points ops) a b e).
  { intros j A B a b e HA HB' Ha Hb He.
    destruct (block_points' num volumes ax Hax d Hu _ _ _ _ _ _ _ _ (HB _ _ HA)) as (a0 & b0 & n1 & p1 & Ha0 & Hb0 & Hn1 & Hp1 & E1 & Hpos1 & HdA & HptA).
    destruct (block_points' num volumes ax Hax d Hu _ _ _ _ _ _ _ _ (HB _ _ HB')) as (b1 & e0 & n2 & p2 & Hb1 & He0 & Hn2 & Hp2 & E2 & Hpos2 & HdB & HptB).
    assert (a0 = a) as -> by congruence. assert (b0 = b) as -> by (simpl in Hb; congruence).
    assert (b1 = b) as -> by (simpl in Hb, Hb1; congruence).
    assert (e0 = e) as -> by (change (nth_error rest (S j) = Some e) in He; congruence).
    assert (exists t, nth_error p1 (length p1 - 1) = Some t) as [t Htt].
    { destruct (nth_error p1 (length p1 - 1)) eqn:E; eauto. apply nth_error_None in E. lia. }
    assert (exists u, nth_error p2 0 = Some u) as [u Huu].
    { destruct (nth_error p2 0) eqn:E; eauto. apply nth_error_None in E. lia. }
    assert (HL : forall c, in_shape d c ->
      exists p q r, nth_error (points ops a) (fidx d c) = Some p /\
        nth_error (points ops b) (fidx d c) = Some q /\ nth_error (points ops e) (fidx d c) = Some r /\
        at_coord (sg_dims A) (sg_pts A) (setc ax (comp ax (sg_dims A) - 1) c) = Some (lerp t p q) /\
        at_coord (sg_dims B) (sg_pts B) (setc ax 0 c) = Some (lerp u q r)).
    { intros c Hc.
      assert (Ec : setc ax 0 c = c).
      { rewrite <- (setc_comp ax c) at 2. f_equal. pose proof (in_shape_comp ax _ _ Hc) as Hx.
        destruct Hu as [Hu1 _]. lia. }
      assert (HcA : in_shape (sg_dims A) (setc ax (comp ax (sg_dims A) - 1) c)).
      { rewrite HdA, comp_setc. apply in_shape_setc; auto. lia. }
      assert (HcB : in_shape (sg_dims B) (setc ax 0 c)).
      { rewrite HdB. apply in_shape_setc; auto; lia. }
      destruct (HptA _ t HcA) as (p & q & Hp & Hq & E).
      { rewrite comp_setc, HdA, comp_setc. rewrite <- Htt. f_equal. lia. }
      destruct (HptB _ u HcB) as (q' & r & Hq' & Hr & E').
      { rewrite comp_setc. auto. }
      rewrite setc_setc in Hp, Hq, Hq', Hr. rewrite Ec in Hp, Hq, Hq', Hr.
      rewrite Hq in Hq'. injection Hq' as <-.
      exists p, q, r. auto. }
    split.
    - intros [_ HI] pb pc t' u' k p q r Hpb Hpc Ht' Hu' Hp Hq Hr.
      rewrite Hp1 in Hpb. injection Hpb as <-. rewrite Hp2 in Hpc. injection Hpc as <-.
      rewrite Htt in Ht'. injection Ht' as <-. rewrite Huu in Hu'. injection Hu' as <-.
      assert (Hk : k < size3 d).
      { rewrite Forall_forall in Hw. destruct (Hw a) as (_ & L & _); [eapply nth_error_In; eauto|].
        rewrite <- L. apply nth_error_Some. unfold points in Hp. cbn in Hp. congruence. }
      destruct (fidx_cover k Hk) as (c & Hc & <-).
      destruct (HL c Hc) as (p' & q' & r' & Hp' & Hq' & Hr' & E & E').
      rewrite Hp in Hp'. injection Hp' as <-. rewrite Hq in Hq'. injection Hq' as <-.
      rewrite Hr in Hr'. injection Hr' as <-.
      rewrite !on_way_lerp. apply (HI c); auto.
      rewrite HdA, setc_setc. rewrite <- (setc_comp ax c).
      apply in_shape_setc; auto. pose proof (in_shape_comp ax _ _ Hc). destruct Hu; lia.
    - intros HJ. split; [rewrite HdA, HdB, !setc_setc; auto|].
      intros c p q Hc Hp Hq. rewrite HdA, setc_setc in Hc.
      assert (Hc' : in_shape d c).
      { destruct Hu as [Hu1 _]. rewrite <- Hu1 in Hc. rewrite setc_comp in Hc. auto. }
      destruct (HL c Hc') as (p' & q' & r' & Hp' & Hq' & Hr' & E & E').
      rewrite E in Hp. injection Hp as <-. rewrite E' in Hq. injection Hq as <-.
      rewrite <- !on_way_lerp. apply (HJ p1 p2 t u (fidx d c)); auto. }
  rewrite chain_nth_iff. split.
  - intros H j a b e Ha Hb He.
    assert (S j < length rest). { apply nth_error_Some. change (nth_error rest (S j) = Some e) in He. congruence. }
    destruct (nth_error bs j) as [A|] eqn:HA; [|apply nth_error_None in HA; lia].
    destruct (nth_error bs (S j)) as [B|] eqn:HB'; [|apply nth_error_None in HB'; lia].
    apply (HP j A B a b e); auto. apply (H j); auto.
  - intros H j A B HA HB'.
    assert (S j < length rest) by (rewrite <- Lb; apply nth_error_Some; congruence).
    destruct (nth_error (i1 :: rest) j) as [a|] eqn:Ha; [|apply nth_error_None in Ha; simpl in Ha; lia].
    destruct (nth_error (i1 :: rest) (S j)) as [b|] eqn:Hb; [|apply nth_error_None in Hb; simpl in Hb; lia].
    destruct (nth_error (i1 :: rest) (S (S j))) as [e|] eqn:He; [|apply nth_error_None in He; simpl in He; lia].
    apply (HP j A B a b e); auto. apply (H j); auto.
Qed.

Lemma structured_iff o name i1 rest :
  name <> "ColumnId"%string -> name <> "LayerId"%string -> name <> "CellGroup"%string ->
  rest <> [] ->
  Forall (fun it => it_trans it = false /\ has_positions it /\ group_by_name it) rest ->
  Forall (fun i => wf_base d (it_mesh i)) (i1 :: rest) ->
  exists bs groups n, gl o name ext notrans 0 0 [] i1 rest = Ok (bs, groups, n) /\
    (junctions_ok (points ops) (i1 :: rest) -> exists g, merge_structured bs (Some ax) = Ok g) /\
    (~ junctions_ok (points ops) (i1 :: rest) -> merge_structured bs (Some ax) = Err ValueError).
Proof.
  intros N1 N2 N3 Hne Hall Hw.
  assert (Ht : Forall (fun it => it_trans it = false) rest) by (eapply Forall_impl; [|exact Hall]; intros it H; apply H).
  assert (Hs : Forall has_positions rest) by (eapply Forall_impl; [|exact Hall]; intros it H; apply H).
  assert (Hg : Forall named_group rest) by (eapply Forall_impl; [|exact Hall]; intros it H; apply H).
  destruct (gen_defined num volumes ax Hax d Hu o name i1 rest Ht Hs Hg Hw) as [[[bs groups] n] E].
  pose proof (chain_junctions _ _ _ _ _ _ _ Ht Hw E) as Hch.
  destruct (blocks_inv num volumes ax Hax d Hu _ _ _ _ _ _ _ Ht Hw E) as (Hnum & nsubs & Ln & Lb & En & HB).
  destruct bs as [|b1 bs]; [destruct rest; [congruence|simpl in Lb; lia]|].
  assert (HW : forall j blk, nth_error (b1 :: bs) j = Some blk -> wf_grid ax blk).
  { intros j blk Hj. eapply block_wf; eauto. }
  assert (W1 : wf_grid ax b1) by (apply (HW 0 b1 eq_refl)).
  assert (Wl : Forall (wf_grid ax) bs).
  { rewrite Forall_forall. intros x Hx. apply In_nth_error in Hx as [k Hk]. apply (HW (S k) x Hk). }
  destruct (merge_fold_defined ax b1 bs Hax W1 Wl) as [F1 F2].
  exists (b1 :: bs), groups, n. split; auto. rewrite merge_is_fold. split.
  - intros HJ. apply F1. apply Hch. auto.
  - intros HJ. apply F2. intros HC. apply HJ. apply Hch. auto.
Qed.
End S.

Lemma extrude_iff {D} (num : Z -> D) volumes o ax d items :
  ax <= 2 -> unit_along ax d -> 2 <= length items ->
  Forall (fun i => wf_base d (it_mesh i)) items ->
  Forall (fun it => it_trans it = false /\ has_positions it /\ group_by_name it) (tl items) ->
  (junctions_ok (points (sops num)) items ->
     exists g groups n, extrude_structured num volumes o items = Ok (g, groups, n)) /\
  (~ junctions_ok (points (sops num)) items ->
     extrude_structured num volumes o items = Err ValueError).
Proof.
  intros Hax Hu L Hw Hall. destruct items as [|i1 [|i2 rest]]; [simpl in L; lia..|].
  destruct (structured_iff num volumes ax Hax d Hu o ExtrudeItem i1 (i2 :: rest))
    as (bs & groups & n & E & H1 & H2); auto; try discriminate.
  assert (Ea : first_unit_axis (ss_dims (sb_surf (it_mesh i1))) = ax).
  { apply Forall_inv in Hw. destruct Hw as (-> & _). destruct (unit_along_dim _ _ Hax Hu) as (_ & ? & _); auto. }
  unfold extrude_structured, extrude_generate. rewrite Ea.
  change (fun a b r m => generate_volume_structured volumes (sb_surf a) (sb_surf b) r m) with (@extr D volumes).
  change "ExtrudeItem"%string with ExtrudeItem. rewrite E. cbn [bind]. split; intros HJ.
  - destruct (H1 HJ) as [g ->]. cbn [bind]. eauto.
  - rewrite (H2 HJ). reflexivity.
Qed.


Lemma stack_iff {D} (num : Z -> D) volumes o ax bu d items :
  ax <= 2 -> unit_along ax d -> 2 <= length items ->
  Forall (fun i => wf_base d (it_mesh i)) items ->
  Forall (fun it => it_trans it = false /\ has_positions it /\ group_by_name it) (tl items) ->
  exists js, Forall2 (only_points (sops num)) items js /\
  (junctions_ok (points (sops num)) js ->
     exists g groups n, stack3d_structured num volumes o ax bu items = Ok (g, groups, n, js)) /\
  (~ junctions_ok (points (sops num)) js ->
     stack3d_structured num volumes o ax bu items = Err ValueError).
Proof.
  intros Hax Hu L Hw Hall. destruct items as [|i1 [|i2 rest]]; [simpl in L; lia..|].
  assert (HL : forall i, In i (i1 :: i2 :: rest) -> length (points (sops num) i) = size3 d).
  { intros i Hi. rewrite Forall_forall in Hw. apply (Hw i Hi). }
  destruct (cut_loop_defined (sops num) (sops_lawful num) ax bu (size3 d) (i2 :: rest) i1 HL) as [js Hj].
  destruct (cut_loop_lengths (sops num) (sops_lawful num) ax bu (i2 :: rest) i1 js (size3 d) HL Hj) as [HF HL'].
  destruct (cut_loop_cons _ _ _ _ _ _ Hj) as (j1 & rest' & -> & Hlen).
  exists (j1 :: rest'). split; auto.
  assert (Hw' : Forall (fun i => wf_base d (it_mesh i)) (j1 :: rest')).
  { eapply (proj2 (wf_after_cut num ax Hax d bu i1 (i2 :: rest) _ Hw Hj)). }
  assert (Hall' : Forall (fun it => it_trans it = false /\ has_positions it /\ group_by_name it) rest').
  { cbn [tl] in Hall. inversion HF as [|? ? ? ? _ HF']; subst. clear - Hall HF'.
    revert Hall. induction HF' as [|x y l l' Hxy HF' IH]; intros Hall; constructor; inversion Hall; subst; auto.
    destruct Hxy as (_ & R1 & R2 & _ & _ & R3 & R4). unfold has_positions, group_by_name.
    rewrite R1, R2, R3, R4. auto. }
  destruct (structured_iff num volumes ax Hax d Hu o StackItem j1 rest')
    as (bs & groups & n & E & H1 & H2); auto; try discriminate.
  { destruct rest'; [simpl in Hlen; lia|discriminate]. }
  unfold stack3d_structured, stack_generate. rewrite Hj. cbn [bind].
  change (fun a b r m => generate_volume_structured volumes (sb_surf a) (sb_surf b) r m) with (@extr D volumes).
  change "StackItem"%string with StackItem. rewrite E. cbn [bind]. split; intros HJ.
  - destruct (H1 HJ) as [g ->]. cbn [bind]. eauto.
  - rewrite (H2 HJ). reflexivity.
Qed.

(* ---- ordered surfaces of a generated stack (C31, C32) ---- *)
Lemma stack_ordered {M B} (ops : mesh_ops M B) (Hops : lawful ops) o ax extrude transition merge items g groups n js :
  ax <= 2 -> chain yields (tl items) ->
  stack_generate ops o ax true extrude transition merge items = Ok (g, groups, n, js) ->
  chain (above ops ax) js.
Proof.
  intros Hax Hy H. apply stack_inv in H as (i1 & rest & j1 & rest' & bs & -> & _ & -> & _ & Hc & _).
  eapply cut_loop_ordered; eauto.
Qed.

Lemma stack_ordered_last {M B} (ops : mesh_ops M B) (Hops : lawful ops) o ax extrude transition merge items g groups n js lo up tl :
  ax <= 2 ->
  stack_generate ops o ax true extrude transition merge items = Ok (g, groups, n, js) ->
  js = tl ++ [lo; up] -> above ops ax lo up.
Proof.
  intros Hax H. apply stack_inv in H as (i1 & rest & j1 & rest' & bs & -> & _ & -> & _ & Hc & _).
  eapply cut_loop_last; eauto.
Qed.

Lemma stack_unchanged_down {M B} (ops : mesh_ops M B) (Hops : lawful ops) o ax extrude transition merge items g groups n js :
  (forall i i', In i items -> In i' items -> length (points ops i) = length (points ops i')) ->
  (forall i, In i items -> (0 <= it_thick i)%R) ->
  chain (below ops ax) items ->
  stack_generate ops o ax false extrude transition merge items = Ok (g, groups, n, js) ->
  js = items.
Proof.
  intros HL Ht Hch H. apply stack_inv in H as (i1 & rest & j1 & rest' & bs & -> & _ & -> & _ & Hc & _).
  rewrite cut_loop_id_down in Hc; auto.
  - apply Ok_inj in Hc. auto.
  - intros i Hi. apply HL; simpl; auto.
Qed.

Lemma stack_unchanged_up {M B} (ops : mesh_ops M B) (Hops : lawful ops) o ax extrude transition merge items g groups n js :
  (forall i i', In i items -> In i' items -> length (points ops i) = length (points ops i')) ->
  chain (above ops ax) items ->
  stack_generate ops o ax true extrude transition merge items = Ok (g, groups, n, js) ->
  js = items.
Proof.
  intros HL Hch H. apply stack_inv in H as (i1 & rest & j1 & rest' & bs & -> & _ & -> & _ & Hc & _).
  rewrite cut_loop_id in Hc; auto.
  - apply Ok_inj in Hc. auto.
  - intros i Hi. apply HL; simpl; auto.
Qed.

(* ---- merge wrappers (C37, C38) ---- *)
Lemma merge_structured_inv {D} ax (l : list (sgrid D)) g :
  merge_structured l (Some ax) = Ok g -> exists a l', l = a :: l' /\ merge_fold ax a l' = Ok g.
Proof.
  destruct l as [|a [|b l]]; [discriminate| |]; intros H.
  - exists a, []. auto.
  - exists a, (b :: l). auto.
Qed.

Lemma merge_concatenates {D} ax (l : list (sgrid D)) g : ax <= 2 -> Forall (wf_grid ax) l ->
  merge_structured l (Some ax) = Ok g ->
  wf_grid ax g /\
  comp ax (sg_dims g) = 1 + list_sum (map (fun b => comp ax (sg_dims b) - 1) l) /\
  (forall a b, a <= 2 -> a <> ax -> In b l -> comp a (sg_dims g) = comp a (sg_dims b)) /\
  (forall j b c, nth_error l j = Some b -> in_shape (sg_dims b) c ->
    (j = 0 \/ 0 < comp ax c ->
     at_coord (sg_dims g) (sg_pts g) (shifted ax (offset ax l j) c)
     = at_coord (sg_dims b) (sg_pts b) c) /\
    (forall p q, at_coord (sg_dims g) (sg_pts g) (shifted ax (offset ax l j) c) = Some p ->
       at_coord (sg_dims b) (sg_pts b) c = Some q -> near p q)) /\
  (forall k, In k (map fst (sg_cd g)) <-> forall b, In b l -> In k (map fst (sg_cd b))) /\
  (forall k x j b v c, In (k, x) (sg_cd g) -> nth_error l j = Some b -> In (k, v) (sg_cd b) ->
     in_shape (cell_shape (sg_dims b)) c ->
     at_coord (cell_shape (sg_dims g)) x (shifted ax (offset ax l j) c)
     = at_coord (cell_shape (sg_dims b)) v c) /\
  (forall j b c, nth_error l j = Some b -> in_shape (cell_shape (sg_dims b)) c ->
     at_coord (cell_shape (sg_dims g)) (sg_ghost g) (shifted ax (offset ax l j) c)
     = at_coord (cell_shape (sg_dims b)) (sg_ghost b) c).
Proof.
  intros Hax Hw Hm. destruct (merge_structured_inv _ _ _ Hm) as (a & l' & -> & Hf).
  inversion Hw as [|? ? Wa Wl]; subst.
  destruct (merge_fold_wf ax a l' g Hax Wa Wl Hf) as (Wg & Hd & Hc).
  destruct (merge_fold_cells ax a l' g Hax Wa Wl Hf) as (C1 & C2 & C3).
  split; [auto|]. split.
  { rewrite Hd, comp_setc. unfold offset. change (S (length l')) with (length (a :: l')).
    rewrite firstn_all. lia. }
  split; [|split; [apply (merge_fold_points ax a l' g Hax Wa Wl Hf)|auto]].
  intros i b Hi Hne Hin.
  assert (E : setc ax 0 (sg_dims a) = setc ax 0 (sg_dims b)).
  { destruct Hin as [<-|Hin]; auto. rewrite Forall_forall in Hc. auto. }
  assert (X : forall n s, comp i (setc ax n s) = comp i s).
  { intros n [[x y] z]. destruct ax as [|[|[|]]], i as [|[|[|]]]; simpl; auto; lia. }
  rewrite Hd, X. rewrite <- (X 0 (sg_dims a)), E, X. auto.
Qed.

Lemma merge_validates {D} (ax : nat) (a b : sgrid D) l : ax <= 2 -> Forall (wf_grid ax) (a :: b :: l) ->
  merge_structured (a :: b :: l) None = Err ValueError /\
  (forall x, merge_structured [a] x = Ok a) /\
  (chain (interface_ok ax) (a :: b :: l) <-> exists g, merge_structured (a :: b :: l) (Some ax) = Ok g) /\
  (~ chain (interface_ok ax) (a :: b :: l) -> merge_structured (a :: b :: l) (Some ax) = Err ValueError).
Proof.
  intros Hax Hw. inversion Hw as [|? ? Wa Wl]; subst.
  destruct (merge_fold_defined ax a (b :: l) Hax Wa Wl) as [F1 F2].
  split; [reflexivity|]. split; [intros; reflexivity|]. auto.
Qed.

(* ---- building (C79, C80) ---- *)
Lemma init_spec {M} (mesh : M) dims axis :
  ((0 <= axis <= 2)%Z /\ (forall d, dims = Some d -> comp (Z.to_nat axis) d = 1) <->
   stack_init mesh dims axis = Ok (mesh, Z.to_nat axis)) /\
  (stack_init mesh dims axis = Ok (mesh, Z.to_nat axis) \/ stack_init mesh dims axis = Err ValueError).
Proof.
  unfold stack_init. destruct (Z.leb_spec 0 axis), (Z.leb_spec axis 2); cbn [andb negb];
    try (split; [split; [intros [? _]; lia|discriminate]|auto]).
  destruct dims as [d|].
  - destruct (Nat.eqb_spec (comp (Z.to_nat axis) d) 1).
    + split; [split; auto|auto]. intros _. split; [lia|]. intros d' [= <-]. auto.
    + split; [split|auto]; [|discriminate]. intros [_ Hd]. specialize (Hd d eq_refl). congruence.
  - split; [split; auto|auto]. intros _. split; [lia|]. intros d' [=].
Qed.

Lemma add_array_rejected {M B} (ops : mesh_ops M B) ax bu interp st ndim ncols rows ao :
  ndim <> 2 \/ ncols <> 3 ->
  stack_add ops ax bu interp st (ArgArray ndim ncols rows) ao = Err ValueError.
Proof.
  intros H. unfold stack_add. cbn [bind]. destruct (Nat.eqb_spec ndim 2), (Nat.eqb_spec ncols 3); try reflexivity; lia.
Qed.

Lemma add_fields {M B} (ops : mesh_ops M B) (Hops : lawful ops) ax bu interp st arg ao st' :
  stack_add ops ax bu interp st arg ao = Ok st' ->
  exists it, st_items st' = st_items st ++ [it] /\ st_base st' = st_base st /\ st_flag st' = false /\
    it_prio it = ao_prio ao /\
    (st_items st <> [] -> it_trans it = st_flag st) /\
    (st_items st = [] -> it_trans it = false) /\
    ((forall x, arg <> ArgScalar x) \/ st_items st = [] ->
       it_mesh it = setp ops (points ops it) (st_base st)).
Proof.
  destruct Hops as (L1 & L2 & L3 & _).
  unfold stack_add. intros H.
  match type of H with bind ?X _ = _ => destruct X as [mesh|] eqn:E; [|discriminate] end.
  cbn [bind] in H. apply Ok_inj in H. subst st'. cbn [st_items st_base st_flag].
  eexists. split; [reflexivity|]. split; [auto|]. split; [auto|].
  assert (Hm : (forall x, arg <> ArgScalar x) \/ st_items st = [] -> mesh = setp ops (getp ops mesh) (st_base st)).
  { intros Hc. revert E.
    assert (G : forall q, Ok (setp ops q (st_base st)) = Ok mesh -> mesh = setp ops (getp ops mesh) (st_base st)).
    { intros q Hq. apply Ok_inj in Hq. subst mesh. rewrite L1. auto. }
    destruct arg; cbn [bind].
    - destruct Hc as [Hc|Hc]; [exfalso; eapply Hc; reflexivity|]. rewrite Hc. cbn [rev]. apply G.
    - apply G.
    - destruct (ndim =? 2); [|discriminate]. destruct (ncols =? 3); [|discriminate].
      destruct (interp rows (getp ops (st_base st))); cbn [bind]; [apply G|discriminate].
    - destruct (interp pts (getp ops (st_base st))); cbn [bind]; [apply G|discriminate]. }
  destruct (st_items st) eqn:Hi; cbn [it_prio it_trans it_mesh points]; repeat split; auto; congruence.
Qed.

Lemma transition_next {M B} (ops : mesh_ops M B) (Hops : lawful ops) ax bu interp st m arg ao arg' ao' st1 st2 :
  st_items st <> [] -> (forall x, arg <> ArgScalar x) -> (forall x, arg' <> ArgScalar x) ->
  stack_add ops ax bu interp (set_transition m st) arg ao = Ok st1 ->
  stack_add ops ax bu interp st1 arg' ao' = Ok st2 ->
  exists it it', st_items st2 = st_items st ++ [it; it'] /\
    it_trans it = true /\ it_trans it' = false /\
    it_mesh it = setp ops (points ops it) m /\ it_mesh it' = setp ops (points ops it') m.
Proof.
  intros Hne Ha Ha' H1 H2.
  destruct (add_fields ops Hops _ _ _ _ _ _ _ H1) as (it & I1 & B1 & F1 & _ & T1 & _ & M1).
  destruct (add_fields ops Hops _ _ _ _ _ _ _ H2) as (it' & I2 & B2 & F2 & _ & T2 & _ & M2).
  cbn [set_transition st_items st_base st_flag] in *.
  exists it, it'. rewrite I2, I1, <- app_assoc. split; [reflexivity|].
  assert (st_items st1 <> []) by (rewrite I1; destruct (st_items st); discriminate).
  rewrite T1, T2, F1 by auto. repeat split; auto.
  rewrite <- B1. auto.
Qed.

(* a line of two points becomes a line of three points, but a scalar keeps two *)
Definition tr_line (n : nat) : lbase Z :=
  mkLbase (mkLine (map (fun i => (INR i, 0, 0)%R) (seq 0 n)) (seq 0 n) [] [] None) (n - 1) None None.
Definition tr_opts := mkAdd (ResInt 1) None 0%Z 0 GNone.
Definition tr_interp : list pt -> list pt -> res (list R) := fun _ _ => Err ValueError.

Lemma transition_scalar_false : exists st m x ao st1 it,
  st_items st <> [] /\
  stack_add (lops zz) 2 true tr_interp (set_transition m st) (ArgScalar x) ao = Ok st1 /\
  st_items st1 = st_items st ++ [it] /\ it_trans it = true /\
  length (points (lops zz) it) <> length (getp (lops zz) m).
Proof.
  set (i0 := mkItem (tr_line 2) ResNone None 0%Z 0%R GNone false).
  exists (mkStack (tr_line 2) [i0] false), (tr_line 3), 1%R, tr_opts. eexists. eexists.
  split; [discriminate|]. split; [reflexivity|]. split; [reflexivity|]. split; [reflexivity|].
  cbn. lia.
Qed.

(* ---- planes (C75, C81) ---- *)
Lemma add_plane_spec {M B} (ops : mesh_ops M B) (Hops : lawful ops) ax bu interp st nd angles point ao st' ang' :
  ax <= 2 ->
  add_plane ops ax bu interp st nd angles point ao = Ok (st', ang') ->
  exists it a b c d, st_items st' = st_items st ++ [it] /\
    (match ax with 0%nat => a | 1%nat => b | _ => c end = 0)%R /\
    (coord ax point = a * coord 0 point + b * coord 1 point + c * coord 2 point + d)%R /\
    length (points ops it) = length (getp ops (st_base st)) /\
    (forall k p q, nth_error (getp ops (st_base st)) k = Some p -> nth_error (points ops it) k = Some q ->
       same_column ax p q /\
       (coord ax q = a * coord 0 q + b * coord 1 q + c * coord 2 q + d)%R) /\
    (nd = false -> ang' = angles) /\
    (nd = true -> coord ax ang' = 0%R /\ forall b, b <= 2 -> b <> ax -> coord b ang' = coord b angles).
Proof.
  intros Hax H. unfold add_plane in H.
  destruct (stack_add ops ax bu interp st (ArgCall (plane_func ax angles point)) ao) as [st0|] eqn:E; [|discriminate].
  cbn [bind] in H. apply Ok_inj in H. apply pair_equal_spec in H as [<- <-].
  destruct (plane_affine ax angles point Hax) as (Hp & a & b & c & d & Hz & Hpl).
  destruct (add_fields ops Hops _ _ _ _ _ _ _ E) as (it & I1 & _ & _ & _ & _ & _ & HM).
  exists it, a, b, c, d. split; [auto|]. split; [auto|].
  assert (Hpts : points ops it = map2 (fun v p => pset ax v p)
     (map (fun '(x, y, z) => plane_func ax angles point x y z) (getp ops (st_base st))) (getp ops (st_base st))).
  { clear - E I1 Hops. destruct Hops as (L1 & _). unfold stack_add in E. cbn [bind] in E. apply Ok_inj in E. subst st0.
    cbn [st_items] in I1. apply app_inv_head in I1. injection I1 as <-.
    destruct (st_items st); unfold points; cbn [it_mesh]; rewrite L1; reflexivity. }
  split.
  { rewrite <- !pget_coord. rewrite <- Hp. rewrite Hpl. reflexivity. }
  split.
  { rewrite Hpts. apply map2_len. rewrite map_length. auto. }
  split.
  - intros k p q Hk Hq. rewrite Hpts, map2_nth, nth_error_map, Hk in Hq. cbn [option_map] in Hq.
    injection Hq as <-. split; [apply pset_column; auto|].
    rewrite pget_pset_same by auto. destruct p as [[x y] z]. rewrite Hpl.
    destruct ax as [|[|[|]]]; cbn in Hz |- *; subst; try lia; ring.
  - split; intros ->; cbn [plane_angles_after]; [reflexivity|]. destruct angles as [[x y] z].
    destruct ax as [|[|[|]]]; try lia; (split; [reflexivity|]); intros [|[|[|b']]] Hb Hne; cbn; try reflexivity; lia.
Qed.

Lemma plane_mutates : exists angles point st' angles',
  add_plane (sops zz) 2 true tr_interp (mkStack (cx_base 0) [] false) true angles point
    (mkAdd (ResInt 1) None 0%Z 0 GNone) = Ok (st', angles') /\ angles' <> angles.
Proof.
  exists (1, 2, 3)%R, (0, 0, 0)%R. eexists. eexists. split; [reflexivity|].
  unfold plane_angles_after. cbn. intros H. injection H. intros. lra.
Qed.

(* rotating the horizontal plane by 45 degrees about the x axis gives the slope 1, not 1/sqrt 2 *)
Lemma plane_slope_45 : exists th, (0 < th < 90)%R /\
  forall px py pz x, Rabs (plane_func 2 (th, 0, 0)%R (px, py, pz)%R x (py + 1)%R 0 - pz)%R <> tan (deg2rad th).
Proof.
  exists 45%R. split; [lra|]. intros px py pz x. rewrite plane_slope.
  assert (E : deg2rad 45 = (PI / 4)%R) by (unfold deg2rad; field).
  rewrite E, tan_PI4, sin_PI4. intros H.
  assert (Hs : (1 < sqrt 2)%R) by (rewrite <- sqrt_1; apply sqrt_lt_1; lra).
  replace (pz - (py + 1 - py) * (1 / sqrt 2) - pz)%R with (- / sqrt 2)%R in H by (field; lra).
  rewrite Rabs_Ropp, Rabs_right in H; [|left; apply Rinv_0_lt_compat; lra].
  assert (/ sqrt 2 < / 1)%R by (apply Rinv_lt_contravar; lra). lra.
Qed.

Lemma vector_rejected ds da last v s a : length v <> 3 -> extrude_add ds da last v s a = Err ValueError.
Proof. destruct v as [|? [|? [|? [|]]]]; simpl; intros; try reflexivity; lia. Qed.

Lemma merge_none {A} o swap : @merge_generate A o swap [] = Err ValueError.
Proof. reflexivity. Qed.
