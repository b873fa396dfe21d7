From Verif Require Import RealAux Perc_model Perc_spec Perc_proof Surface_model Surface_spec Surface_proof
  Volume_model Volume_spec Volume_proof Ring_proof UVol_proof UVol2_proof UVol3_proof
  SMerge_model SMerge_spec SMerge_proof Groups_model Groups_spec Groups_proof Groups2_proof
  Stack_model Stack_spec Cut_proof Gen_proof Stack_proof Stack2_proof Stack3_proof.
From Coq Require Import Lra Nsatz.
Open Scope R_scope.

Lemma pget_pset_same ax v p : (ax <= 2)%nat -> coord ax (pset ax v p) = v.
Proof. destruct p as [[x y] z], ax as [|[|[|]]]; simpl; auto; lia. Qed.
Lemma pset_column ax v p : (ax <= 2)%nat -> same_column ax p (pset ax v p).
Proof.
  intros H a Ha Hne. destruct p as [[x y] z], ax as [|[|[|]]], a as [|[|[|]]]; simpl; auto; lia.
Qed.
Lemma pget_coord' ax p : (ax <= 2)%nat -> pget ax p = coord ax p.
Proof. destruct p as [[x y] z], ax as [|[|[|]]]; simpl; auto; lia. Qed.

Lemma map2_nth {A B C} (f : A -> B -> C) l m k :
  nth_error (map2 f l m) k =
  match nth_error l k, nth_error m k with Some a, Some b => Some (f a b) | _, _ => None end.
Proof.
  revert m k; induction l as [|a l IH]; intros [|b m] [|k]; simpl; auto; destruct (nth_error l k); auto.
Qed.
Lemma map2_len {A B C} (f : A -> B -> C) l m : length l = length m -> length (map2 f l m) = length m.
Proof. revert m; induction l as [|a l IH]; intros [|b m]; simpl; auto; try discriminate. Qed.

(* ---- C34 ---- *)
Lemma add_scalar {M B} (ops : mesh_ops M B) (Hops : lawful ops) ax bu interp st x ao : (ax <= 2)%nat ->
  exists it, stack_add ops ax bu interp st (ArgScalar x) ao =
      Ok (mkStack (st_base st) (st_items st ++ [it]) false) /\
    it_prio it = ao_prio ao /\
    (st_items st <> [] -> it_res it = ao_res ao /\ it_method it = ao_method ao /\
       it_thick it = ao_thick ao /\ it_group it = ao_group ao /\ it_trans it = st_flag st) /\
    (st_items st = [] -> length (points ops it) = length (getp ops (st_base st)) /\
       forall k p q, nth_error (getp ops (st_base st)) k = Some p -> nth_error (points ops it) k = Some q ->
         same_column ax p q /\ coord ax q = x) /\
    (forall pre last, st_items st = pre ++ [last] ->
       length (points ops it) = length (points ops last) /\
       forall k p q, nth_error (points ops last) k = Some p -> nth_error (points ops it) k = Some q ->
         same_column ax p q /\ Rabs (coord ax q - coord ax p) = Rabs x /\
         (bu = true -> coord ax p <= coord ax q) /\ (bu = false -> coord ax q <= coord ax p)).
Proof.
  intros Hax. destruct Hops as (Hgs & _). unfold stack_add.
  destruct (rev (st_items st)) as [|last rl] eqn:Er; cbn [bind].
  - assert (E : st_items st = []).
    { rewrite <- (rev_involutive (st_items st)), Er. reflexivity. }
    rewrite E. eexists. split; [reflexivity|].
    split; [reflexivity|]. split; [congruence|]. split.
    + intros _. unfold points. cbn [it_mesh]. rewrite Hgs. split.
      { apply map2_len, map_length. }
      intros k p q Hp. rewrite map2_nth, nth_error_map, Hp. cbn. intros [= <-].
      split; [apply pset_column; auto|apply pget_pset_same; auto].
    + intros pre last' E'. destruct pre; discriminate.
  - assert (E : st_items st = rev rl ++ [last]).
    { rewrite <- (rev_involutive (st_items st)), Er. reflexivity. }
    eexists. split; [reflexivity|].
    destruct (st_items st) as [|i0 its] eqn:Es; [symmetry in E; apply app_eq_nil in E as [_ E]; discriminate|].
    split; [reflexivity|]. split; [intros _; repeat split|]. split; [discriminate|].
    intros pre last' E'. rewrite E in E'. apply app_inj_tail in E' as [_ <-].
    unfold points. cbn [it_mesh]. rewrite Hgs. split; [apply map2_len, map_length|].
    intros k p q Hp. rewrite map2_nth, nth_error_map, Hp. cbn. intros [= <-].
    split; [apply pset_column; auto|]. rewrite pget_pset_same, pget_coord' by auto.
    pose proof (Rabs_pos x). destruct bu.
    + split; [|split; [intros _; lra|discriminate]].
      replace (coord ax p + Rabs x * 1 - coord ax p) with (Rabs x) by ring. apply Rabs_Rabsolu.
    + split; [|split; [discriminate|intros _; lra]].
      replace (coord ax p + Rabs x * -1 - coord ax p) with (- Rabs x) by ring.
      rewrite Rabs_Ropp. apply Rabs_Rabsolu.
Qed.

(* ---- C33 ---- *)
Lemma repeatable {M B} (ops : mesh_ops M B) (Hops : lawful ops) ax o extrude transition merge items g groups n js :
  (ax <= 2)%nat -> chain yields (tl items) ->
  (forall i i', In i items -> In i' items -> length (points ops i) = length (points ops i')) ->
  stack_generate ops o ax true extrude transition merge items = Ok (g, groups, n, js) ->
  stack_generate ops o ax true extrude transition merge js = Ok (g, groups, n, js).
Proof.
  intros Hax Hy Hl H.
  apply stack_inv in H as (i1 & rest & j1 & rest' & bs & -> & Hne & -> & Hl' & Hc & Hg & Hm).
  pose proof (cut_loop_ordered ops Hops ax Hax rest i1 _ Hy Hc) as Hch.
  destruct (cut_loop_lengths ops Hops ax true rest i1 (j1 :: rest') (length (points ops i1))) as [_ HL]; auto.
  { intros i Hi. apply Hl; auto; simpl; auto. }
  assert (Hid : cut_loop ops ax true j1 rest' = Ok (j1 :: rest')).
  { apply (cut_loop_id ops Hops); auto. intros i Hi. rewrite (HL i Hi), (HL j1); simpl; auto. }
  unfold stack_generate. destruct rest' as [|j2 r]; [destruct rest; simpl in Hl'; congruence|].
  rewrite Hid. cbn [bind]. rewrite Hg. cbn [bind]. rewrite Hm. reflexivity.
Qed.

(* ---- C36 ---- *)
Lemma too_few_stack {M B} (ops : mesh_ops M B) o ax bu extrude transition merge items :
  (length items < 2)%nat -> stack_generate ops o ax bu extrude transition merge items = Err ValueError.
Proof. destruct items as [|i1 [|i2 r]]; simpl; auto; lia. Qed.
Lemma too_few_extrude {M B} (ops : mesh_ops M B) o extrude merge items :
  (length items < 2)%nat -> extrude_generate ops o extrude merge items = Err ValueError.
Proof. destruct items as [|i1 [|i2 r]]; simpl; auto; lia. Qed.

(* ---- C35: unstructured bases ---- *)
Open Scope nat_scope.


Lemma put_block_ids {D} (num : Z -> D) name nsub nc off j (cd : list (string * list D)) :
  name <> "ColumnId"%string -> name <> "LayerId"%string ->
  block_ids num name nsub nc off j
    (aput name (map num (repeat (Z.of_nat j) (nsub * nc)))
      (aput "LayerId" (map num (repeat_each (map Z.of_nat (seq off nsub)) nc))
        (aput "ColumnId" (map num (tile (map Z.of_nat (seq 0 nc)) nsub)) cd))).
Proof.
  intros N1 N2. do 3 eexists.
  split; [apply aput_other; [auto|]; apply aput_other; [discriminate|]; apply aput_In|].
  split; [apply aput_other; [auto|]; apply aput_In|].
  split; [apply aput_In|].
  rewrite !map_length, tile_length, repeat_each_length, repeat_length, !map_length, !seq_length.
  repeat (split; [reflexivity|]). intros l c Hl Hc. rewrite !nth_error_map. split; [|split].
  - pose proof (tile_nth_error (map Z.of_nat (seq 0 nc)) nsub l c) as T.
    rewrite map_length, seq_length in T. rewrite T by auto.
    rewrite nth_error_map, nth_error_seq_lt by auto. reflexivity.
  - rewrite repeat_each_nth_error by auto. rewrite nth_error_map, nth_error_seq_lt by auto. reflexivity.
  - rewrite nth_error_repeat_lt; [reflexivity|]. nia.
Qed.

Lemma ub_align {D} (num : Z -> D) m : ub_aligned m -> aligned (gview (uops num) m).
Proof. unfold ub_aligned, aligned. cbn. destruct (ub_cg m); auto. intros H. rewrite seq_length; auto. Qed.

Lemma decode_length ts : forall s cs, decode ts s = Some cs -> length cs = length ts.
Proof.
  induction ts as [|t ts IH]; intros s cs; simpl.
  - destruct s; [intros [= <-]; auto|discriminate].
  - destruct s as [|n s]; [discriminate|]. destruct (_ <? _); [discriminate|].
    destruct (decode_cell _ _); [|discriminate]. destruct (decode ts _) as [l|] eqn:E; [|discriminate].
    intros [= <-]. simpl. f_equal. eauto.
Qed.

Lemma unstructured_ids {D} (num : Z -> D) o name invert i1 rest bs groups n :
  name <> "ColumnId"%string -> name <> "LayerId"%string ->
  Forall (fun it => it_trans it = false) rest ->
  Forall (fun i => ub_aligned (it_mesh i)) (i1 :: rest) ->
  gen_loop (uops num) o name
    (fun a b r m => generate_volume_unstructured (ub_surf a) (ub_surf b) r m invert)
    (fun _ _ _ _ => Err NotImplementedError) 0 0 [] i1 rest = Ok (bs, groups, n) ->
  exists nsubs, layer_counts rest nsubs /\ length bs = length rest /\ n = list_sum nsubs /\
    forall j a blk ns, nth_error (i1 :: rest) j = Some a -> nth_error bs j = Some blk ->
      nth_error nsubs j = Some ns ->
      block_ids num name ns (length (us_cells (ub_surf (it_mesh a)))) (list_sum (firstn j nsubs)) j (uv_cd blk).
Proof.
  intros N1 N2 Ht Hal Hg.
  destruct (gen_loop_inv _ _ _ _ _ _ _ _ _ _ _ _ _ Ht numbered_nil
    (Forall_impl _ (fun i => ub_align num (it_mesh i)) Hal) Hg) as (_ & _ & nsubs & Ln & Lb & En & HJ).
  exists nsubs.
  assert (HK : forall j a b, nth_error (i1 :: rest) j = Some a -> nth_error rest j = Some b ->
     exists ns blk, nth_error nsubs j = Some ns /\ layers_of b ns /\ nth_error bs j = Some blk /\
       block_ids num name ns (length (us_cells (ub_surf (it_mesh a)))) (list_sum (firstn j nsubs)) j (uv_cd blk)).
  { intros j a b Ha Hb.
    destruct (HJ j a b Ha Hb) as (arr & gj & gj' & b0 & nsub & H1 & H2 & H3 & H4 & H5 & H6 & H7 & H8 & H9).
    exists nsub. eexists. split; [auto|]. split; [|split; [exact H9|]].
    - destruct (uvol_layers _ _ _ _ _ _ H5) as (perc & cells & Hp & Hp2 & Hdec & Hlc & _).
      exists perc. split; auto.
      pose proof (decode_length _ _ _ Hdec) as Hdl. cbn in H8, H7, Hlc. rewrite <- Hdl, Hlc in H8.
      apply Nat.mul_cancel_r in H8; auto.
    - cbn [put_all numbered_ids fold_left fst snd put_ids uops uv_cd ncM set_cg ub_surf us_cells].
      apply put_block_ids; auto. }
  split; [|split; [auto|split; [exact En|]]].
  - split; auto. intros j b Hb.
    destruct (nth_error (i1 :: rest) j) as [a|] eqn:Ha.
    + destruct (HK j a b Ha Hb) as (ns & blk & ? & ? & _); eauto.
    + apply nth_error_None in Ha. assert (j < length rest) by (apply nth_error_Some; congruence). simpl in Ha. lia.
  - intros j a blk ns Ha Hblk Hns.
    destruct (nth_error rest j) as [b|] eqn:Hb.
    + destruct (HK j a b Ha Hb) as (ns' & blk' & E1 & _ & E2 & E3). congruence.
    + apply nth_error_None in Hb. assert (j < length bs) by (apply nth_error_Some; congruence). lia.
Qed.

Lemma stack_unstructured_ids {D} (num : Z -> D) o ax bu invert merge items g groups n js np :
  (forall i, In i items -> length (us_pts (ub_surf (it_mesh i))) = np) ->
  Forall (fun i => ub_aligned (it_mesh i)) items ->
  Forall (fun it => it_trans it = false) (tl items) ->
  stack3d_unstructured num o ax bu invert merge items = Ok (g, groups, n, js) ->
  exists bs nsubs, merge bs = Ok g /\ length bs = length (tl items) /\
    layer_counts (tl items) nsubs /\ n = list_sum nsubs /\
    forall j a blk ns, nth_error items j = Some a -> nth_error bs j = Some blk ->
      nth_error nsubs j = Some ns ->
      block_ids num StackItem ns (length (us_cells (ub_surf (it_mesh a)))) (list_sum (firstn j nsubs)) j (uv_cd blk).
Proof.
  intros Hnp Hal Ht H.
  apply stack_inv in H as (i1 & rest & j1 & rest' & bs & -> & Hne & -> & Hl & Hc & Hg & Hm).
  destruct (cut_loop_lengths (uops num) (uops_lawful num) ax bu rest i1 _ np Hnp Hc) as [HF _].
  assert (HF' : Forall2 (only_points (uops num)) rest rest') by (inversion HF; auto).
  assert (Hal' : Forall (fun i => ub_aligned (it_mesh i)) (j1 :: rest')).
  { clear -HF Hal. revert Hal; induction HF as [|i j l l' Ho HF IH]; intros Hal; constructor;
      inversion Hal; subst; auto.
    destruct Ho as (E & _). rewrite E. exact H1. }
  destruct (unstructured_ids num o "StackItem"%string invert j1 rest' bs groups n)
    as (nsubs & H1 & H2 & H3 & H4); auto; try discriminate.
  { eapply only_points_trans; eauto. }
  exists bs, nsubs. cbn [tl]. split; [auto|]. split; [lia|].
  split; [eapply layer_counts_only; eauto|]. split; [auto|].
  intros j a blk ns Ha Hblk Hns.
  destruct (Forall2_nth_error _ _ _ _ _ HF Ha) as (a' & Ha' & Ho).
  specialize (H4 j a' blk ns Ha' Hblk Hns). destruct Ho as (E & _). rewrite E in H4. exact H4.
Qed.

Lemma extrude_unstructured_ids {D} (num : Z -> D) o invert merge items g groups n :
  Forall (fun i => ub_aligned (it_mesh i)) items ->
  Forall (fun it => it_trans it = false) (tl items) ->
  extrude_unstructured num o invert merge items = Ok (g, groups, n) ->
  exists bs nsubs, merge bs = Ok g /\ length bs = length (tl items) /\
    layer_counts (tl items) nsubs /\ n = list_sum nsubs /\
    forall j a blk ns, nth_error items j = Some a -> nth_error bs j = Some blk ->
      nth_error nsubs j = Some ns ->
      block_ids num ExtrudeItem ns (length (us_cells (ub_surf (it_mesh a)))) (list_sum (firstn j nsubs)) j (uv_cd blk).
Proof.
  intros Hal Ht H. unfold extrude_unstructured in H.
  apply extrude_inv in H as (i1 & rest & bs & -> & Hne & Hg & Hm). cbn [tl] in *.
  destruct (unstructured_ids num o ExtrudeItem invert i1 rest bs groups n) as (ns & ? & ? & ? & ?);
    auto; try discriminate.
  exists bs, ns. auto.
Qed.
