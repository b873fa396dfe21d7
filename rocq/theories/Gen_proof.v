From Verif Require Import RealAux Perc_model Perc_spec Perc_proof Surface_model Surface_spec Surface_proof
  Volume_model Volume_spec Volume_proof Ring_proof UVol_proof UVol2_proof UVol3_proof
  SMerge_model SMerge_spec SMerge_proof Groups_model Groups_spec Groups_proof Groups2_proof
  Stack_model Stack_spec Cut_proof.
From Coq Require Import Lra.
Open Scope nat_scope.

(* ---- blocks of a structured stack ---- *)
Lemma mapM_fst {D} (f : string * list D -> res (string * list D)) l l' :
  (forall kv y, f kv = Ok y -> fst y = fst kv) ->
  Forall2 (fun x y => f x = Ok y) l l' -> map fst l' = map fst l.
Proof. intros Hf H; induction H; simpl; auto. f_equal; eauto. Qed.

Lemma mapM_all {D} (f : string * list D -> res (string * list D)) l l' (P : string * list D -> Prop) :
  (forall kv y, f kv = Ok y -> P y) ->
  Forall2 (fun x y => f x = Ok y) l l' -> forall y, In y l' -> P y.
Proof. intros Hf H; induction H; simpl; [intros ? []|]. intros z [<-|Hz]; eauto. Qed.

Lemma vol_structured_block {D} volumes (sa sb : ssurf D) r m g :
  generate_volume_structured volumes sa sb r m = Ok g -> ss_cd sa <> [] ->
  exists perc, resolution_to_perc r m = Ok perc /\ 2 <= length perc /\
    sg_dims g = setc (first_unit_axis (ss_dims sa)) (length perc) (ss_dims sa) /\
    length (sg_pts g) = size3 (sg_dims g) /\
    map fst (sg_cd g) = map fst (ss_cd sa) /\
    (forall k v, In (k, v) (sg_cd g) -> length v = n_cells (sg_dims g)) /\
    length (sg_ghost g) = n_cells (sg_dims g).
Proof.
  intros H Hne. pose proof (vol_structured_inv _ _ _ _ _ _ H) as
    (Hs & Hl & Hd & perc & Hp & Hp0 & Hdims & Hpts).
  destruct (first_unit_axis_spec _ Hd) as (Hax & Hone & _).
  revert H. unfold generate_volume_structured.
  destruct (negb (length (ss_pts sa) =? length (ss_pts sb))); [discriminate|].
  destruct (negb (shape_eqb (ss_dims sa) (ss_dims sb))); [discriminate|].
  destruct (negb (structured_dimension (ss_dims sa) =? 2)); [discriminate|].
  rewrite Hp; unfold bind at 1.
  destruct (Nat.eqb_spec (length perc) 0) as [|Hp1]; [discriminate|].
  rewrite <- Hdims.
  set (axis := first_unit_axis (ss_dims sa)) in *.
  destruct (sg_dims g) as [[nx ny] nz] eqn:Hg.
  set (pts := ravelF nx ny nz _) in *.
  unfold bind at 1. destruct (mapM _ (ss_pd sa)) as [pd|] eqn:Hpd; [|discriminate].
  unfold bind at 1. destruct (mapM _ (ss_cd sa)) as [cd|] eqn:Hcd; [|discriminate].
  unfold bind at 1.
  match goal with |- match ?x with _ => _ end = _ -> _ => destruct x as [gh|] eqn:Hgh; [|discriminate] end.
  intros H%Ok_inj; subst g; cbn [sg_dims sg_pd sg_cd sg_pts sg_ghost] in *.
  apply mapM_Ok in Hcd. exists perc. split; [auto|].
  assert (A : forall y, In y cd -> length (snd y) = n_cells (nx, ny, nz)).
  { eapply (mapM_all _ _ _ (fun y => length (snd y) = n_cells (nx, ny, nz))); [|exact Hcd].
    intros [k v] y. cbn [fst snd]. unfold bind. destruct (repeat_structured_data _ v _ _) as [w|]; [|discriminate].
    unfold assign_data. cbn [snd]. destruct (Nat.eqb_spec (length w) (n_cells (nx, ny, nz))); [|discriminate].
    intros [= <-]. auto. }
  repeat split.
  - destruct (Nat.eq_dec (length perc) 1) as [E1|E1]; [|lia]. exfalso.
    destruct (ss_cd sa) as [|[k v] l]; [congruence|].
    inversion Hcd as [|? y ? ys Hf Hys E2 E3]; subst. cbn [fst snd] in Hf.
    specialize (A y (or_introl eq_refl)).
    unfold bind in Hf. destruct (repeat_structured_data _ v _ _) as [w|] eqn:Hw; [|discriminate].
    unfold assign_data in Hf. cbn [snd] in Hf.
    destruct (Nat.eqb_spec (length w) (n_cells (nx, ny, nz))) as [E|]; [|discriminate].
    rewrite E1 in Hw. unfold repeat_structured_data in Hw.
    destruct (negb _) in Hw; [discriminate|].
    assert (length w = 0) as Hw0.
    { destruct v as [|d v']; [injection Hw as <-; auto|].
      rewrite Nat.sub_diag, Nat.mul_0_r in Hw.
      destruct (setc axis 0 (cell_shape (ss_dims sa))) as [[a b] e] eqn:Es.
      apply Ok_inj in Hw; subst w. rewrite ravelF_length.
      destruct (cell_shape (ss_dims sa)) as [[? ?] ?]; destruct axis as [|[|[|]]]; simpl in Es;
        injection Es as <- <- <-; lia. }
    pose proof (n_cells_pos (nx, ny, nz)). lia.
  - auto.
  - unfold pts. rewrite ravelF_length. reflexivity.
  - eapply mapM_fst; [|exact Hcd]. intros [k v] y. cbn [fst snd]. unfold bind.
    destruct (repeat_structured_data _ v _ _) as [w|]; [|discriminate].
    unfold assign_data. destruct (_ =? _); [|discriminate]. intros [= <-]; auto.
  - intros k v Hin. apply (A (k, v) Hin).
  - rewrite mask_set_length. destruct (ss_ghost sa) as [gg|].
    + unfold bind in Hgh. destruct (repeat_structured_data _ _ _ _) as [w|]; [|discriminate].
      destruct (Nat.eqb_spec (length w) (n_cells (nx, ny, nz))) as [E|]; [|discriminate].
      injection Hgh as <-; auto.
    + injection Hgh as <-. apply repeat_length.
Qed.

Lemma mapM_defined {X Y} (f : X -> res Y) l : (forall x, In x l -> exists y, f x = Ok y) ->
  exists ys, mapM f l = Ok ys.
Proof.
  induction l as [|x l IH]; simpl; [eauto|]. intros H.
  destruct (H x (or_introl eq_refl)) as [y ->]. destruct IH as [ys ->]; [auto|]. cbn. eauto.
Qed.

Lemma unit_along_dim ax d : ax <= 2 -> unit_along ax d ->
  structured_dimension d = 2 /\ first_unit_axis d = ax /\ 1 <= comp 0 d /\ 1 <= comp 1 d /\ 1 <= comp 2 d.
Proof.
  intros Hax [H1 H2]. pose proof (H2 0 ltac:(lia)). pose proof (H2 1 ltac:(lia)). pose proof (H2 2 ltac:(lia)).
  destruct d as [[x y] z]. unfold structured_dimension, unit_axes, first_unit_axis.
  destruct ax as [|[|[|ax]]]; simpl in *; try lia;
  destruct (Nat.eqb_spec x 1), (Nat.eqb_spec y 1), (Nat.eqb_spec z 1); cbn; lia.
Qed.

Lemma repeat_structured_length {D} shape (data out : list D) repeats axis :
  axis <= 2 -> 0 < repeats -> repeat_structured_data shape data repeats axis = Ok out ->
  length out = size3 (setc axis (comp axis shape * repeats) shape).
Proof. intros A B H. apply repeat_structured_law in H; auto. destruct H as (_ & H & _); auto. Qed.

Lemma vol_structured_defined {D} volumes (sa sb : ssurf D) r m perc ax :
  ax <= 2 -> unit_along ax (ss_dims sa) -> ss_dims sb = ss_dims sa ->
  length (ss_pts sa) = size3 (ss_dims sa) -> length (ss_pts sb) = size3 (ss_dims sa) ->
  resolution_to_perc r m = Ok perc -> 2 <= length perc ->
  (forall k v, In (k, v) (ss_pd sa) -> length v = size3 (ss_dims sa)) ->
  (forall k v, In (k, v) (ss_cd sa) -> length v = n_cells (ss_dims sa)) ->
  (forall g, ss_ghost sa = Some g -> length g = n_cells (ss_dims sa)) ->
  exists g, generate_volume_structured volumes sa sb r m = Ok g.
Proof.
  intros Hax Hu Hd La Lb Hp Hp2 Hpd Hcd Hgh.
  destruct (unit_along_dim _ _ Hax Hu) as (Hdim & Hfu & _).
  destruct Hu as [Hone _].
  unfold generate_volume_structured. rewrite La, Lb, Nat.eqb_refl, Hd. cbn [negb].
  replace (shape_eqb (ss_dims sa) (ss_dims sa)) with true by (symmetry; apply shape_eqb_eq; auto).
  rewrite Hdim, Nat.eqb_refl, Hp. cbn [negb bind].
  destruct (Nat.eqb_spec (length perc) 0); [lia|].
  rewrite Hfu.
  destruct (setc ax (length perc) (ss_dims sa)) as [[nx ny] nz] eqn:Hs.
  set (pts := ravelF nx ny nz _).
  assert (Hpts : length pts = size3 (setc ax (length perc) (ss_dims sa))).
  { unfold pts. rewrite ravelF_length, Hs. reflexivity. }
  assert (Hcell : n_cells (nx, ny, nz) =
            size3 (setc ax (comp ax (cell_shape (ss_dims sa)) * (length perc - 1)) (cell_shape (ss_dims sa)))).
  { rewrite <- Hs. unfold n_cells. rewrite cell_shape_setc. f_equal. f_equal.
    rewrite cell_shape_comp, Hone. lia. }
  edestruct (mapM_defined (fun kv : string * list D =>
      let! v := repeat_structured_data (ss_dims sa) (snd kv) (length perc) ax in
      assign_data (length pts) (fst kv, v)) (ss_pd sa)) as [pd Hpd'].
  { intros [k v] Hin. cbn [fst snd].
    destruct (repeat_structured_defined (ss_dims sa) v (length perc) ax) as [w Hw]; [eauto|].
    rewrite Hw; cbn [bind]. unfold assign_data; cbn [snd].
    apply repeat_structured_length in Hw; auto; [|lia]. rewrite Hone, Nat.mul_1_l in Hw.
    rewrite Hw, Hpts, Nat.eqb_refl. eauto. }
  rewrite Hpd'; cbn [bind].
  edestruct (mapM_defined (fun kv : string * list D =>
      let! v := repeat_structured_data (cell_shape (ss_dims sa)) (snd kv) (length perc - 1) ax in
      assign_data (n_cells (nx, ny, nz)) (fst kv, v)) (ss_cd sa)) as [cd Hcd'].
  { intros [k v] Hin. cbn [fst snd].
    destruct (repeat_structured_defined (cell_shape (ss_dims sa)) v (length perc - 1) ax) as [w Hw].
    { apply (Hcd k v Hin). }
    rewrite Hw; cbn [bind]. unfold assign_data; cbn [snd].
    apply repeat_structured_length in Hw; auto; [|lia].
    rewrite Hw, <- Hcell, Nat.eqb_refl. eauto. }
  rewrite Hcd'; cbn [bind].
  destruct (ss_ghost sa) as [gg|].
  - destruct (repeat_structured_defined (cell_shape (ss_dims sa)) gg (length perc - 1) ax) as [w Hw].
    { apply Hgh; auto. }
    rewrite Hw; cbn [bind].
    apply repeat_structured_length in Hw; auto; [|lia].
    rewrite Hw, <- Hcell, Nat.eqb_refl. cbn [bind]. eauto.
  - cbn [bind]. eauto.
Qed.

(* ---- the loop over the items ---- *)
Definition numbered_ids (name : string) (i off nsub nc : nat) : list (string * list Z) :=
  [("ColumnId"%string, tile (map Z.of_nat (seq 0 nc)) nsub);
   ("LayerId"%string, repeat_each (map Z.of_nat (seq off nsub)) nc);
   (name, repeat (Z.of_nat i) (nsub * nc))].

Definition put_all {M B} (ops : mesh_ops M B) (l : list (string * list Z)) (b : B) : B :=
  fold_left (fun b kv => put_ids ops (fst kv) (snd kv) b) l b.

Lemma gen_loop_inv {M B} (ops : mesh_ops M B) o name extrude transition rest :
  forall i n groups i1 bs groups' n',
  Forall (fun it => it_trans it = false) rest ->
  numbered groups ->
  Forall (fun it => aligned (gview ops (it_mesh it))) (i1 :: rest) ->
  gen_loop ops o name extrude transition i n groups i1 rest = Ok (bs, groups', n') ->
  numbered groups' /\ extends groups groups' /\
  exists nsubs, length nsubs = length rest /\ length bs = length rest /\
    n' = n + list_sum nsubs /\
    forall j a b, nth_error (i1 :: rest) j = Some a -> nth_error rest j = Some b ->
      exists arr gj gj' b0 nsub,
        initialize_group_array o (gview ops (it_mesh a)) gj (it_group b) "" = Ok (arr, gj') /\
        numbered gj /\ numbered gj' /\ extends gj' groups' /\
        extrude (set_cg ops arr (it_mesh a)) (it_mesh b) (it_res b) (it_method b) = Ok b0 /\
        nth_error nsubs j = Some nsub /\ ncM ops (set_cg ops arr (it_mesh a)) <> 0 /\
        ncB ops b0 = nsub * ncM ops (set_cg ops arr (it_mesh a)) /\
        nth_error bs j = Some (put_all ops
          (numbered_ids name (i + j) (n + list_sum (firstn j nsubs)) nsub
             (ncM ops (set_cg ops arr (it_mesh a)))) b0).
Proof.
  induction rest as [|i2 rest IH]; intros i n groups i1 bs groups' n' Ht Hn Hal; cbn [gen_loop].
  - intros H%Ok_inj. injection H as <- <- <-.
    split; [auto|split; [apply extends_refl|]]. exists []. simpl. repeat split; auto.
    intros [|j] a b Ha Hb; discriminate Hb.
  - inversion Ht as [|? ? Ht2 Ht']; subst. inversion Hal as [|? ? Ha1 Hal']; subst.
    destruct (initialize_group_array o (gview ops (it_mesh i1)) groups (it_group i2) "") as [[arr g1]|] eqn:Hi;
      [|discriminate]. cbn [bind]. rewrite Ht2.
    destruct (initialize_spec _ _ _ _ _ _ _ Hn Ha1 Hi) as (Hn1 & He1 & _).
    destruct (extrude _ _ _ _) as [b0|] eqn:Hx; [|discriminate]. cbn [bind].
    destruct (Nat.eqb_spec (ncM ops (set_cg ops arr (it_mesh i1))) 0) as [|Hnc]; [discriminate|]. cbn [bind].
    set (nc := ncM ops (set_cg ops arr (it_mesh i1))) in *.
    set (nsub := ncB ops b0 / nc).
    destruct (Nat.eqb_spec (length (tile (map Z.of_nat (seq 0 nc)) nsub)) (ncB ops b0)) as [E1|]; [|discriminate].
    destruct (Nat.eqb_spec (length (repeat_each (map Z.of_nat (seq n nsub)) nc)) (ncB ops b0)) as [E2|]; [|discriminate].
    cbn [andb negb].
    destruct (gen_loop ops o name extrude transition (S i) (n + nsub) g1 i2 rest) as [[[bs1 g2] n2]|] eqn:Hg;
      [|discriminate]. cbn [bind].
    intros H%Ok_inj. injection H as <- <- <-.
    destruct (IH _ _ _ _ _ _ _ Ht' Hn1 Hal' Hg) as (Hn2 & He2 & nsubs & Ln & Lb & En & HJ).
    split; [auto|split; [eapply extends_trans; eauto|]].
    rewrite tile_length, map_length, seq_length in E1.
    exists (nsub :: nsubs). simpl length. split; [lia|split; [lia|split; [simpl; lia|]]].
    intros [|j] a b Ha Hb.
    + cbn [nth_error] in Ha, Hb. injection Ha as <-. injection Hb as <-.
      exists arr, groups, g1, b0, nsub. repeat (split; [auto|]).
      cbn [nth_error firstn]. rewrite !Nat.add_0_r. unfold put_all, numbered_ids. cbn [fold_left fst snd].
      change (list_sum []) with 0. rewrite ?Nat.add_0_r. fold nc. rewrite E1. reflexivity.
    + cbn [nth_error] in Ha, Hb.
      destruct (HJ j a b Ha Hb) as (arr' & gj & gj' & b' & ns & H1 & H2 & H3 & H4 & H5 & H6 & H7 & H8 & H9).
      exists arr', gj, gj', b', ns. repeat (split; [auto|]).
      cbn [nth_error]. rewrite H9. replace (i + S j) with (S i + j) by lia.
      replace (n + list_sum (firstn (S j) (nsub :: nsubs))) with (n + nsub + list_sum (firstn j nsubs))
        by (simpl; lia). reflexivity.
Qed.

Lemma gen_loop_err {M B} (ops : mesh_ops M B) o name extrude transition rest : forall i n groups i1,
  Forall (fun it => it_trans it = false) rest ->
  numbered groups -> Forall (fun it => aligned (gview ops (it_mesh it))) (i1 :: rest) ->
  (forall j a b arr g g', numbered g -> nth_error (i1 :: rest) j = Some a -> nth_error rest j = Some b ->
     initialize_group_array o (gview ops (it_mesh a)) g (it_group b) "" = Ok (arr, g') ->
     exists b0 nsub, extrude (set_cg ops arr (it_mesh a)) (it_mesh b) (it_res b) (it_method b) = Ok b0 /\
       ncM ops (set_cg ops arr (it_mesh a)) <> 0 /\
       ncB ops b0 = nsub * ncM ops (set_cg ops arr (it_mesh a))) ->
  (forall j a b g, nth_error (i1 :: rest) j = Some a -> nth_error rest j = Some b ->
     exists x, initialize_group_array o (gview ops (it_mesh a)) g (it_group b) "" = Ok x) ->
  exists r, gen_loop ops o name extrude transition i n groups i1 rest = Ok r.
Proof.
  induction rest as [|i2 rest IH]; intros i n groups i1 Ht Hnum Hal Hx Hi; cbn [gen_loop]; [eauto|].
  inversion Ht as [|? ? Ht2 Ht']; subst. inversion Hal as [|? ? Ha1 Ha']; subst.
  destruct (Hi 0 i1 i2 groups eq_refl eq_refl) as [[arr g1] E]. rewrite E; cbn [bind]. rewrite Ht2.
  destruct (Hx 0 i1 i2 _ _ _ Hnum eq_refl eq_refl E) as (b0 & nsub & E2 & E3 & E4).
  pose proof (initialize_spec _ _ _ _ _ _ _ Hnum Ha1 E) as (Hnum1 & _). rewrite E2; cbn [bind].
  destruct (Nat.eqb_spec (ncM ops (set_cg ops arr (it_mesh i1))) 0); [contradiction|]. cbn [bind].
  rewrite tile_length, repeat_each_length, !map_length, !seq_length.
  rewrite E4, Nat.div_mul by auto. rewrite Nat.eqb_refl. cbn [andb negb].
  destruct (IH (S i) (n + nsub) g1 i2 Ht' Hnum1 Ha') as [[[bs gg] nn] Hr].
  - intros j a b arr' g g' Hg Ha Hb. apply (Hx (S j) a b arr' g g'); auto.
  - intros j a b g Ha Hb. apply (Hi (S j) a b g); auto.
  - rewrite Hr; cbn [bind]. eauto.
Qed.

(* groups given by name (or not at all) never fail *)
Lemma initialize_total {A} o (mesh : gmesh A) g grp : (grp = GNone \/ exists s, grp = GStr s) ->
  exists x, initialize_group_array o mesh g grp "" = Ok x.
Proof.
  intros H. unfold initialize_group_array.
  set (ag := match gm_cg mesh with Some _ => _ | None => _ end).
  assert (Hlen : length (fst ag) = length (gm_cells mesh)).
  { unfold ag. destruct (gm_cg mesh) as [cg|]; [destruct (gm_labels mesh) as [lb|]|];
      cbn [fst]; rewrite ?repeat_length; auto.
    assert (L : forall labels arr g, length (fst (apply_labels cg (ignore_groups o) labels arr g)) = length arr).
    { induction labels as [|[k v] l IH]; intros arr g0; simpl; auto.
      destruct (mem _ _); [apply IH|]. destruct (get_group_number k g0). rewrite IH, mask_set_length; auto. }
    rewrite L, repeat_length; auto. }
  destruct ag as [arr g1]. cbn [fst] in Hlen.
  assert (exists x, (match grp with
     | GNone => Ok (arr, g1)
     | GStr s => if (s =? "")%string then Ok (arr, g1)
                 else apply_entries mesh [(s, SelArr (MBool (repeat true (length (gm_cells mesh)))))] arr g1
     | GDict d => apply_entries mesh d arr g1 end) = Ok x) as [[arr2 g2] E].
  { destruct H as [->|[s ->]]; [eauto|]. destruct (s =? "")%string; [eauto|].
    cbn [apply_entries selector_mask bind].
    destruct (tilde s); destruct (get_group_number _ _) as [nn gg]; cbn [np_not np_set];
      rewrite ?map_length, repeat_length, Hlen, Nat.eqb_refl; cbn [bind]; eauto. }
  rewrite E; cbn [bind]. destruct (existsb _ _); [|eauto].
  destruct (get_group_number _ _); eauto.
Qed.
