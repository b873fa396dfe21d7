From Verif Require Import Perc_spec Perc_proof Surface_spec Surface_proof Volume_model Volume_spec.
Open Scope nat_scope.

(* ------------------------------------------------------------------ *)
(* C10: repeat_structured_data *)

Lemma nth_nth_error {A} (l : list A) i d : i < length l -> nth_error l i = Some (nth i l d).
Proof. intros; apply nth_error_nth'; auto. Qed.

Lemma in_shape_setc axis s v c :
  axis <= 2 -> in_shape (setc axis v s) c ->
  forall w, w < comp axis s -> in_shape s (setc axis w c).
Proof.
  destruct s as [[a b] d], c as [[i j] k]; destruct axis as [|[|[|]]]; simpl; intros; lia.
Qed.

Lemma repeat_structured_law {D} shape (data out : list D) repeats axis :
  axis <= 2 -> 0 < repeats ->
  repeat_structured_data shape data repeats axis = Ok out ->
  length data = size3 shape /\
  let shape' := setc axis (comp axis shape * repeats) shape in
  length out = size3 shape' /\
  forall c, in_shape shape' c ->
    nth_error out (fidx shape' c) =
    nth_error data (fidx shape (setc axis (comp axis c / repeats) c)).
Proof.
  intros Hax Hrep; unfold repeat_structured_data.
  destruct (Nat.eqb_spec (length data) (size3 shape)) as [Hlen|]; [|discriminate].
  cbn [negb]. intros H; split; auto.
  destruct data as [|d data']; cbv zeta.
  - injection H as <-. simpl in Hlen.
    assert (size3 (setc axis (comp axis shape * repeats) shape) = 0) as Hz.
    { destruct shape as [[a b] e]; destruct axis as [|[|[|]]]; simpl in *; try lia; nia. }
    split; [rewrite Hz; auto|]. intros c Hc. apply fidx_lt in Hc. lia.
  - set (data := d :: data') in *.
    destruct (setc axis (comp axis shape * repeats) shape) as [[nx ny] nz] eqn:Hs.
    apply Ok_inj in H; subst out. split; [apply ravelF_length|].
    intros [[i j] k] Hc. rewrite ravelF_fidx by auto. symmetry.
    apply nth_nth_error. rewrite Hlen. apply fidx_lt.
    eapply in_shape_setc with (v := comp axis shape * repeats); auto; [rewrite Hs; auto|].
    apply Nat.div_lt_upper_bound; [lia|].
    assert (comp axis (i, j, k) < comp axis (nx, ny, nz)).
    { destruct Hc as (? & ? & ?); destruct axis as [|[|[|]]]; simpl; lia. }
    rewrite <- Hs in H.
    assert (comp axis (setc axis (comp axis shape * repeats) shape) = comp axis shape * repeats) as E
      by (destruct shape as [[? ?] ?]; destruct axis as [|[|[|]]]; reflexivity).
    lia.
Qed.

Lemma repeat_structured_size {D} shape (data : list D) repeats axis :
  length data <> size3 shape ->
  repeat_structured_data shape data repeats axis = Err ValueError.
Proof.
  intros H; unfold repeat_structured_data.
  destruct (Nat.eqb_spec (length data) (size3 shape)); [contradiction|reflexivity].
Qed.

Lemma repeat_structured_defined {D} shape (data : list D) repeats axis :
  length data = size3 shape -> exists out, repeat_structured_data shape data repeats axis = Ok out.
Proof.
  intros H; unfold repeat_structured_data. rewrite H, Nat.eqb_refl; cbn [negb].
  destruct data; [eauto|]. destruct (setc _ _ _) as [[? ?] ?]; eauto.
Qed.

(* ------------------------------------------------------------------ *)
(* C09: structured volume *)

Lemma shape_eqb_eq s t : shape_eqb s t = true <-> s = t.
Proof.
  destruct s as [[a b] c], t as [[x y] z]; unfold shape_eqb.
  rewrite !Bool.andb_true_iff, !Nat.eqb_eq. split; [intros [[-> ->] ->]; auto|intros [= -> -> ->]; auto].
Qed.

Lemma first_unit_axis_spec s :
  structured_dimension s = 2 ->
  first_unit_axis s <= 2 /\ comp (first_unit_axis s) s = 1 /\
  (forall ax, ax <= 2 -> ax <> first_unit_axis s -> comp ax s <> 1).
Proof.
  destruct s as [[x y] z]; unfold structured_dimension, unit_axes, first_unit_axis.
  destruct (Nat.eqb_spec x 1), (Nat.eqb_spec y 1), (Nat.eqb_spec z 1); simpl; intros H; try lia;
    (split; [lia|split; [lia|]]); intros [|[|[|]]]; simpl; intros; lia.
Qed.

Lemma vol_structured_inv {D} volumes (sa sb : ssurf D) r m g :
  generate_volume_structured volumes sa sb r m = Ok g ->
  ss_dims sa = ss_dims sb /\ length (ss_pts sa) = length (ss_pts sb) /\
  structured_dimension (ss_dims sa) = 2 /\
  exists perc, resolution_to_perc r m = Ok perc /\ perc <> [] /\
    sg_dims g = setc (first_unit_axis (ss_dims sa)) (length perc) (ss_dims sa) /\
    let '(nx, ny, nz) := sg_dims g in
    sg_pts g = ravelF nx ny nz (fun i j k =>
                 let base := fidx (ss_dims sa) (setc (first_unit_axis (ss_dims sa)) 0 (i, j, k)) in
                 lerp (nth (comp (first_unit_axis (ss_dims sa)) (i, j, k)) perc 0%R)
                      (nth base (ss_pts sa) origin) (nth base (ss_pts sb) origin)).
Proof.
  unfold generate_volume_structured.
  destruct (Nat.eqb_spec (length (ss_pts sa)) (length (ss_pts sb))) as [Hl|]; [|discriminate].
  cbn [negb].
  destruct (shape_eqb (ss_dims sa) (ss_dims sb)) eqn:Hs; [|discriminate]. cbn [negb].
  apply shape_eqb_eq in Hs.
  destruct (Nat.eqb_spec (structured_dimension (ss_dims sa)) 2) as [Hd|]; [|discriminate]. cbn [negb].
  destruct (resolution_to_perc r m) as [perc|] eqn:Hp; [|discriminate]. unfold bind at 1.
  destruct (Nat.eqb_spec (length perc) 0) as [|Hp0]; [discriminate|].
  destruct (setc (first_unit_axis (ss_dims sa)) (length perc) (ss_dims sa)) as [[nx ny] nz] eqn:Hdims.
  unfold bind.
  destruct (mapM _ (ss_pd sa)) as [pd|]; [|discriminate].
  destruct (mapM _ (ss_cd sa)) as [cd|]; [|discriminate].
  match goal with |- match ?x with _ => _ end = _ -> _ => destruct x as [gh|]; [|discriminate] end.
  intros H%Ok_inj; subst g; cbn [sg_dims sg_pts].
  repeat split; auto. exists perc; repeat split; auto. intros ->; simpl in Hp0; lia.
Qed.

Lemma vol_structured_coords {D} volumes (sa sb : ssurf D) r m g :
  length (ss_pts sa) = size3 (ss_dims sa) ->
  generate_volume_structured volumes sa sb r m = Ok g ->
  exists axis perc,
    resolution_to_perc r m = Ok perc /\
    ss_dims sa = ss_dims sb /\
    axis <= 2 /\ comp axis (ss_dims sa) = 1 /\
    sg_dims g = setc axis (length perc) (ss_dims sa) /\
    length (sg_pts g) = size3 (sg_dims g) /\
    forall c t, in_shape (sg_dims g) c -> nth_error perc (comp axis c) = Some t ->
      exists p q,
        nth_error (ss_pts sa) (fidx (ss_dims sa) (setc axis 0 c)) = Some p /\
        nth_error (ss_pts sb) (fidx (ss_dims sb) (setc axis 0 c)) = Some q /\
        nth_error (sg_pts g) (fidx (sg_dims g) c) = Some (lerp t p q).
Proof.
  intros Hsz H; apply vol_structured_inv in H.
  destruct H as (Hs & Hl & Hd & perc & Hp & Hp0 & Hdims & Hpts).
  destruct (first_unit_axis_spec _ Hd) as (Hax & Hone & _).
  set (axis := first_unit_axis (ss_dims sa)) in *.
  exists axis, perc. do 5 (split; [auto|]).
  destruct (sg_dims g) as [[nx ny] nz] eqn:Hg.
  split; [rewrite Hpts, ravelF_length; auto|].
  intros [[i j] k] t Hc Ht.
  assert (fidx (ss_dims sa) (setc axis 0 (i, j, k)) < length (ss_pts sa)) as Hb.
  { rewrite Hsz. apply fidx_lt. eapply in_shape_setc; [auto| |lia]. rewrite <- Hdims; exact Hc. }
  exists (nth (fidx (ss_dims sa) (setc axis 0 (i, j, k))) (ss_pts sa) origin),
         (nth (fidx (ss_dims sa) (setc axis 0 (i, j, k))) (ss_pts sb) origin).
  split; [apply nth_nth_error; auto|].
  split; [rewrite <- Hs; apply nth_nth_error; lia|].
  rewrite Hpts, ravelF_fidx by auto. cbv zeta.
  rewrite (nth_error_nth _ _ 0%R Ht). reflexivity.
Qed.

Lemma vol_structured_errors {D} volumes (sa sb : ssurf D) r m :
  ss_dims sa <> ss_dims sb \/ structured_dimension (ss_dims sa) <> 2 ->
  generate_volume_structured volumes sa sb r m = Err ValueError.
Proof.
  intros H; unfold generate_volume_structured.
  destruct (negb (length (ss_pts sa) =? length (ss_pts sb))); [reflexivity|].
  destruct (shape_eqb (ss_dims sa) (ss_dims sb)) eqn:Hs; [|reflexivity].
  apply shape_eqb_eq in Hs. cbn [negb].
  destruct (Nat.eqb_spec (structured_dimension (ss_dims sa)) 2); [|reflexivity].
  tauto.
Qed.

Lemma vol_structured_rejected {D} volumes (sa sb : ssurf D) r m :
  ss_dims sa <> ss_dims sb \/ ~ (exists! axis, axis <= 2 /\ comp axis (ss_dims sa) = 1) ->
  generate_volume_structured volumes sa sb r m = Err ValueError.
Proof.
  intros H. apply vol_structured_errors. destruct H as [H|H]; [now left|right]. intros E. apply H. clear H.
  destruct (ss_dims sa) as [[x y] z]. unfold structured_dimension, unit_axes in E.
  destruct (Nat.eqb_spec x 1), (Nat.eqb_spec y 1), (Nat.eqb_spec z 1); try discriminate E;
    [exists 0|exists 1|exists 2]; (split; [cbn; lia|]); intros [|[|[|a]]] [Ha Hc]; cbn in Hc; congruence || lia.
Qed.

(* data of a structured volume *)
Lemma vol_structured_data {D} volumes (sa sb : ssurf D) r m g k v :
  generate_volume_structured volumes sa sb r m = Ok g ->
  (In (k, v) (ss_pd sa) ->
   exists w, In (k, w) (sg_pd g) /\
     forall c, in_shape (sg_dims g) c ->
       nth_error w (fidx (sg_dims g) c) =
       nth_error v (fidx (ss_dims sa) (setc (first_unit_axis (ss_dims sa)) 0 c))) /\
  (In (k, v) (ss_cd sa) ->
   exists w, In (k, w) (sg_cd g) /\
     forall c, in_shape (cell_shape (sg_dims g)) c ->
       nth_error w (fidx (cell_shape (sg_dims g)) c) =
       nth_error v (fidx (cell_shape (ss_dims sa)) (setc (first_unit_axis (ss_dims sa)) 0 c))).
Proof.
  intros H. pose proof (vol_structured_inv _ _ _ _ _ _ H) as
    (Hs & Hl & Hd & perc & Hp & Hp0 & Hdims & _).
  destruct (first_unit_axis_spec _ Hd) as (Hax & Hone & _).
  revert H. unfold generate_volume_structured.
  destruct (negb (length (ss_pts sa) =? length (ss_pts sb))); [discriminate|].
  destruct (negb (shape_eqb (ss_dims sa) (ss_dims sb))); [discriminate|].
  destruct (negb (structured_dimension (ss_dims sa) =? 2)); [discriminate|].
  rewrite Hp; unfold bind at 1.
  destruct (Nat.eqb_spec (length perc) 0) as [|Hp1]; [discriminate|].
  rewrite <- Hdims.
  set (axis := first_unit_axis (ss_dims sa)) in *.
  destruct (sg_dims g) as [[nx ny] nz] eqn:Hg.
  set (pts := ravelF nx ny nz _).
  unfold bind at 1. destruct (mapM _ (ss_pd sa)) as [pd|] eqn:Hpd; [|discriminate].
  unfold bind at 1. destruct (mapM _ (ss_cd sa)) as [cd|] eqn:Hcd; [|discriminate].
  unfold bind at 1.
  match goal with |- match ?x with _ => _ end = _ -> _ => destruct x as [gh|]; [|discriminate] end.
  intros H%Ok_inj; subst g; cbn [sg_dims sg_pd sg_cd] in *.
  apply mapM_Ok in Hpd; apply mapM_Ok in Hcd.
  assert (forall (f : string * list D -> res (string * list D)) l l' kv,
            Forall2 (fun x y => f x = Ok y) l l' -> In kv l -> exists y, In y l' /\ f kv = Ok y) as HIn.
  { clear. intros f l l' kv HF; induction HF; simpl; [intros []|].
    intros [->|Hi]; [eauto|]. destruct (IHHF Hi) as (y' & ? & ?); eauto. }
  split; intros Hk.
  - destruct (HIn _ _ _ _ Hpd Hk) as (y & Hy & Hf). cbn [fst snd] in Hf.
    unfold bind in Hf. destruct (repeat_structured_data _ v _ _) as [w|] eqn:Hw; [|discriminate].
    unfold assign_data in Hf. cbn [snd] in Hf.
    destruct (Nat.eqb_spec (length w) (length pts)) as [E|]; [|discriminate].
    injection Hf as <-. exists w; split; auto.
    apply repeat_structured_law in Hw; [|auto|lia].
    destruct Hw as (_ & Hw). cbv zeta in Hw. rewrite Hone, Nat.mul_1_l, <- Hdims in Hw.
    destruct Hw as (_ & Hw). intros c Hc. rewrite (Hw c Hc). do 3 f_equal.
    apply Nat.div_small.
    assert (comp axis (nx, ny, nz) = length perc) as E2.
    { rewrite Hdims. destruct (ss_dims sa) as [[? ?] ?]; destruct axis as [|[|[|]]]; reflexivity. }
    destruct c as [[i j] l], Hc as (? & ? & ?). destruct axis as [|[|[|]]]; simpl in *; lia.
  - destruct (HIn _ _ _ _ Hcd Hk) as (y & Hy & Hf). cbn [fst snd] in Hf.
    unfold bind in Hf. destruct (repeat_structured_data _ v _ _) as [w|] eqn:Hw; [|discriminate].
    unfold assign_data in Hf. cbn [snd] in Hf.
    destruct (Nat.eqb_spec (length w) (n_cells (nx, ny, nz))) as [E|]; [|discriminate].
    injection Hf as <-. exists w; split; auto.
    destruct (Nat.eq_dec (length perc) 1) as [E1|E1].
    + (* a single level: np.repeat with 0 repeats gives an empty array, rejected unless the
         grid has no cell, which never happens *)
      exfalso. rewrite E1 in Hw. unfold repeat_structured_data in Hw.
      destruct (negb _) in Hw; [discriminate|].
      assert (length w = 0) as Hw0.
      { destruct v as [|d v']; [injection Hw as <-; auto|].
        rewrite Nat.sub_diag, Nat.mul_0_r in Hw.
        destruct (setc axis 0 (cell_shape (ss_dims sa))) as [[a b] e] eqn:Es.
        apply Ok_inj in Hw; subst w. rewrite ravelF_length.
        destruct (cell_shape (ss_dims sa)) as [[? ?] ?]; destruct axis as [|[|[|]]]; simpl in Es;
          injection Es as <- <- <-; lia. }
      rewrite Hw0 in E. unfold n_cells, cell_shape, size3 in E.
      assert (1 <= Nat.max 1 (nx - 1)) by lia. assert (1 <= Nat.max 1 (ny - 1)) by lia.
      assert (1 <= Nat.max 1 (nz - 1)) by lia. nia.
    + apply repeat_structured_law in Hw; [|auto|lia].
      destruct Hw as (_ & Hw). cbv zeta in Hw.
      assert (comp axis (cell_shape (ss_dims sa)) = 1) as Ec.
      { clear - Hone Hax. revert Hone. destruct (ss_dims sa) as [[? ?] ?].
        destruct axis as [|[|[|]]]; unfold cell_shape, comp; lia. }
      rewrite Ec, Nat.mul_1_l in Hw.
      assert (setc axis (length perc - 1) (cell_shape (ss_dims sa)) = cell_shape (nx, ny, nz)) as Ed.
      { rewrite Hdims. destruct (ss_dims sa) as [[? ?] ?]; destruct axis as [|[|[|]]];
          unfold cell_shape, setc; rewrite (Nat.max_r 1 (length perc - 1)) by lia; reflexivity. }
      rewrite Ed in Hw. destruct Hw as (_ & Hw). intros c Hc. rewrite (Hw c Hc). do 3 f_equal.
      apply Nat.div_small.
      assert (comp axis (cell_shape (nx, ny, nz)) = length perc - 1) as E2.
      { rewrite <- Ed. destruct (cell_shape (ss_dims sa)) as [[? ?] ?]; destruct axis as [|[|[|]]]; reflexivity. }
      clear - Hc E2 Hax. destruct c as [[i j] l], Hc as (? & ? & ?). revert E2.
      destruct axis as [|[|[|]]]; unfold cell_shape, comp; lia.
Qed.

Lemma vol_structured_data_axis {D} volumes (sa sb : ssurf D) r m g k v axis :
  generate_volume_structured volumes sa sb r m = Ok g ->
  (axis <= 2)%nat -> comp axis (ss_dims sa) = 1%nat ->
  (In (k, v) (ss_pd sa) ->
   exists w, In (k, w) (sg_pd g) /\
     forall c, in_shape (sg_dims g) c ->
       nth_error w (fidx (sg_dims g) c) = nth_error v (fidx (ss_dims sa) (setc axis 0 c))) /\
  (In (k, v) (ss_cd sa) ->
   exists w, In (k, w) (sg_cd g) /\
     forall c, in_shape (cell_shape (sg_dims g)) c ->
       nth_error w (fidx (cell_shape (sg_dims g)) c) =
       nth_error v (fidx (cell_shape (ss_dims sa)) (setc axis 0 c))).
Proof.
  intros H Hax H1. pose proof (vol_structured_inv _ _ _ _ _ _ H) as (_ & _ & Hd & _).
  destruct (first_unit_axis_spec _ Hd) as (_ & _ & Hu).
  assert (axis = first_unit_axis (ss_dims sa)) as ->.
  { destruct (Nat.eq_dec axis (first_unit_axis (ss_dims sa))) as [E|E]; auto. destruct (Hu axis Hax E); auto. }
  eapply vol_structured_data; eauto.
Qed.

Lemma vol_structured_coords' {D} volumes (sa sb : ssurf D) r m g :
  length (ss_pts sa) = size3 (ss_dims sa) ->
  generate_volume_structured volumes sa sb r m = Ok g ->
  exists axis perc,
    resolution_to_perc r m = Ok perc /\
    ss_dims sa = ss_dims sb /\
    (axis <= 2)%nat /\ comp axis (ss_dims sa) = 1%nat /\
    sg_dims g = setc axis (length perc) (ss_dims sa) /\
    length (sg_pts g) = size3 (sg_dims g) /\
    forall c t, in_shape (sg_dims g) c -> nth_error perc (comp axis c) = Some t ->
      exists x y z x' y' z',
        nth_error (ss_pts sa) (fidx (ss_dims sa) (setc axis 0 c)) = Some (x, y, z) /\
        nth_error (ss_pts sb) (fidx (ss_dims sb) (setc axis 0 c)) = Some (x', y', z') /\
        nth_error (sg_pts g) (fidx (sg_dims g) c) =
        Some (x + t * (x' - x), y + t * (y' - y), z + t * (z' - z))%R.
Proof.
  intros Hsz H. destruct (vol_structured_coords _ _ _ _ _ _ Hsz H) as
    (axis & perc & H1 & H2 & H3 & H4 & H5 & H6 & H7).
  exists axis, perc. do 6 (split; [assumption|]). intros c t Hc Ht.
  destruct (H7 c t Hc Ht) as ([[x y] z] & [[x' y'] z'] & Hp & Hq & Hg).
  exists x, y, z, x', y', z'. auto.
Qed.
