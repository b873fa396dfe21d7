From Verif Require UVol3_proof.
From Verif Require Import RealAux Perc_model Perc_spec Perc_proof Surface_model Surface_spec Surface_proof
  Volume_model Volume_spec SMerge_model SMerge_spec SMerge_proof Groups_model Groups_spec Groups_proof Groups2_proof
  Polygon_model Stack_model Stack_spec Cut_proof Gen_proof Stack_proof Stack2_proof Stack3_proof Stack4_proof
  Stack5_proof Stack6_proof Stack7_proof Trans_model Trans_spec Trans1_proof.
From Coq Require Import Lra.
Open Scope nat_scope.

(* ---- grids of a stack of lines ---- *)
Lemma plane_of ax : ax <= 2 -> plane_axes (stack2d_plane ax) (line_axis ax) ax.
Proof. destruct ax as [|[|[|]]]; intros; try lia; constructor. Qed.
Lemma plane_unique p a b a' b' : plane_axes p a b -> plane_axes p a' b' -> a' = a /\ b' = b.
Proof. destruct 1; inversion 1; auto. Qed.

Lemma line_dims_set ax n m m' : ax <= 2 ->
  setc ax m' (grid_dims (line_axis ax) ax n m) = grid_dims (line_axis ax) ax n m'.
Proof. destruct ax as [|[|[|]]]; intros; try lia; reflexivity. Qed.
Lemma line_dims_comp ax n m : ax <= 2 -> comp ax (grid_dims (line_axis ax) ax n m) = m.
Proof. destruct ax as [|[|[|]]]; intros; try lia; reflexivity. Qed.
Lemma line_coord_comp ax i l : ax <= 2 -> comp ax (grid_coord (line_axis ax) ax i l) = l.
Proof. destruct ax as [|[|[|]]]; intros; try lia; reflexivity. Qed.
Lemma line_coord_set ax i l l' : ax <= 2 ->
  setc ax l' (grid_coord (line_axis ax) ax i l) = grid_coord (line_axis ax) ax i l'.
Proof. destruct ax as [|[|[|]]]; intros; try lia; reflexivity. Qed.
Lemma line_in_shape ax n m i l : ax <= 2 ->
  in_shape (grid_dims (line_axis ax) ax n m) (grid_coord (line_axis ax) ax i l) <-> i < n /\ l < m.
Proof. destruct ax as [|[|[|]]]; intros; try lia; unfold in_shape; cbn; lia. Qed.
Lemma line_coord_all ax n m c : ax <= 2 -> in_shape (grid_dims (line_axis ax) ax n m) c ->
  exists i l, c = grid_coord (line_axis ax) ax i l /\ i < n /\ l < m.
Proof.
  destruct c as [[x y] z]. unfold in_shape. destruct ax as [|[|[|]]]; intros Hx H; try lia; cbn in H.
  - exists y, x. assert (z = 0) as -> by lia. repeat split; lia.
  - exists x, y. assert (z = 0) as -> by lia. repeat split; lia.
  - exists x, z. assert (y = 0) as -> by lia. repeat split; lia.
Qed.
Lemma line_cells ax n m : ax <= 2 -> 2 <= n -> 2 <= m ->
  n_cells (grid_dims (line_axis ax) ax n m) = (m - 1) * (n - 1).
Proof.
  intros Hx Hn Hm. unfold n_cells, cell_shape, size3.
  destruct ax as [|[|[|]]]; try lia; cbn -[Nat.max Nat.mul Nat.sub];
    rewrite (Nat.max_r 1 (n - 1)), (Nat.max_r 1 (m - 1)) by lia; change (Nat.max 1 (1 - 1)) with 1; nia.
Qed.

Lemma along_some {D} np (m : lbase D) i : wf_line np m -> i < np -> exists p, along m i = Some p.
Proof.
  intros (_ & W1 & W2 & W3 & _) Hi. unfold along.
  destruct (nth_error (ln_ids (lb_line m)) i) as [k|] eqn:E; [|apply nth_error_None in E; lia].
  rewrite Forall_forall in W3. assert (k < np) by (apply W3; eapply nth_error_In; eauto).
  destruct (nth_error (ln_pts (lb_line m)) k) eqn:E2; [eauto|apply nth_error_None in E2; lia].
Qed.

Lemma get_points_along {D} np (m : lbase D) : wf_line np m ->
  exists pa, get_points (LinePoly (lb_line m)) = Ok pa /\ length pa = np /\
    forall i, nth_error pa i = along m i.
Proof.
  intros W. pose proof W as (_ & W1 & W2 & W3 & _). unfold get_points.
  destruct (mapM_defined (fun i => match nth_error (ln_pts (lb_line m)) i with
                     | Some p => Ok p | None => Err IndexError end) (ln_ids (lb_line m))) as [pa Hpa].
  { intros k Hk. rewrite Forall_forall in W3. specialize (W3 k Hk).
    destruct (nth_error _ k) eqn:E; [eauto|apply nth_error_None in E; lia]. }
  exists pa. split; [exact Hpa|]. apply mapM_Ok in Hpa.
  split; [apply Forall2_len in Hpa; lia|].
  intros i. unfold along. destruct (nth_error (ln_ids (lb_line m)) i) as [k|] eqn:E.
  - destruct (Forall2_nth_error _ _ _ _ _ Hpa E) as (p & Hp & Hk). rewrite Hp.
    destruct (nth_error (ln_pts _) k); [congruence|discriminate].
  - apply nth_error_None. apply nth_error_None in E. apply Forall2_len in Hpa. lia.
Qed.

Section L.
Context {D : Type} (num : Z -> D) (areas : shape3 -> list pt -> list R).
Context (ax : nat) (Hax : ax <= 2) (np : nat).
Notation ops := (lops num).
Notation la := (line_axis ax).
Definition lext := (fun a b r m => generate_surface_from_two_lines areas (LinePoly (@lb_line D a))
                      (LinePoly (lb_line b)) (stack2d_plane ax) r m).

Lemma line_set_cg arr (a : lbase D) : wf_line np a -> length arr = np - 1 -> wf_line np (set_cg ops arr a).
Proof.
  intros (W1 & W2 & W3 & W4 & W5 & W6 & W7 & W8 & W9 & W10) L. unfold wf_line. cbn.
  repeat (split; [assumption|]). split; [apply aput_NoDup; auto|]. split; [auto|].
  split; [|split; [auto|congruence]].
  apply (aput_all _ _ _ (fun v => length v = np - 1)); auto. rewrite map_length; auto.
Qed.

Lemma line_block a b arr r m g :
  wf_line np a -> wf_line np b -> length arr = np - 1 ->
  lext (set_cg ops arr a) b r m = Ok g ->
  exists perc, resolution_to_perc r m = Ok perc /\ 2 <= length perc /\
    sg_dims g = grid_dims la ax np (length perc) /\
    n_cells (sg_dims g) = (length perc - 1) * (np - 1) /\ wf_grid ax g /\
    (exists w, In ("CellGroup"%string, w) (sg_cd g)) /\
    forall i j t, i < np -> nth_error perc j = Some t ->
      exists p q, along a i = Some p /\ along b i = Some q /\
        at_coord (sg_dims g) (sg_pts g) (grid_coord la ax i j) = Some (lerp t p q).
Proof.
  intros Wa Wb Harr Hx. unfold lext in Hx.
  pose proof (line_set_cg arr a Wa Harr) as Wa'.
  destruct (get_points_along np _ Wa') as (pa & Ea & La & Na).
  destruct (get_points_along np _ Wb) as (pb & Eb & Lb & Nb).
  pose proof Hx as Hx1. apply surface_coords in Hx1 as (pa' & pb' & perc & ax' & bx & Hpa & Hpb & _ & Hp & Hpl & Hd & Hl & Hc).
  rewrite Ea in Hpa. apply Ok_inj in Hpa. subst pa'. rewrite Eb in Hpb. apply Ok_inj in Hpb. subst pb'.
  destruct (plane_unique _ _ _ _ _ (plane_of ax Hax) Hpl) as [-> ->]. rewrite La in *.
  destruct (surface_data_inv _ _ _ _ _ _ _ Hx) as (perc' & Hp' & _ & Ecd & _ & Hcd).
  rewrite Hp in Hp'. apply Ok_inj in Hp'. subst perc'.
  assert (H2 : 2 <= np) by apply Wa.
  assert (Hlen : length (tile (map num arr) (length perc - 1)) = n_cells (sg_dims g)).
  { apply (Hcd "CellGroup"%string). cbn. apply aput_In. }
  rewrite tile_length, map_length, Harr in Hlen.
  assert (H3 : 2 <= length perc).
  { destruct (le_lt_dec 2 (length perc)); [auto|].
    replace (length perc - 1) with 0 in Hlen by lia. pose proof (n_cells_pos (sg_dims g)). lia. }
  exists perc. split; [exact Hp|]. split; [exact H3|]. split; [exact Hd|]. split; [auto|].
  assert (Hcn : map fst (sg_cd g) = map fst (ln_cd (lb_line (set_cg ops arr a)))).
  { rewrite Ecd, map_map. reflexivity. }
  split; [|split].
  - apply wf_unfold. rewrite Hd, line_dims_comp by auto.
    split; [|split; [auto|split; [|split; [|split]]]].
    + intros [|[|[|i]]] Hi; try lia; destruct ax as [|[|[|]]]; try lia; cbn; lia.
    + rewrite Hl. destruct ax as [|[|[|]]]; try lia; cbn -[Nat.mul]; nia.
    + rewrite Hcn. apply Wa'.
    + intros k v Hin. rewrite Ecd in Hin. apply in_map_iff in Hin as ([k0 v0] & [= <- <-] & Hin).
      rewrite <- Hd. apply (Hcd k0 v0 Hin).
    + rewrite <- Hd. clear - Hx. revert Hx. unfold generate_surface_from_two_lines, bind.
      destruct (get_points _) as [qa|]; [|discriminate]. destruct (get_points _) as [qb|]; [|discriminate].
      destruct (negb _); [discriminate|].
      destruct (resolution_to_perc r m) as [p|]; [|discriminate].
      destruct (surface_points _ _ _ _) as [[dims pts]|]; [|discriminate].
      destruct (mapM _ _); [|discriminate]. destruct (mapM _ _); [|discriminate].
      destruct (ln_ghost _) as [gh|].
      * destruct (Nat.eqb_spec (length (tile gh (length p - 1))) (n_cells dims)) as [E|]; [|discriminate].
        intros [= <-]. cbn [sg_ghost sg_dims]. now rewrite mask_set_length.
      * intros [= <-]. cbn [sg_ghost sg_dims]. now rewrite mask_set_length, repeat_length.
  - exists (tile (map num arr) (length perc - 1)). rewrite Ecd. apply in_map_iff.
    exists ("CellGroup"%string, map num arr). split; [reflexivity|]. cbn. apply aput_In.
  - intros i j t Hi Hj.
    destruct (along_some np a i Wa Hi) as [p Hpi]. destruct (along_some np b i Wb Hi) as [q Hqi].
    exists p, q. split; [exact Hpi|]. split; [exact Hqi|].
    apply Hc; [rewrite Na; exact Hpi|rewrite Nb; exact Hqi|exact Hj].
Qed.

Lemma line_block_defined a b arr r m perc :
  wf_line np a -> wf_line np b -> length arr = np - 1 ->
  resolution_to_perc r m = Ok perc -> 2 <= length perc ->
  exists g, lext (set_cg ops arr a) b r m = Ok g.
Proof.
  intros Wa Wb Harr Hp H2. unfold lext.
  pose proof (line_set_cg arr a Wa Harr) as Wa'.
  destruct (get_points_along np _ Wa') as (pa & Ea & La & Na).
  destruct (get_points_along np _ Wb) as (pb & Eb & Lb & Nb).
  unfold generate_surface_from_two_lines. rewrite Ea, Eb. cbn [bind].
  rewrite La, Lb, Nat.eqb_refl. cbn [negb]. rewrite Hp. cbn [bind].
  destruct (surface_points_defined (stack2d_plane ax) _ _ pa pb perc (plane_of ax Hax)) as [[dims pts] Hs].
  rewrite Hs. cbn [bind].
  apply surface_points_spec in Hs. destruct Hs as (ax' & bx & Hpl & Hd & Hlen & _).
  destruct (plane_unique _ _ _ _ _ (plane_of ax Hax) Hpl) as [-> ->]. rewrite La in *.
  destruct Wa' as (W1 & W2 & W3 & W4 & W5 & W6 & W7 & W8 & W9 & W10).
  assert (Hnc : n_cells dims = (length perc - 1) * (np - 1)) by (rewrite Hd; apply line_cells; auto).
  edestruct (mapM_defined (fun kv : string * list D => assign_data (length pts)
      (fst kv, tile (snd kv) (length perc))) (ln_pd (lb_line (set_cg ops arr a)))) as [pd Hpd].
  { intros [k v] Hin. cbn [fst snd]. unfold assign_data. cbn [snd].
    rewrite tile_length, Hlen, (W7 k v Hin), (Nat.mul_comm np), Nat.eqb_refl. eauto. }
  rewrite Hpd. cbn [bind].
  edestruct (mapM_defined (fun kv : string * list D => assign_data (n_cells dims)
      (fst kv, tile (snd kv) (length perc - 1))) (ln_cd (lb_line (set_cg ops arr a)))) as [cd Hcd].
  { intros [k v] Hin. cbn [fst snd]. unfold assign_data. cbn [snd].
    rewrite tile_length, (W8 k v Hin), Hnc, Nat.eqb_refl. eauto. }
  rewrite Hcd. cbn [bind].
  destruct (ln_ghost (lb_line (set_cg ops arr a))) as [gh|] eqn:Eg.
  - rewrite tile_length, (W9 gh eq_refl), Hnc, Nat.eqb_refl. cbn [bind]. eauto.
  - cbn [bind]. eauto.
Qed.

Lemma line_aligned m : wf_line np m -> aligned (gview ops m).
Proof.
  intros (_ & _ & _ & _ & W5 & _ & _ & _ & _ & W). unfold aligned. cbn. rewrite seq_length, W5.
  destruct (lb_cg m); auto.
Qed.

(* the blocks between the lines *)
Lemma line_blocks o name i1 rest bs groups n :
  Forall (fun it => it_trans it = false) rest ->
  Forall (fun i => wf_line np (it_mesh i)) (i1 :: rest) ->
  gen_loop ops o name lext (fun _ _ _ _ => Err NotImplementedError) 0 0 [] i1 rest = Ok (bs, groups, n) ->
  exists nsubs, layer_counts rest nsubs /\ length bs = length rest /\ n = list_sum nsubs /\
    forall j a b, nth_error (i1 :: rest) j = Some a -> nth_error rest j = Some b ->
      exists perc blk, resolution_to_perc (it_res b) (it_method b) = Ok perc /\ 2 <= length perc /\
        nth_error nsubs j = Some (length perc - 1) /\ nth_error bs j = Some blk /\
        sg_dims blk = grid_dims la ax np (length perc) /\ wf_grid ax blk /\
        forall i k t, i < np -> nth_error perc k = Some t ->
          exists p q, along (it_mesh a) i = Some p /\ along (it_mesh b) i = Some q /\
            at_coord (sg_dims blk) (sg_pts blk) (grid_coord la ax i k) = Some (lerp t p q).
Proof.
  intros Ht Hw Hg.
  assert (Hal : Forall (fun i => aligned (gview ops (it_mesh i))) (i1 :: rest)).
  { eapply Forall_impl; [|exact Hw]. intros i. apply line_aligned. }
  destruct (gen_loop_inv _ _ _ _ _ _ _ _ _ _ _ _ _ Ht numbered_nil Hal Hg) as (_ & _ & nsubs & Ln & Lb & En & HJ).
  rewrite Forall_forall in Hw. exists nsubs.
  assert (HK : forall j a b, nth_error (i1 :: rest) j = Some a -> nth_error rest j = Some b ->
      exists perc blk, resolution_to_perc (it_res b) (it_method b) = Ok perc /\ 2 <= length perc /\
        nth_error nsubs j = Some (length perc - 1) /\ nth_error bs j = Some blk /\
        sg_dims blk = grid_dims la ax np (length perc) /\ wf_grid ax blk /\
        forall i k t, i < np -> nth_error perc k = Some t ->
          exists p q, along (it_mesh a) i = Some p /\ along (it_mesh b) i = Some q /\
            at_coord (sg_dims blk) (sg_pts blk) (grid_coord la ax i k) = Some (lerp t p q)).
  { intros j a b Ha Hb.
    destruct (HJ j a b Ha Hb) as (arr & gj & gj' & b0 & nsub & H1 & H2 & H3 & H4 & H5 & H6 & H7 & H8 & H9).
    assert (Wa : wf_line np (it_mesh a)) by (apply Hw; eapply nth_error_In; eauto).
    assert (Wb : wf_line np (it_mesh b)) by (apply Hw; right; eapply nth_error_In; eauto).
    assert (Larr : length arr = np - 1).
    { destruct (initialize_spec _ _ _ _ _ _ _ H2 (line_aligned _ Wa) H1) as (_ & _ & L & _).
      rewrite L. cbn. rewrite seq_length. apply Wa. }
    destruct (line_block _ _ _ _ _ _ Wa Wb Larr H5) as (perc & Hp & Hp2 & Hd & Hn & Hwf & _ & Hpt).
    assert (Hnc : ncM ops (set_cg ops arr (it_mesh a)) = np - 1) by (cbn; apply Wa).
    rewrite Hnc in *. change (ncB ops b0) with (n_cells (sg_dims b0)) in H8.
    assert (nsub = length perc - 1) as ->. { rewrite Hn in H8. apply Nat.mul_cancel_r in H8; auto. }
    eexists perc, _. split; [exact Hp|]. split; [exact Hp2|]. split; [exact H6|]. split; [exact H9|].
    cbn [put_all numbered_ids fold_left fst snd put_ids lops sg_dims sg_pts].
    split; [exact Hd|]. split; [|exact Hpt].
    apply wf_unfold in Hwf as (F1 & F2 & F3 & F4 & F5 & F6). apply wf_unfold.
    cbn [sg_dims sg_pts sg_cd sg_ghost]. repeat (split; [assumption|]).
    split; [repeat apply aput_NoDup; exact F4|]. split; [|exact F6].
    assert (Llen : forall k : list Z, length k = (length perc - 1) * (np - 1) -> length (map num k) = n_cells (sg_dims b0))
      by (intros k Hk; rewrite map_length, Hk; auto).
    repeat (apply (aput_all _ _ _ (fun v => length v = n_cells (sg_dims b0)));
      [apply Llen; rewrite ?tile_length, ?repeat_each_length, ?map_length, ?seq_length, ?repeat_length; reflexivity|]).
    exact F5. }
  split; [split; [exact Ln|]|split; [exact Lb|split; [exact En|exact HK]]].
  intros j b Hb. destruct (nth_error (i1 :: rest) j) as [a|] eqn:Ha.
  - destruct (HK j a b Ha Hb) as (perc & blk & Hp & _ & Hn & _). exists (length perc - 1).
    split; [exact Hn|]. exists perc. auto.
  - apply nth_error_None in Ha. assert (j < length rest) by (apply nth_error_Some; congruence). simpl in Ha. lia.
Qed.

Lemma line_offset nsubs (bs : list (sgrid D)) : length bs = length nsubs ->
  (forall j blk, nth_error bs j = Some blk -> exists ns, nth_error nsubs j = Some ns /\ comp ax (sg_dims blk) = S ns) ->
  map (fun g => comp ax (sg_dims g) - 1) bs = nsubs.
Proof.
  intros L H. apply nth_error_ext. intros k. rewrite nth_error_map.
  destruct (nth_error bs k) as [blk|] eqn:Ek; cbn [option_map].
  - destruct (H k blk Ek) as (ns & -> & ->). f_equal. lia.
  - symmetry. apply nth_error_None. apply nth_error_None in Ek. lia.
Qed.

Lemma nth_pred {X} (x : X) l j y : nth_error l j = Some y -> exists z, nth_error (x :: l) j = Some z.
Proof.
  intros H. destruct (nth_error (x :: l) j) eqn:E; [eauto|]. apply nth_error_None in E.
  assert (j < length l) by (apply nth_error_Some; congruence). simpl in E. lia.
Qed.

Lemma lines_are_rows o name i1 rest bs groups n g :
  rest <> [] ->
  Forall (fun it => it_trans it = false) rest -> Forall positions_span rest ->
  Forall (fun i => wf_line np (it_mesh i)) (i1 :: rest) ->
  gen_loop ops o name lext (fun _ _ _ _ => Err NotImplementedError) 0 0 [] i1 rest = Ok (bs, groups, n) ->
  merge_structured bs (Some ax) = Ok g ->
  exists nsubs, layer_counts rest nsubs /\ n = list_sum nsubs /\
    sg_dims g = grid_dims la ax np (S n) /\
    forall j a i, nth_error (i1 :: rest) j = Some a -> i < np ->
      exists p, along (it_mesh a) i = Some p /\
        at_coord (sg_dims g) (sg_pts g) (grid_coord la ax i (list_sum (firstn j nsubs))) = Some p.
Proof.
  intros Hne Ht Hs Hw Hg Hm.
  destruct (line_blocks _ _ _ _ _ _ _ Ht Hw Hg) as (nsubs & HL & Lb & En & HK).
  exists nsubs. split; [exact HL|]. split; [exact En|].
  assert (HB : forall j blk, nth_error bs j = Some blk -> exists a b, nth_error (i1 :: rest) j = Some a /\ nth_error rest j = Some b).
  { intros j blk Hj. destruct (nth_error rest j) as [b|] eqn:Hb.
    - destruct (nth_pred i1 rest j b Hb) as [a Ha]. eauto.
    - apply nth_error_None in Hb. assert (j < length bs) by (apply nth_error_Some; congruence). lia. }
  assert (HD : forall j blk, nth_error bs j = Some blk -> exists ns, nth_error nsubs j = Some ns /\
            sg_dims blk = grid_dims la ax np (S ns) /\ wf_grid ax blk).
  { intros j blk Hj. destruct (HB j blk Hj) as (a & b & Ha & Hb).
    destruct (HK j a b Ha Hb) as (perc & blk' & _ & Hp2 & Hn & Hblk & Hd & Hwf & _).
    rewrite Hj in Hblk. injection Hblk as <-. exists (length perc - 1). split; [exact Hn|].
    split; [|exact Hwf]. rewrite Hd. f_equal. lia. }
  assert (W : Forall (wf_grid ax) bs).
  { rewrite Forall_forall. intros x Hx. apply In_nth_error in Hx as [k Hk]. destruct (HD k x Hk) as (? & _ & _ & ?); auto. }
  assert (E : map (fun g => comp ax (sg_dims g) - 1) bs = nsubs).
  { apply line_offset; [destruct HL; lia|]. intros j blk Hj. destruct (HD j blk Hj) as (ns & Hn & -> & _).
    exists ns. split; [auto|]. apply line_dims_comp; auto. }
  destruct (merge_concatenates ax bs g Hax W Hm) as (Wg & Hc & Ho & Hpt & _).
  rewrite E, <- En in Hc.
  assert (Hd : sg_dims g = grid_dims la ax np (S n)).
  { destruct bs as [|b1 bs]; [destruct rest; [congruence|simpl in Lb; lia]|].
    destruct (HD 0 b1 eq_refl) as (ns & _ & Hd1 & _).
    assert (forall a, a <= 2 -> comp a (sg_dims g) = comp a (grid_dims la ax np (S n))) as HC.
    { intros a Ha. destruct (Nat.eq_dec a ax) as [->|N].
      - rewrite Hc, line_dims_comp by auto. lia.
      - rewrite (Ho a b1 Ha N (or_introl eq_refl)), Hd1. clear - Hax Ha N.
        destruct ax as [|[|[|]]], a as [|[|[|]]]; try lia; reflexivity. }
    pose proof (HC 0 ltac:(lia)) as C0. pose proof (HC 1 ltac:(lia)) as C1. pose proof (HC 2 ltac:(lia)) as C2.
    destruct (sg_dims g) as [[x y] z], (grid_dims la ax np (S n)) as [[x' y'] z']. cbn in *. congruence. }
  split; [exact Hd|].
  assert (Hoff : forall j, offset ax bs j = list_sum (firstn j nsubs)).
  { intros j. unfold offset. rewrite <- firstn_map, E. reflexivity. }
  assert (HR : forall j a b blk perc i k t, nth_error (i1 :: rest) j = Some a -> nth_error rest j = Some b ->
      nth_error bs j = Some blk -> resolution_to_perc (it_res b) (it_method b) = Ok perc ->
      i < np -> nth_error perc k = Some t -> (j = 0 \/ 0 < k) ->
      exists p q, along (it_mesh a) i = Some p /\ along (it_mesh b) i = Some q /\
        at_coord (sg_dims g) (sg_pts g) (grid_coord la ax i (list_sum (firstn j nsubs) + k)) = Some (lerp t p q)).
  { intros j a b blk perc i k t Ha Hb Hj Hp Hi Hk H0.
    destruct (HK j a b Ha Hb) as (perc' & blk' & Hp' & Hp2 & Hn & Hblk & Hdb & Hwf & Hco).
    rewrite Hp in Hp'. apply Ok_inj in Hp'. subst perc'. rewrite Hj in Hblk. injection Hblk as <-.
    destruct (Hco i k t Hi Hk) as (p & q & A & B & C). exists p, q. split; [exact A|]. split; [exact B|].
    assert (Hkl : k < length perc) by (apply nth_error_Some; congruence).
    assert (Hin : in_shape (sg_dims blk) (grid_coord la ax i k)) by (rewrite Hdb; apply line_in_shape; auto).
    destruct (Hpt j blk _ Hj Hin) as (Hx & _). rewrite line_coord_comp in Hx by auto. specialize (Hx H0).
    unfold shifted in Hx. rewrite line_coord_comp, line_coord_set, Hoff in Hx by auto.
    rewrite Hx. exact C. }
  rewrite Forall_forall in Hs.
  intros j a i Ha Hi. destruct j as [|j].
  - destruct rest as [|b rest]; [congruence|].
    destruct (Hs b (or_introl eq_refl)) as (perc & Hp & _ & H0 & _).
    destruct bs as [|b1 bs]; [simpl in Lb; lia|].
    destruct (HR 0 a b b1 perc i 0 0%R Ha eq_refl eq_refl Hp Hi H0 (or_introl eq_refl)) as (p & q & A & B & C).
    exists p. split; [exact A|]. rewrite lerp_0, Nat.add_0_r in C. exact C.
  - cbn [nth_error] in Ha. destruct (nth_pred i1 rest j a Ha) as [a0 Ha0].
    destruct (HK j a0 a Ha0 Ha) as (perc' & blk & Hp' & _ & Hn & Hblk & _).
    destruct (Hs a) as (perc & Hp & Hp2 & _ & H1); [eapply nth_error_In; eauto|].
    rewrite Hp in Hp'. apply Ok_inj in Hp'. subst perc'.
    destruct (HR j a0 a blk perc i _ 1%R Ha0 Ha Hblk Hp Hi H1 ltac:(right; lia)) as (p & q & A & B & C).
    exists q. split; [exact B|]. rewrite (list_sum_firstn_S _ _ _ Hn). rewrite lerp_1 in C. exact C.
Qed.

(* the mesh exists *)
Lemma lines_defined o name i1 rest :
  rest <> [] ->
  Forall (fun it => it_trans it = false /\ positions_span it /\ group_by_name it) rest ->
  Forall (fun i => wf_line np (it_mesh i)) (i1 :: rest) ->
  exists bs groups n g,
    gen_loop ops o name lext (fun _ _ _ _ => Err NotImplementedError) 0 0 [] i1 rest = Ok (bs, groups, n) /\
    merge_structured bs (Some ax) = Ok g.
Proof.
  intros Hne HP Hw.
  assert (Ht : Forall (fun it => it_trans it = false) rest) by (eapply Forall_impl; [|exact HP]; cbn; tauto).
  assert (HD : exists r, gen_loop ops o name lext (fun _ _ _ _ => Err NotImplementedError) 0 0 [] i1 rest = Ok r).
  { rewrite Forall_forall in HP, Hw. apply gen_loop_err; auto.
    - apply numbered_nil.
    - rewrite Forall_forall. intros i Hi. apply line_aligned. auto.
    - intros j a b arr g g' Hnum Ha Hb Hi.
      assert (Wa : wf_line np (it_mesh a)) by (apply Hw; eapply nth_error_In; eauto).
      assert (Wb : wf_line np (it_mesh b)) by (apply Hw; right; eapply nth_error_In; eauto).
      assert (Larr : length arr = np - 1).
      { destruct (initialize_spec _ _ _ _ _ _ _ Hnum (line_aligned _ Wa) Hi) as (_ & _ & L & _).
        rewrite L. cbn. rewrite seq_length. apply Wa. }
      destruct (HP b) as (_ & (perc & Hp & Hp2 & _) & _); [eapply nth_error_In; eauto|].
      destruct (line_block_defined _ _ _ _ _ _ Wa Wb Larr Hp Hp2) as [b0 Hb0].
      exists b0, (length perc - 1). split; [exact Hb0|].
      destruct (line_block _ _ _ _ _ _ Wa Wb Larr Hb0) as (perc' & Hp' & _ & _ & Hn & _).
      rewrite Hp in Hp'. apply Ok_inj in Hp'. subst perc'.
      assert (Hnc : ncM ops (set_cg ops arr (it_mesh a)) = np - 1) by (cbn; apply Wa).
      rewrite Hnc. split; [destruct Wa as (? & _); lia|exact Hn].
    - intros j a b g Ha Hb. apply initialize_total. apply HP. eapply nth_error_In; eauto. }
  destruct HD as [[[bs groups] n] Hg].
  destruct (line_blocks _ _ _ _ _ _ _ Ht Hw Hg) as (nsubs & HL & Lb & En & HK).
  exists bs, groups, n.
  assert (HB : forall j blk, nth_error bs j = Some blk -> exists a b, nth_error (i1 :: rest) j = Some a /\ nth_error rest j = Some b).
  { intros j blk Hj. destruct (nth_error rest j) as [b|] eqn:Hb.
    - destruct (nth_pred i1 rest j b Hb) as [a Ha]. eauto.
    - apply nth_error_None in Hb. assert (j < length bs) by (apply nth_error_Some; congruence). lia. }
  assert (W : forall j blk, nth_error bs j = Some blk -> wf_grid ax blk).
  { intros j blk Hj. destruct (HB j blk Hj) as (a & b & Ha & Hb).
    destruct (HK j a b Ha Hb) as (perc & blk' & _ & _ & _ & Hblk & _ & Hwf & _). congruence. }
  rewrite Forall_forall in HP.
  assert (Hch : chain (interface_ok ax) bs).
  { apply chain_nth. intros j A B HA HBj.
    destruct (HB j A HA) as (a & b & Ha & Hb). destruct (HB (S j) B HBj) as (b' & e & Hb' & He).
    assert (b' = b) as -> by (simpl in Hb'; rewrite Hb in Hb'; congruence).
    destruct (HK j a b Ha Hb) as (p1 & x & Hp1 & Hp1l & _ & Hx & Hd1 & _ & Hc1).
    rewrite HA in Hx. injection Hx as <-.
    destruct (HK (S j) b e Hb' He) as (p2 & x & Hp2 & Hp2l & _ & Hx & Hd2 & _ & Hc2).
    rewrite HBj in Hx. injection Hx as <-.
    split; [rewrite Hd1, Hd2, !line_dims_set; auto|].
    intros c p q Hc HpA HqB. rewrite Hd1, line_dims_set in Hc by auto.
    destruct (line_coord_all ax np 1 c Hax Hc) as (i & l & -> & Hi & Hl).
    rewrite line_coord_set in HpA, HqB by auto.
    destruct (HP b) as (_ & (q1 & Hq1 & _ & _ & Hlast) & _); [eapply nth_error_In; eauto|].
    rewrite Hp1 in Hq1. apply Ok_inj in Hq1. subst q1.
    destruct (HP e) as (_ & (q2 & Hq2 & _ & Hfirst & _) & _); [eapply nth_error_In; eauto|].
    rewrite Hp2 in Hq2. apply Ok_inj in Hq2. subst q2.
    destruct (Hc1 i _ _ Hi Hlast) as (u & v & _ & Hv & Huv).
    destruct (Hc2 i _ _ Hi Hfirst) as (v' & w & Hv' & _ & Hvw).
    rewrite Hd1, line_dims_comp in HpA by auto. rewrite Hd1 in Huv. rewrite Huv in HpA. rewrite Hvw in HqB.
    rewrite lerp_1 in HpA. rewrite lerp_0 in HqB. injection HpA as <-. injection HqB as <-.
    assert (v' = v) as -> by congruence. apply UVol3_proof.near_refl. }
  destruct bs as [|b1 bs]; [destruct rest; [congruence|simpl in Lb; lia]|].
  destruct (proj1 (merge_fold_defined ax b1 bs Hax (W 0 b1 eq_refl)
     ltac:(rewrite Forall_forall; intros x Hx; apply In_nth_error in Hx as [k Hk]; apply (W (S k) x Hk)))) as [F _].
  destruct (F Hch) as [g Hg']. exists g. split; [exact Hg|]. rewrite merge_is_fold; auto.
Qed.

Lemma line_wf_only i j : only_points ops i j -> wf_line np (it_mesh i) ->
  length (points ops j) = np -> wf_line np (it_mesh j).
Proof.
  intros (E & _) (A1 & A2 & A3 & A4 & A5 & A6 & A7 & A8 & A9 & A10) Hl. rewrite E. cbn.
  unfold wf_line; cbn. repeat split; auto.
Qed.

Lemma line_after_cut bu i1 rest js :
  Forall (fun i => wf_line np (it_mesh i)) (i1 :: rest) ->
  cut_loop ops ax bu i1 rest = Ok js ->
  Forall2 (only_points ops) (i1 :: rest) js /\ Forall (fun i => wf_line np (it_mesh i)) js.
Proof.
  intros Hw Hc. pose proof (cut_loop_sizes ops (lops_lawful num) ax bu rest i1 js Hc) as HF.
  clear Hc. revert Hw. induction HF as [|i j l l' (Ho & Hl) HF IH]; intros Hw; [split; constructor|].
  inversion Hw as [|? ? Wi Wl]; subst. destruct (IH Wl) as [I1 I2].
  split; constructor; auto. apply (line_wf_only i); auto. rewrite Hl. apply Wi.
Qed.
End L.

Lemma stack2d_defined {D} (num : Z -> D) areas o ax bu np items :
  ax <= 2 -> 2 <= length items ->
  Forall (fun i => wf_line np (it_mesh i)) items ->
  Forall (fun it => it_trans it = false /\ positions_span it /\ group_by_name it) (tl items) ->
  exists g groups n js, stack2d num areas o ax bu items = Ok (g, groups, n, js).
Proof.
  intros Hax H2 Hw Ht. destruct items as [|i1 [|i2 rest]]; simpl in H2; try lia. clear H2.
  set (r := i2 :: rest) in *. cbn [tl] in Ht.
  destruct (cut_loop_defined (lops num) (lops_lawful num) ax bu np r i1) as [js Hc].
  { intros i Hi. rewrite Forall_forall in Hw. apply (Hw i Hi). }
  destruct (line_after_cut num ax np bu i1 r js Hw Hc) as [HF HW].
  destruct (cut_loop_cons _ _ _ _ _ _ Hc) as (j1 & rest' & -> & Hl).
  assert (HF' : Forall2 (only_points (lops num)) r rest') by (inversion HF; auto).
  assert (HP : Forall (fun it => it_trans it = false /\ positions_span it /\ group_by_name it) rest').
  { clear -HF' Ht. revert Ht; induction HF' as [|i j l l' Ho HF IH]; intros Ht; constructor;
      inversion Ht as [|? ? Hi Hl]; subst; auto.
    destruct Ho as (_ & E1 & E2 & _ & _ & E3 & E4). unfold positions_span, group_by_name in *.
    rewrite E1, E2, E3, E4. auto. }
  destruct (lines_defined num areas ax Hax np o "StackItem"%string j1 rest')
    as (bs & groups & n & g & Hg & Hm); auto.
  - destruct rest'; [simpl in Hl; lia|discriminate].
  - exists g, groups, n, (j1 :: rest'). unfold stack2d, stack_generate, r in *. rewrite Hc.
    cbn [bind]. unfold lext in Hg. rewrite Hg. cbn [bind]. rewrite Hm. reflexivity.
Qed.

Lemma stack2d_lines {D} (num : Z -> D) areas o ax bu np items g groups n js :
  ax <= 2 ->
  Forall (fun i => wf_line np (it_mesh i)) items ->
  Forall (fun it => it_trans it = false /\ positions_span it) (tl items) ->
  stack2d num areas o ax bu items = Ok (g, groups, n, js) ->
  exists nsubs, layer_counts (tl items) nsubs /\ n = list_sum nsubs /\
    sg_dims g = grid_dims (line_axis ax) ax np (S n) /\
    Forall2 (only_points (lops num)) items js /\
    forall j a i, nth_error js j = Some a -> i < np ->
      exists p, along (it_mesh a) i = Some p /\
        at_coord (sg_dims g) (sg_pts g) (grid_coord (line_axis ax) ax i (list_sum (firstn j nsubs))) = Some p.
Proof.
  intros Hax Hw Ht H.
  apply stack_inv in H as (i1 & rest & j1 & rest' & bs & -> & Hne & -> & Hl & Hc & Hg & Hm).
  destruct (line_after_cut num ax np bu i1 rest _ Hw Hc) as [HF HW].
  assert (HF' : Forall2 (only_points (lops num)) rest rest') by (inversion HF; auto).
  assert (HP : Forall (fun it => it_trans it = false /\ positions_span it) rest').
  { cbn [tl] in Ht. clear -HF' Ht. revert Ht; induction HF' as [|i j l l' Ho HF IH]; intros Ht; constructor;
      inversion Ht as [|? ? Hi Hl]; subst; auto.
    destruct Ho as (_ & E1 & E2 & _ & _ & _ & E4). unfold positions_span in *. rewrite E1, E2, E4. tauto. }
  destruct (lines_are_rows num areas ax Hax np o "StackItem"%string j1 rest' bs groups n g)
    as (nsubs & H1 & H2 & H3 & H4); auto.
  - destruct rest'; [destruct rest; [congruence|simpl in Hl; lia]|discriminate].
  - eapply Forall_impl; [|exact HP]. cbn; tauto.
  - eapply Forall_impl; [|exact HP]. cbn; tauto.
  - exists nsubs. split; [cbn [tl]; eapply layer_counts_only; eauto|]. auto.
Qed.
