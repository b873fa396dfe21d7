From Verif Require Import RealAux Perc_model Perc_spec Perc_proof Surface_model Surface_spec Surface_proof
  Volume_model Volume_spec SMerge_model SMerge_spec SMerge_proof UVol3_proof
  Groups_model Groups_spec Groups_proof Groups2_proof
  Stack_model Stack_spec Cut_proof Gen_proof Stack_proof Stack2_proof Stack3_proof Stack4_proof Stack6_proof Stack7_proof
  Final_model Final_spec Final1_proof Final2_proof Final3_proof Line_spec.
From Coq Require Import Lra.
Open Scope nat_scope.

(* ---- blocks merged along an axis ---- *)
Section Blocks.
Context {D : Type} (ax : nat) (Hax : ax <= 2) (d : shape3) (bs : list (sgrid D)) (nsubs : list nat) (g : sgrid D).
Context (Hne : bs <> []) (Hlen : length bs = length nsubs).
Context (HW : forall j blk, nth_error bs j = Some blk -> wf_grid ax blk /\ exists ns,
            nth_error nsubs j = Some ns /\ 1 <= ns /\ sg_dims blk = setc ax (S ns) d).
Context (Hm : merge_structured bs (Some ax) = Ok g).

Lemma bl_offset j : j <= length bs -> offset ax bs j = list_sum (firstn j nsubs).
Proof.
  intros Hj. unfold offset.
  assert (E : map (fun g => comp ax (sg_dims g) - 1) bs = nsubs).
  { apply nth_error_ext. intros k. rewrite nth_error_map.
    destruct (nth_error bs k) as [blk|] eqn:Ek; cbn [option_map].
    - destruct (HW k blk Ek) as (_ & ns & Hns & _ & ->). rewrite Hns, comp_setc. f_equal. lia.
    - symmetry. apply nth_error_None. apply nth_error_None in Ek. lia. }
  rewrite <- firstn_map, E. reflexivity.
Qed.

Lemma bl_wf : exists b1 l, bs = b1 :: l /\ wf_grid ax b1 /\ Forall (wf_grid ax) l /\ merge_fold ax b1 l = Ok g.
Proof.
  destruct bs as [|b1 l] eqn:Eb; [congruence|]. exists b1, l. split; [reflexivity|].
  split; [apply (HW 0 b1 eq_refl)|]. split.
  - rewrite Forall_forall. intros x Hx. apply In_nth_error in Hx as [k Hk]. apply (HW (S k) x Hk).
  - rewrite <- (merge_is_fold ax b1 l). exact Hm.
Qed.

Lemma bl_dims : wf_grid ax g /\ sg_dims g = setc ax (S (list_sum nsubs)) d /\ 1 <= list_sum nsubs.
Proof.
  destruct bl_wf as (b1 & l & Eb & W1 & Wl & Hf).
  destruct (merge_fold_wf ax b1 l g Hax W1 Wl Hf) as (Wg & Hdg & _). split; [exact Wg|].
  destruct (HW 0 b1) as (_ & ns1 & Hns1 & Hp & Hd1); [rewrite Eb; reflexivity|]. split.
  - rewrite Hdg, Hd1, setc_setc. f_equal. f_equal. rewrite <- Eb.
    rewrite bl_offset by (rewrite Eb; cbn; lia). f_equal. apply firstn_all2. rewrite <- Hlen, Eb. cbn. lia.
  - destruct nsubs as [|m ms]; [discriminate|]. cbn in Hns1. injection Hns1 as ->. simpl. lia.
Qed.

Lemma bl_keys k : In k (map fst (sg_cd g)) <-> forall b, In b bs -> In k (map fst (sg_cd b)).
Proof.
  destruct bl_wf as (b1 & l & Eb & W1 & Wl & Hf). rewrite Eb.
  apply (merge_fold_cells ax b1 l g Hax W1 Wl Hf).
Qed.

Lemma bl_cell c : in_shape (cell_shape (sg_dims g)) c ->
  exists j blk ns, layer_in nsubs (comp ax c) j /\ nth_error bs j = Some blk /\ nth_error nsubs j = Some ns /\
    list_sum (firstn j nsubs) <= comp ax c < list_sum (firstn j nsubs) + ns /\
    let c' := setc ax (comp ax c - list_sum (firstn j nsubs)) c in
    in_shape (cell_shape (sg_dims blk)) c' /\
    (forall k x v, In (k, x) (sg_cd g) -> In (k, v) (sg_cd blk) ->
       at_coord (cell_shape (sg_dims g)) x c = at_coord (cell_shape (sg_dims blk)) v c') /\
    at_coord (cell_shape (sg_dims g)) (sg_ghost g) c = at_coord (cell_shape (sg_dims blk)) (sg_ghost blk) c'.
Proof.
  intros Hc. destruct bl_dims as (Wg & Hd & Hn1).
  assert (Hl : comp ax c < list_sum nsubs).
  { pose proof (in_shape_comp ax _ _ Hc) as H. rewrite cell_shape_comp, Hd, comp_setc in H. lia. }
  destruct (layer_find _ _ Hl) as (j & Hj & Hin).
  destruct (nth_error bs j) as [blk|] eqn:Hblk; [|apply nth_error_None in Hblk; lia].
  destruct (HW j blk Hblk) as (Wb & ns & Hns & Hpos & Hdb).
  exists j, blk, ns. split; [exact Hin|]. split; [exact Hblk|]. split; [exact Hns|].
  set (off := list_sum (firstn j nsubs)) in *.
  assert (Hrange : off <= comp ax c < off + ns).
  { unfold layer_in in Hin. rewrite (list_sum_firstn_S _ _ _ Hns) in Hin. exact Hin. }
  split; [exact Hrange|]. cbv zeta.
  set (c' := setc ax (comp ax c - off) c).
  assert (Hc' : in_shape (cell_shape (sg_dims blk)) c').
  { rewrite Hdb. unfold c'. rewrite cell_shape_setc. rewrite Hd, cell_shape_setc in Hc.
    assert (Z : setc ax 0 (cell_shape d) = setc ax 0 (setc ax (Nat.max 1 (S (list_sum nsubs) - 1)) (cell_shape d)))
      by (rewrite setc_setc; auto).
    apply (in_shape_swap ax _ _ _ c _ Hc Z). lia. }
  destruct bl_wf as (b1 & l & Eb & W1 & Wl & Hf).
  assert (Hsh : shifted ax (offset ax (b1 :: l) j) c' = c).
  { rewrite <- Eb, bl_offset by lia. fold off. unfold shifted, c'. rewrite comp_setc, setc_setc.
    replace (off + (comp ax c - off)) with (comp ax c) by lia. apply setc_comp. }
  destruct (merge_fold_cells ax b1 l g Hax W1 Wl Hf) as (_ & HC & HGh).
  rewrite Eb in Hblk. split; [exact Hc'|]. split.
  - intros k x v Hx Hv. pose proof (HC k x j blk v c' Hx Hblk Hv Hc') as E. rewrite Hsh in E. exact E.
  - pose proof (HGh j blk c' Hblk Hc') as E. rewrite Hsh in E. exact E.
Qed.

Lemma bl_point j blk c q : nth_error bs j = Some blk -> in_shape (sg_dims blk) c ->
  at_coord (sg_dims blk) (sg_pts blk) c = Some q ->
  exists r, at_coord (sg_dims g) (sg_pts g) (setc ax (list_sum (firstn j nsubs) + comp ax c) c) = Some r /\
    near r q /\ (j = 0 \/ 0 < comp ax c -> r = q).
Proof.
  intros Hblk Hc Hq. destruct bl_wf as (b1 & l & Eb & W1 & Wl & Hf).
  assert (Hj : j < length bs) by (apply nth_error_Some; congruence).
  destruct (HW j blk Hblk) as (Wb & ns & Hns & Hpos & Hdb).
  destruct (merge_fold_points ax b1 l g Hax W1 Wl Hf j blk c) as [P1 P2]; [rewrite <- Eb; exact Hblk|exact Hc|].
  rewrite <- Eb, bl_offset in P1, P2 by lia. unfold shifted in P1, P2.
  destruct bl_dims as (Wg & Hd & _). apply wf_unfold in Wg as (_ & _ & Lp & _).
  destruct (at_coord_some (sg_dims g) (sg_pts g) (setc ax (list_sum (firstn j nsubs) + comp ax c) c)) as [r Hr]; [|exact Lp|].
  - rewrite Hd. rewrite Hdb in Hc. apply (in_shape_swap ax _ _ _ c _ Hc); [rewrite setc_setc; auto|].
    pose proof (in_shape_comp ax _ _ Hc) as H. rewrite comp_setc in H.
    assert (HS : list_sum (firstn (S j) nsubs) <= list_sum nsubs).
    { rewrite <- (firstn_skipn (S j) nsubs) at 2. rewrite list_sum_app. lia. }
    rewrite (list_sum_firstn_S _ _ _ Hns) in HS. lia.
  - exists r. split; [exact Hr|]. split; [eauto|]. intros HH. specialize (P1 HH). congruence.
Qed.
End Blocks.

(* ---- one strip ---- *)
Section Strip.
Context {D : Type} (num : Z -> D) (areas : shape3 -> list pt -> list R).
Context (Har : forall dims pts, length (areas dims pts) = n_cells dims).
Context (ax : nat) (Hax : ax <= 2) (nc : nat).
Notation ops := (lops num).
Notation la := (across ax).

Definition lextr (a b : lbase D) r m := generate_surface_from_two_lines areas (LinePoly (lb_line a))
                      (LinePoly (lb_line b)) (stack2d_plane ax) r m.

Definition lbase_dims := grid_dims la ax (S nc) 1.

Lemma strip_dims n : grid_dims la ax (S nc) n = setc ax n lbase_dims.
Proof. unfold lbase_dims, grid_dims, across. destruct ax as [|[|[|]]]; try lia; reflexivity. Qed.

Lemma plane_axes_across x y : plane_axes (stack2d_plane ax) x y -> x = la /\ y = ax.
Proof. destruct ax as [|[|[|]]]; try lia; cbn; intros H; inversion H; auto. Qed.

Lemma seg_comp i l : comp ax (seg_at ax i l) = l.
Proof. unfold seg_at, grid_coord, across. destruct ax as [|[|[|]]]; try lia; reflexivity. Qed.
Lemma seg_setc i l k : setc ax k (seg_at ax i l) = seg_at ax i k.
Proof. unfold seg_at, grid_coord, across. destruct ax as [|[|[|]]]; try lia; reflexivity. Qed.
Lemma seg_in i l n : 1 <= nc -> 1 <= n -> i < nc -> l < n -> in_shape (cell_shape (grid_dims la ax (S nc) (S n))) (seg_at ax i l).
Proof.
  intros. unfold seg_at, grid_coord, across, grid_dims. destruct ax as [|[|[|]]]; try lia; cbn -[Nat.max Nat.sub]; lia.
Qed.
Lemma seg_of n c : 1 <= nc -> 1 <= n -> in_shape (cell_shape (grid_dims la ax (S nc) (S n))) c ->
  exists i l, i < nc /\ l < n /\ c = seg_at ax i l.
Proof.
  intros H1 H2. destruct c as [[x y] z]. unfold seg_at, grid_coord, across, grid_dims.
  destruct ax as [|[|[|]]]; try lia; cbn -[Nat.max Nat.sub]; intros (Hx & Hy & Hz).
  - exists y, x. repeat split; try lia. repeat f_equal; lia.
  - exists x, y. repeat split; try lia. repeat f_equal; lia.
  - exists x, z. repeat split; try lia. repeat f_equal; lia.
Qed.
Lemma node_in i l n : i < S nc -> l < n -> in_shape (grid_dims la ax (S nc) n) (grid_coord la ax i l).
Proof. intros. unfold grid_coord, across, grid_dims. destruct ax as [|[|[|]]]; try lia; cbn; lia. Qed.
Lemma strip_cells n : 1 <= nc -> 2 <= n -> n_cells (grid_dims la ax (S nc) n) = (n - 1) * nc.
Proof. intros. unfold n_cells, across, grid_dims. destruct ax as [|[|[|]]]; try lia; cbn -[Nat.max Nat.sub Nat.mul]; nia. Qed.
Lemma strip_size n : size3 (grid_dims la ax (S nc) n) = S nc * n.
Proof. unfold across, grid_dims. destruct ax as [|[|[|]]]; try lia; cbn -[Nat.mul]; lia. Qed.

(* lines across the first axis are the rows of the array *)
Lemma seg_index i l n : 1 <= ax -> 1 <= nc -> 2 <= n -> i < nc -> l < n - 1 ->
  fidx (cell_shape (grid_dims la ax (S nc) n)) (seg_at ax i l) = l * nc + i.
Proof.
  intros. unfold seg_at, grid_coord, across, grid_dims. destruct ax as [|[|[|]]]; try lia; cbn -[Nat.max Nat.sub Nat.mul]; nia.
Qed.

Lemma get_points_spec (l : lbase D) pa i p : get_points (LinePoly (lb_line l)) = Ok pa ->
  line_point l i p -> nth_error pa i = Some p.
Proof.
  cbn. intros H (v & Hv & Hp). apply mapM_Ok in H.
  destruct (Forall2_nth_error _ _ _ _ _ H Hv) as (q & Hq & E). rewrite Hp in E. injection E as <-. exact Hq.
Qed.


Lemma strip_facts a b arr b0 r m :
  wf_line nc a -> wf_line nc b -> length arr = nc ->
  lextr (set_cg ops arr a) b r m = Ok b0 ->
  exists perc, resolution_to_perc r m = Ok perc /\ 2 <= length perc /\
    sg_dims b0 = grid_dims la ax (S nc) (length perc) /\
    n_cells (sg_dims b0) = (length perc - 1) * nc /\
    strip_between ax nc perc a b (sg_pts b0) /\
    map fst (sg_cd b0) = map fst (aput "CellGroup" (map num arr) (ln_cd (lb_line a))) /\
    (forall k v, In (k, v) (aput "CellGroup" (map num arr) (ln_cd (lb_line a))) ->
       In (k, tile v (length perc - 1)) (sg_cd b0) /\ length v = nc) /\
    (forall k v, In (k, v) (sg_cd b0) -> length v = n_cells (sg_dims b0)) /\
    length (sg_ghost b0) = n_cells (sg_dims b0) /\
    (forall c x, nth_error (areas (sg_dims b0) (sg_pts b0)) c = Some x ->
      (x = 0%R -> nth_error (sg_ghost b0) c = Some 32) /\
      (x <> 0%R -> nth_error (sg_ghost b0) c =
         match ln_ghost (lb_line a) with Some gh => nth_error (tile gh (length perc - 1)) c | None => Some 0 end)).
Proof.
  intros (N1 & Na & _ & La & Ra & Da & PDa & CDa & Ga & Cga) (_ & Nb & _ & Lb & Rb & _) Larr Hx. unfold lextr in Hx.
  pose proof (surface_coords _ _ _ _ _ _ _ Hx) as (pa & pb & perc & la' & lb' & Hpa & Hpb & Hl & Hp & Hpl & Hd & Hpts & Hco).
  apply plane_axes_across in Hpl as [-> ->].
  pose proof (get_points_length _ _ Hpa) as Lpa. cbn [set_cg lops lb_line ln_ids] in Lpa. rewrite La in Lpa.
  rewrite Lpa in Hd, Hpts.
  destruct (surface_data_inv _ _ _ _ _ _ _ Hx) as (perc' & Hp' & _ & Hcd & _ & HL).
  rewrite Hp in Hp'. injection Hp' as <-. cbn [set_cg lops lb_line ln_cd] in Hcd, HL.
  assert (HCV : forall k v, In (k, v) (aput "CellGroup" (map num arr) (ln_cd (lb_line a))) -> length v = nc).
  { apply (aput_all _ _ _ (fun v => length v = nc)); auto. rewrite map_length; auto. }
  assert (Hn : (length perc - 1) * nc = n_cells (sg_dims b0)).
  { pose proof (HL "CellGroup"%string (map num arr) (aput_In _ _ _)) as H. rewrite tile_length, map_length, Larr in H. exact H. }
  assert (Hp2 : 2 <= length perc).
  { destruct (le_lt_dec 2 (length perc)); auto. replace (length perc - 1) with 0 in Hn by lia.
    pose proof (n_cells_pos (sg_dims b0)). lia. }
  destruct (surface_ghost _ _ _ _ _ _ _ Hx (Har _ _)) as [Lg Hg].
  exists perc. split; [exact Hp|]. split; [exact Hp2|]. split; [exact Hd|]. split; [auto|]. split.
  { split; [exact Hpts|]. intros i k t p q Hk Hlp Hlq.
    rewrite <- Hd, on_way_lerp. apply Hco; auto.
    - apply (get_points_spec (set_cg ops arr a)); auto.
    - apply (get_points_spec b); auto. }
  split; [rewrite Hcd, map_map; reflexivity|]. split.
  { intros k v Hkv. split; [|eauto]. rewrite Hcd. apply in_map_iff. exists (k, v). auto. }
  split.
  { intros k v Hkv. rewrite Hcd in Hkv. apply in_map_iff in Hkv as ([k' v'] & [= <- <-] & Hkv).
    rewrite <- (HL _ _ Hkv). reflexivity. }
  split; [exact Lg|].
  intros c x Hc. destruct (Hg c x Hc) as (G1 & G2 & G3). split; [exact G1|]. intros Hx0.
  destruct (ln_ghost (lb_line a)) as [gh|] eqn:Eg.
  - eapply G2; eauto.
  - apply G3; auto. intros l E. injection E as <-. exact Eg.
Qed.
End Strip.
