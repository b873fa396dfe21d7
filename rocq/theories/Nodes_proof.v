From Verif Require Import RealAux Perc_model Perc_spec Perc_proof Surface_model Surface_spec Surface_proof
  Volume_model Volume_spec Volume_proof SMerge_model SMerge_spec SMerge_proof
  Groups_model Groups_spec Groups_proof Groups2_proof
  Stack_model Stack_spec Cut_proof Gen_proof Stack_proof Stack2_proof Stack3_proof
  Final_model Final_spec Final1_proof Final2_proof Final3_proof Final4_proof Line1_proof Nodes_spec.
From Coq Require Import Lra.
Open Scope nat_scope.

Lemma lerp_on_way t p q : lerp t p q = on_way t p q.
Proof. destruct p as [[? ?] ?], q as [[? ?] ?]. unfold lerp, lerp1, on_way. f_equal; [f_equal|]; ring. Qed.

Section Nodes.
Context {D : Type} (num : Z -> D) (volumes : shape3 -> list pt -> list R).
Context (ax : nat) (Hax : ax <= 2) (d : shape3) (Hu : unit_along ax d) (name : string).
Context (N1 : name <> "ColumnId"%string) (N2 : name <> "LayerId"%string) (N3 : name <> "CellGroup"%string).

Lemma nodes_blocks o i1 rest bs groups n g : rest <> [] ->
  Forall (fun it => it_trans it = false) rest ->
  Forall (fun i => wf_base d (it_mesh i)) (i1 :: rest) ->
  gen_loop (sops num) o name (extr volumes) (fun _ _ _ _ => Err NotImplementedError) 0 0 [] i1 rest
    = Ok (bs, groups, n) ->
  merge_structured bs (Some ax) = Ok g ->
  exists nsubs, layer_counts rest nsubs /\ nodes_follow ax d (i1 :: rest) nsubs g.
Proof.
  intros Hne Ht Hw Hg Hm.
  destruct (blocks_inv num volumes ax Hax d Hu _ _ _ _ _ _ _ Ht Hw Hg) as (_ & nsubs & Ln & Lb & En & HB).
  assert (HW : forall j blk, nth_error bs j = Some blk -> wf_grid ax blk /\ exists ns,
            nth_error nsubs j = Some ns /\ 1 <= ns /\ sg_dims blk = setc ax (S ns) d).
  { intros j blk Hj. eapply (block_wf num volumes ax Hax d Hu name); eauto. }
  assert (Hbs : bs <> []) by (intros ->; destruct rest; [congruence|discriminate]).
  assert (Hlen : length bs = length nsubs) by congruence.
  exists nsubs. split.
  { split; [exact Ln|]. intros j b Hb. destruct (nth_error bs j) as [blk|] eqn:Hj.
    - destruct (block_points' num volumes ax Hax d Hu _ _ _ _ _ _ _ _ (HB j blk Hj))
        as (a & b' & nsub & perc & _ & Hb' & Hns & Hp & E & _).
      rewrite Hb in Hb'. injection Hb' as <-. exists nsub. split; auto. exists perc. auto.
    - exfalso. apply nth_error_None in Hj. assert (j < length rest) by (apply nth_error_Some; congruence). lia. }
  destruct (bl_dims ax Hax d bs nsubs g Hbs Hlen HW Hm) as (Wg & Hd & Hn1).
  split; [exact Hd|]. split; [apply wf_unfold in Wg; tauto|].
  intros j a b perc c k t p q Ha Hb Hp Hk Hc HP HQ. cbn [nth_error] in Hb.
  assert (Hj : j < length bs) by (rewrite Lb; apply nth_error_Some; congruence).
  destruct (nth_error bs j) as [blk|] eqn:Hblk; [|apply nth_error_None in Hblk; lia].
  destruct (block_points' num volumes ax Hax d Hu _ _ _ _ _ _ _ _ (HB j blk Hblk))
    as (a' & b' & nsub & perc' & Ha' & Hb' & Hns & Hp' & E & Hpos & Hdb & Hpt).
  rewrite Ha in Ha'. injection Ha' as <-. rewrite Hb in Hb'. injection Hb' as <-.
  rewrite Hp in Hp'. injection Hp' as <-.
  assert (Hkl : k < length perc) by (apply nth_error_Some; congruence).
  assert (Hc0 : setc ax 0 (setc ax k c) = c).
  { rewrite setc_setc. pose proof (in_shape_comp ax _ _ Hc) as H. destruct Hu as [Hone _]. rewrite Hone in H.
    rewrite <- (setc_comp ax c) at 2. f_equal. lia. }
  assert (Hc' : in_shape (sg_dims blk) (setc ax k c)).
  { rewrite Hdb. rewrite <- (setc_comp ax d) in Hc. apply (in_shape_swap ax _ _ _ c _ Hc); [rewrite setc_setc; auto|lia]. }
  destruct (Hpt (setc ax k c) t Hc') as (p' & q' & HP' & HQ' & HR); [rewrite comp_setc; auto|].
  rewrite Hc0 in HP', HQ'. unfold at_coord in HP, HQ. rewrite HP in HP'. rewrite HQ in HQ'.
  injection HP' as <-. injection HQ' as <-. rewrite lerp_on_way in HR.
  destruct (bl_point ax Hax d bs nsubs g Hbs Hlen HW Hm j blk (setc ax k c) _ Hblk Hc' HR) as (r & Hr & Hnear & Heq).
  rewrite comp_setc in Hr, Heq. rewrite setc_setc in Hr. eauto.
Qed.
End Nodes.

Lemma finish_pts {D} (num : Z -> D) int g0 groups g labels : finish num int g0 groups = Ok (g, labels) ->
  sg_pts g = sg_pts g0 /\ sg_dims g = sg_dims g0.
Proof.
  unfold finish, clean_grid. cbn zeta.
  destruct (clean_groups _ _) as [[cg l]|]; [|discriminate]. cbn [bind].
  intros H%Ok_inj. injection H as <- _. auto.
Qed.

Lemma nodes_same {D} ax d (items : list (item (sbase D))) nsubs g g' :
  sg_pts g' = sg_pts g -> sg_dims g' = sg_dims g -> nodes_follow ax d items nsubs g -> nodes_follow ax d items nsubs g'.
Proof. unfold nodes_follow. intros -> ->. auto. Qed.

Lemma stack_nodes {D} (num : Z -> D) int volumes o ax bu d items g labels js :
  ax <= 2 -> unit_along ax d ->
  Forall (fun i => wf_base d (it_mesh i)) items ->
  Forall (fun it => it_trans it = false) (tl items) ->
  stack3d_mesh num int volumes o ax bu items = Ok (g, labels, js) ->
  Forall2 (only_points (sops num)) items js /\
  exists nsubs, layer_counts (tl items) nsubs /\ nodes_follow ax d js nsubs g.
Proof.
  intros Hax Hu Hw Ht H. apply stack_mesh_inv in H as (g0 & groups & n & H & Hf).
  destruct (stack_structured_pre num volumes o ax bu d items g0 groups n js Hax Hu Hw Ht H)
    as (i1 & rest & j1 & rest' & bs & Ei & Hne & -> & Hne' & HF & Hw' & Ht' & Hg & Hm).
  split; [exact HF|].
  destruct (nodes_blocks num volumes ax Hax d Hu "StackItem") with (o := o) (i1 := j1) (rest := rest')
    (bs := bs) (groups := groups) (n := n) (g := g0) as (nsubs & H1 & H2); auto; try discriminate.
  exists nsubs. split.
  { subst items. inversion HF; subst. cbn. eapply layer_counts_only; eauto. }
  apply finish_pts in Hf as [E1 E2]. eapply nodes_same; eauto.
Qed.

Lemma extrude_nodes {D} (num : Z -> D) int volumes o ax d items g labels :
  ax <= 2 -> unit_along ax d ->
  Forall (fun i => wf_base d (it_mesh i)) items ->
  Forall (fun it => it_trans it = false) (tl items) ->
  extrude_mesh num int volumes o items = Ok (g, labels) ->
  exists nsubs, layer_counts (tl items) nsubs /\ nodes_follow ax d items nsubs g.
Proof.
  intros Hax Hu Hw Ht H. apply extrude_mesh_inv in H as (g0 & groups & n & H & Hf). unfold extrude_structured in H.
  apply extrude_inv in H as (i1 & rest & bs & Ei & Hne & Hg & Hm).
  assert (E : first_unit_axis (ss_dims (sb_surf (it_mesh i1))) = ax).
  { rewrite Ei in Hw. inversion Hw; subst. destruct H1 as (-> & _). apply (unit_along_dim ax); auto. }
  rewrite Ei in Hm. rewrite E in Hm. rewrite Ei in *.
  destruct (nodes_blocks num volumes ax Hax d Hu "ExtrudeItem") with (o := o) (i1 := i1) (rest := rest)
    (bs := bs) (groups := groups) (n := n) (g := g0) as (nsubs & H1 & H2); auto; try discriminate.
  exists nsubs. split; [exact H1|]. apply finish_pts in Hf as [E1 E2]. eapply nodes_same; eauto.
Qed.

(* ---- layers of equal thickness ---- *)
Lemma even_perc {M} (it : item M) n : even_item it n ->
  resolution_to_perc (it_res it) (it_method it) = Ok (map (fun k => INR k / INR n)%R (seq 0 (S n))) /\ 1 <= n.
Proof.
  intros [-> H].
  assert (E : exists z, resolution_to_perc (it_res it) None = resolution_to_perc (ResInt z) None /\ n = Z.to_nat (Z.max 1 z)).
  { destruct H as [[-> ->]|(z & -> & ->)]; [exists 1%Z; split; [apply perc_none|reflexivity]|exists z; auto]. }
  destruct E as (z & -> & ->). split; [|lia]. apply (to_perc_closed z None Constant). constructor.
Qed.

Lemma even_counts {M} (rest : list (item M)) ns ms :
  Forall2 even_item rest ns -> layer_counts rest ms -> ms = ns.
Proof.
  intros HF [L HC]. apply nth_error_ext. intros j.
  destruct (nth_error rest j) as [b|] eqn:Eb.
  - destruct (HC j b Eb) as (m & Em & p & Hp & ->).
    destruct (Forall2_nth_error _ _ _ _ _ HF Eb) as (n & En & He). destruct (even_perc b n He) as [E _].
    rewrite E in Hp. apply Ok_inj in Hp. subst p. rewrite Em, En, map_length, seq_length. f_equal. lia.
  - apply nth_error_None in Eb. pose proof (Forall2_len _ _ _ HF) as HL.
    rewrite (proj2 (nth_error_None ms j)), (proj2 (nth_error_None ns j)); auto; lia.
Qed.

Lemma nodes_are_even {D} ax d (items : list (item (sbase D))) ns g :
  ax <= 2 -> Forall (fun i => wf_base d (it_mesh i)) items ->
  Forall2 even_item (tl items) ns -> nodes_follow ax d items ns g -> nodes_even ax d items ns g.
Proof.
  intros Hax Hw HF (Hd & HL & HN). split; [exact Hd|]. split; [exact HL|].
  intros j a b n c k x y z x' y' z' Ha Hb Hn Hk Hc HP HQ.
  assert (HE : forall j a b n k x y z x' y' z', nth_error items j = Some a -> nth_error items (S j) = Some b ->
    nth_error ns j = Some n -> k <= n -> j = 0 \/ 0 < k ->
    at_coord d (ss_pts (sb_surf (it_mesh a))) c = Some (x, y, z) ->
    at_coord d (ss_pts (sb_surf (it_mesh b))) c = Some (x', y', z') ->
    at_coord (sg_dims g) (sg_pts g) (setc ax (list_sum (firstn j ns) + k) c) =
      Some (x + INR k / INR n * (x' - x), y + INR k / INR n * (y' - y), z + INR k / INR n * (z' - z))%R).
  { clear j a b n k x y z x' y' z' Ha Hb Hn Hk HP HQ. intros j a b n k x y z x' y' z' Ha Hb Hn Hk Hjk HP HQ.
    assert (Hb' : nth_error (tl items) j = Some b) by (destruct items; [destruct j; discriminate|exact Hb]).
    destruct (Forall2_nth_error _ _ _ _ _ HF Hb') as (n' & Hn' & He). rewrite Hn in Hn'. injection Hn' as <-.
    destruct (even_perc b n He) as [E Hn1].
    assert (Hkt : nth_error (map (fun k => INR k / INR n)%R (seq 0 (S n))) k = Some (INR k / INR n)%R).
    { rewrite nth_error_map, (nth_error_nth' _ 0) by (rewrite seq_length; lia). rewrite seq_nth by lia. reflexivity. }
    destruct (HN j a b _ c k _ _ _ Ha Hb E Hkt Hc HP HQ) as (r & Hr & _ & Heq).
    rewrite Hr, (Heq Hjk). f_equal. unfold on_way. apply injective_projections; [apply injective_projections|]; cbn [fst snd]; ring. }
  destruct (Nat.eq_dec j 0) as [Hj|Hj]; [apply (HE j a b n k x y z x' y' z'); auto|].
  destruct (Nat.eq_dec k 0) as [->|Hk0]; [|apply (HE j a b n k x y z x' y' z'); auto; lia].
  destruct j as [|j]; [congruence|]. clear Hj.
  assert (Hn' : exists n', nth_error ns j = Some n').
  { destruct (nth_error ns j) eqn:E; [eauto|]. apply nth_error_None in E. assert (S j < length ns) by (apply nth_error_Some; congruence). lia. }
  destruct Hn' as [n' Hn'].
  assert (Ha0 : exists a0, nth_error items j = Some a0).
  { destruct (nth_error items j) eqn:E; [eauto|]. apply nth_error_None in E. assert (S j < length items) by (apply nth_error_Some; congruence). lia. }
  destruct Ha0 as [a0 Ha0].
  assert (Hb' : nth_error (tl items) j = Some a) by (destruct items; [destruct j; discriminate|exact Ha]).
  destruct (Forall2_nth_error _ _ _ _ _ HF Hb') as (n'' & Hn'' & He). rewrite Hn' in Hn''. injection Hn'' as <-.
  destruct (even_perc a n' He) as [_ Hn1].
  assert (W : wf_base d (it_mesh a0)) by (rewrite Forall_forall in Hw; apply Hw; eapply nth_error_In; eauto).
  destruct W as (_ & L0 & _).
  destruct (at_coord_some d (ss_pts (sb_surf (it_mesh a0))) c Hc L0) as [[[u v] w] HO].
  pose proof (HE j a0 a n' n' u v w x y z Ha0 Ha Hn' (le_n _) (or_intror Hn1) HO HP) as H1.
  rewrite (list_sum_firstn_S _ _ _ Hn'), Nat.add_0_r, H1. f_equal.
  assert (INR n' <> 0)%R by (apply not_0_INR; lia).
  apply injective_projections; [apply injective_projections|]; cbn [fst snd]; change (INR 0) with 0%R; unfold Rdiv;
    rewrite Rinv_r by assumption; ring.
Qed.

Lemma even_only {D} (num : Z -> D) items js : Forall2 (only_points (sops num)) items js ->
  forall ns, Forall2 even_item items ns -> Forall2 even_item js ns.
Proof.
  induction 1 as [|i j l l' (_ & E1 & E2 & _) HF IH]; intros ns H; inversion H as [|? ? ? ? He]; subst; constructor; auto.
  unfold even_item in *. rewrite E1, E2. exact He.
Qed.

Lemma stack_even {D} (num : Z -> D) int volumes o ax bu d items ns g labels js :
  ax <= 2 -> unit_along ax d ->
  Forall (fun i => wf_base d (it_mesh i)) items ->
  Forall (fun it => it_trans it = false) (tl items) -> Forall2 even_item (tl items) ns ->
  stack3d_mesh num int volumes o ax bu items = Ok (g, labels, js) ->
  Forall2 (only_points (sops num)) items js /\ nodes_even ax d js ns g.
Proof.
  intros Hax Hu Hw Ht He H. pose proof H as H'.
  destruct (stack_nodes num int volumes o ax bu d items g labels js Hax Hu Hw Ht H) as (HF & nsubs & HL & HN).
  split; [exact HF|]. rewrite (even_counts _ _ _ He HL) in HN.
  apply stack_mesh_inv in H' as (g0 & groups & n & H' & _).
  destruct (stack_structured_pre num volumes o ax bu d items g0 groups n js Hax Hu Hw Ht H')
    as (i1 & rest & j1 & rest' & bs & -> & Hne & -> & Hne' & HF' & Hw' & Ht' & _).
  apply nodes_are_even; auto. cbn [tl] in *. inversion HF; subst. eapply even_only; eauto.
Qed.

Lemma extrude_even {D} (num : Z -> D) int volumes o ax d items ns g labels :
  ax <= 2 -> unit_along ax d ->
  Forall (fun i => wf_base d (it_mesh i)) items ->
  Forall (fun it => it_trans it = false) (tl items) -> Forall2 even_item (tl items) ns ->
  extrude_mesh num int volumes o items = Ok (g, labels) -> nodes_even ax d items ns g.
Proof.
  intros Hax Hu Hw Ht He H.
  destruct (extrude_nodes num int volumes o ax d items g labels Hax Hu Hw Ht H) as (nsubs & HL & HN).
  rewrite (even_counts _ _ _ He HL) in HN. apply nodes_are_even; auto.
Qed.
