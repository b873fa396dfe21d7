From Verif Require Import RealAux Perc_model Perc_spec Perc_proof Surface_model Surface_spec Surface_proof
  Volume_model Volume_spec Volume_proof Ring_proof UVol_proof UVol2_proof UVol3_proof
  SMerge_model SMerge_spec SMerge_proof Groups_model Groups_spec Groups_proof Groups2_proof
  Stack_model Stack_spec Cut_proof Gen_proof Stack_proof.
From Coq Require Import Lra.
Open Scope nat_scope.

Lemma cut_loop_defined {M B} (ops : mesh_ops M B) (Hops : lawful ops) ax bu n rest : forall i1,
  (forall i, In i (i1 :: rest) -> length (points ops i) = n) ->
  exists js, cut_loop ops ax bu i1 rest = Ok js.
Proof.
  induction rest as [|i2 rest IH]; intros i1 H; simpl cut_loop; [eauto|].
  destruct (cut_pair_defined ops ax bu i1 i2) as [[j1 j2] Hc].
  { rewrite !H; simpl; auto. }
  rewrite Hc; cbn [bind].
  destruct (IH j2) as [js Hj].
  - intros i [<-|Hi]; [|apply H; simpl; auto].
    apply (cut_pair_inv ops Hops) in Hc as (_ & _ & T & F).
    destruct (it_trans i2) eqn:E.
    + destruct (T eq_refl) as [_ ->]. apply H; simpl; auto.
    + destruct (F eq_refl) as (_ & _ & -> & _). apply H; simpl; auto.
  - rewrite Hj; cbn [bind]; eauto.
Qed.

Lemma cut_loop_cons {M B} (ops : mesh_ops M B) ax bu i1 rest js :
  cut_loop ops ax bu i1 rest = Ok js -> exists j1 rest', js = j1 :: rest' /\ length rest' = length rest.
Proof.
  revert i1 js; induction rest as [|i2 rest IH]; intros i1 js; simpl cut_loop.
  - intros <-%Ok_inj; eauto.
  - destruct (cut_pair ops ax bu i1 i2) as [[j1 j2]|]; [|discriminate]. cbn [bind].
    destruct (cut_loop ops ax bu j2 rest) as [js'|] eqn:Hl; [|discriminate]. cbn [bind].
    intros <-%Ok_inj. exists j1, js'. split; auto.
    destruct (IH _ _ Hl) as (x & r & -> & E). simpl. congruence.
Qed.

Lemma only_points_trans {M B} (ops : mesh_ops M B) items js :
  Forall2 (only_points ops) items js ->
  Forall (fun i => it_trans i = false) items -> Forall (fun i => it_trans i = false) js.
Proof.
  induction 1 as [|i j l l' H HF IH]; intros Ht; constructor; inversion Ht; subst; auto.
  destruct H as (_ & _ & _ & _ & _ & _ & ->); auto.
Qed.

Section S.
Context {D : Type} (num : Z -> D) (volumes : shape3 -> list pt -> list R).
Context (ax : nat) (Hax : ax <= 2) (d : shape3) (Hu : unit_along ax d).
Notation ops := (sops num).
Notation gl := (gen_loop ops).
Notation ext := (extr volumes).
Notation notrans := (fun _ _ _ _ => Err NotImplementedError).

Definition spans (it : item (sbase D)) : Prop :=
  exists perc, resolution_to_perc (it_res it) (it_method it) = Ok perc /\ 2 <= length perc /\
    nth_error perc 0 = Some 0%R /\ nth_error perc (length perc - 1) = Some 1%R.

Definition named_group (it : item (sbase D)) : Prop := it_group it = GNone \/ exists s, it_group it = GStr s.

Lemma lerp_0 p q : lerp 0 p q = p.
Proof. destruct p as [[? ?] ?], q as [[? ?] ?]. unfold lerp, Surface_model.lerp1. f_equal; [f_equal|]; lra. Qed.
Lemma lerp_1 p q : lerp 1 p q = q.
Proof. destruct p as [[? ?] ?], q as [[? ?] ?]. unfold lerp, Surface_model.lerp1. f_equal; [f_equal|]; lra. Qed.

Lemma n_cells_nz : n_cells d <> 0.
Proof.
  destruct d as [[x y] z]. unfold n_cells, cell_shape, size3.
  pose proof (Nat.le_max_l 1 (x - 1)). pose proof (Nat.le_max_l 1 (y - 1)). pose proof (Nat.le_max_l 1 (z - 1)).
  nia.
Qed.

Lemma gen_defined o name i1 rest :
  Forall (fun it => it_trans it = false) rest ->
  Forall (fun it => exists perc, resolution_to_perc (it_res it) (it_method it) = Ok perc /\ 2 <= length perc) rest ->
  Forall named_group rest ->
  Forall (fun i => wf_base d (it_mesh i)) (i1 :: rest) ->
  exists r, gl o name ext notrans 0 0 [] i1 rest = Ok r.
Proof.
  intros Ht Hs Hg Hw. rewrite Forall_forall in *.
  apply gen_loop_err.
  - rewrite Forall_forall; auto.
  - apply numbered_nil.
  - rewrite Forall_forall. intros i Hin. apply (base_aligned num d). auto.
  - intros j a b arr g g' Hnum Ha Hb Hi.
    assert (Wa : wf_base d (it_mesh a)) by (apply Hw; eapply nth_error_In; eauto).
    assert (Wb : wf_base d (it_mesh b)) by (apply Hw; right; eapply nth_error_In; eauto).
    destruct (Hs b) as (perc & Hp & Hp2); [eapply nth_error_In; eauto|].
    assert (La : length arr = n_cells d).
    { destruct (initialize_spec _ _ _ _ _ _ _ Hnum (base_aligned num d _ Wa) Hi) as (_ & _ & L & _). rewrite L.
      cbn. rewrite seq_length. destruct Wa as (-> & _); auto. }
    destruct Wa as (Da & Pa & Na & PDa & CDa & Ga & Cga). pose proof Wb as (Db & Pb & _).
    assert (exists b0, generate_volume_structured volumes (sb_surf (set_cg ops arr (it_mesh a)))
              (sb_surf (it_mesh b)) (it_res b) (it_method b) = Ok b0) as [b0 Hb0].
    { apply (vol_structured_defined volumes (sb_surf (set_cg ops arr (it_mesh a))) (sb_surf (it_mesh b))
        (it_res b) (it_method b) perc ax); auto; cbn; rewrite ?Da; auto.
      intros k v Hv. revert k v Hv. apply (aput_all _ _ _ (fun v => length v = n_cells d)); auto.
      rewrite map_length; auto. }
    exists b0, (length perc - 1). split; [exact Hb0|].
    split; [cbn; rewrite Da; apply n_cells_nz|].
    destruct (block_facts num volumes ax Hax d Hu (it_mesh a) (it_mesh b) arr b0 (it_res b) (it_method b) "" 0 0)
      as (perc' & Hp' & _ & E & _); auto; [repeat split; auto|].
    rewrite Hp in Hp'. injection Hp' as <-. rewrite E. cbn. rewrite Da. reflexivity.
  - intros j a b g Ha Hb. apply initialize_total. apply Hg. eapply nth_error_In; eauto.
Qed.

Lemma chain_nth {X} (P : X -> X -> Prop) l :
  (forall j a b, nth_error l j = Some a -> nth_error l (S j) = Some b -> P a b) -> chain P l.
Proof.
  induction l as [|x l IH]; intros H; [exact I|]. destruct l as [|y l]; [exact I|]. split.
  - apply (H 0); reflexivity.
  - apply IH. intros j a b Ha Hb. apply (H (S j)); auto.
Qed.

Lemma block_points' name i1 rest nsubs groups o j blk :
  block_of num volumes d name i1 rest nsubs groups o j blk ->
  exists a b nsub perc, nth_error (i1 :: rest) j = Some a /\ nth_error rest j = Some b /\
    nth_error nsubs j = Some nsub /\ resolution_to_perc (it_res b) (it_method b) = Ok perc /\
    nsub = length perc - 1 /\ 1 <= nsub /\ sg_dims blk = setc ax (S nsub) d /\
    forall c t, in_shape (sg_dims blk) c -> nth_error perc (comp ax c) = Some t ->
    exists p q, nth_error (ss_pts (sb_surf (it_mesh a))) (fidx d (setc ax 0 c)) = Some p /\
      nth_error (ss_pts (sb_surf (it_mesh b))) (fidx d (setc ax 0 c)) = Some q /\
      at_coord (sg_dims blk) (sg_pts blk) c = Some (lerp t p q).
Proof.
  intros (a & b & arr & gj & gj' & b0 & perc & nsub & Ha & Hb & Hi & G1 & G2 & G3 & Wa & Wb & La & Hx & Hp & Hp2 & En & Hn & ->).
  destruct (block_facts num volumes ax Hax d Hu _ _ _ _ _ _ name j (list_sum (firstn j nsubs)) Wa Wb La Hx)
    as (perc' & Hp' & _ & _ & F). rewrite Hp in Hp'. injection Hp' as <-. cbv zeta in F.
  destruct F as (F1 & _ & F2 & _).
  exists a, b, nsub, perc. rewrite En. repeat (split; [auto; fail|]). split; [congruence|].
  split; [auto|split; [auto|split;[lia|split]]].
  - rewrite F1. f_equal; lia.
  - intros c t. try rewrite <- En. try rewrite <- En in F2. rewrite F2.
    cbn [put_all numbered_ids fold_left fst snd put_ids sops sg_dims].
    apply (block_points num volumes ax Hax d Hu (it_mesh a) (it_mesh b) arr b0 (it_res b) (it_method b) perc); auto.
Qed.

Lemma blocks_chain o name i1 rest bs groups n :
  Forall (fun it => it_trans it = false) rest -> Forall spans rest ->
  Forall (fun i => wf_base d (it_mesh i)) (i1 :: rest) ->
  gl o name ext notrans 0 0 [] i1 rest = Ok (bs, groups, n) ->
  chain (interface_ok ax) bs.
Proof.
  intros Ht Hs Hw Hg.
  destruct (blocks_inv num volumes ax Hax d Hu _ _ _ _ _ _ _ Ht Hw Hg) as (Hnum & nsubs & Ln & Lb & En & HB).
  rewrite Forall_forall in Hs.
  apply chain_nth. intros j A B HA HB'.
  destruct (block_points' _ _ _ _ _ _ _ _ (HB _ _ HA)) as (a & b & n1 & p1 & Ha & Hb & Hn1 & Hp1 & E1 & Hpos1 & HdA & HptA).
  destruct (block_points' _ _ _ _ _ _ _ _ (HB _ _ HB')) as (b' & e & n2 & p2 & Hb' & He & Hn2 & Hp2 & E2 & Hpos2 & HdB & HptB).
  assert (b' = b) as -> by (simpl in Hb'; rewrite Hb in Hb'; congruence).
  split; [rewrite HdA, HdB, !setc_setc; auto|].
  intros c p q Hc HpA HqB.
  destruct (Hs b) as (p1' & Hp1' & _ & _ & Hlast); [eapply nth_error_In; eauto|].
  rewrite Hp1 in Hp1'. injection Hp1' as <-.
  destruct (Hs e) as (p2' & Hp2' & _ & Hfirst & _); [eapply nth_error_In; eauto|].
  rewrite Hp2 in Hp2'. injection Hp2' as <-.
  rewrite HdA, setc_setc in Hc.
  assert (HcA : in_shape (sg_dims A) (setc ax (comp ax (sg_dims A) - 1) c)).
  { rewrite HdA, comp_setc. apply (in_shape_swap ax _ _ _ c _ Hc); [rewrite setc_setc; auto|lia]. }
  assert (HcB : in_shape (sg_dims B) (setc ax 0 c)).
  { rewrite HdB. apply (in_shape_swap ax _ _ _ c _ Hc); [rewrite setc_setc; auto|lia]. }
  destruct (HptA _ 1%R HcA) as (x & y & _ & Hy & Hxy).
  { rewrite comp_setc, HdA, comp_setc. rewrite <- Hlast. f_equal. lia. }
  destruct (HptB _ 0%R HcB) as (y' & z & Hy' & _ & Hyz).
  { rewrite comp_setc. auto. }
  rewrite setc_setc in Hy, Hy'. rewrite Hy in Hy'. injection Hy' as <-.
  rewrite lerp_1 in Hxy. rewrite lerp_0 in Hyz. rewrite Hxy in HpA. rewrite Hyz in HqB.
  injection HpA as <-. injection HqB as <-. apply near_refl.
Qed.

(* the mesh exists *)
Lemma structured_defined o name i1 rest :
  name <> "ColumnId"%string -> name <> "LayerId"%string -> name <> "CellGroup"%string ->
  rest <> [] ->
  Forall (fun it => it_trans it = false) rest -> Forall spans rest -> Forall named_group rest ->
  Forall (fun i => wf_base d (it_mesh i)) (i1 :: rest) ->
  exists bs groups n g, gl o name ext notrans 0 0 [] i1 rest = Ok (bs, groups, n) /\
    merge_structured bs (Some ax) = Ok g.
Proof.
  intros N1 N2 N3 Hne Ht Hs Hg Hw.
  destruct (gen_defined o name i1 rest Ht) as [[[bs groups] n] E]; auto.
  { eapply Forall_impl; [|exact Hs]. intros it (perc & ? & ? & _). eauto. }
  pose proof (blocks_chain _ _ _ _ _ _ _ Ht Hs Hw E) as Hch.
  destruct (blocks_inv num volumes ax Hax d Hu _ _ _ _ _ _ _ Ht Hw E) as (Hnum & nsubs & Ln & Lb & En & HB).
  destruct bs as [|b1 bs]; [destruct rest; [congruence|simpl in Lb; lia]|].
  assert (HW : forall j blk, nth_error (b1 :: bs) j = Some blk -> wf_grid ax blk).
  { intros j blk Hj. eapply block_wf; eauto. }
  assert (W1 : wf_grid ax b1) by (apply (HW 0 b1 eq_refl)).
  assert (Wl : Forall (wf_grid ax) bs).
  { rewrite Forall_forall. intros x Hx. apply In_nth_error in Hx as [k Hk]. apply (HW (S k) x Hk). }
  destruct (proj1 (merge_fold_defined ax b1 bs Hax W1 Wl)) as [F _]. destruct (F Hch) as [g Hg'].
  exists (b1 :: bs), groups, n, g. split; auto. rewrite merge_is_fold; auto.
Qed.

(* the surfaces of the items are layers of the mesh *)
Lemma generated_points o name i1 rest bs groups n g :
  name <> "ColumnId"%string -> name <> "LayerId"%string -> name <> "CellGroup"%string ->
  rest <> [] ->
  Forall (fun it => it_trans it = false) rest ->
  Forall (fun i => wf_base d (it_mesh i)) (i1 :: rest) ->
  gl o name ext notrans 0 0 [] i1 rest = Ok (bs, groups, n) ->
  merge_structured bs (Some ax) = Ok g ->
  exists nsubs, length nsubs = length rest /\ n = list_sum nsubs /\
    sg_dims g = setc ax (S n) d /\
    (forall j b, nth_error rest j = Some b -> exists ns, nth_error nsubs j = Some ns /\ layers_of b ns) /\
    (forall j a b perc k t c, nth_error (i1 :: rest) j = Some a -> nth_error rest j = Some b ->
      resolution_to_perc (it_res b) (it_method b) = Ok perc -> nth_error perc k = Some t ->
      (j = 0 \/ 0 < k) ->
      in_shape d c ->
      exists p q, at_coord d (points ops a) c = Some p /\ at_coord d (points ops b) c = Some q /\
        at_coord (sg_dims g) (sg_pts g) (setc ax (list_sum (firstn j nsubs) + k) c) = Some (lerp t p q)).
Proof.
  intros N1 N2 N3 Hne Ht Hw Hg Hm.
  destruct (generated_cells num volumes ax Hax d Hu _ _ _ _ _ _ _ _ N1 N2 N3 Hne Ht Hw Hg Hm)
    as (_ & nsubs0 & Ln0 & En0 & HL0 & Hdims & _).
  destruct (blocks_inv num volumes ax Hax d Hu _ _ _ _ _ _ _ Ht Hw Hg) as (Hnum & nsubs & Ln & Lb & En & HB).
  assert (nsubs0 = nsubs) as ->.
  { apply nth_error_ext. intros j. destruct (nth_error rest j) as [b|] eqn:Hb.
    - destruct (HL0 j b Hb) as (ns & Hns & perc & Hp & E).
      destruct (nth_error bs j) as [blk|] eqn:Hblk;
        [|apply nth_error_None in Hblk; assert (j < length rest) by (apply nth_error_Some; congruence); lia].
      destruct (block_points' _ _ _ _ _ _ _ _ (HB _ _ Hblk)) as (a & b' & n1 & p1 & _ & Hb' & Hn1 & Hp1 & E1 & _).
      rewrite Hb in Hb'. injection Hb' as <-. rewrite Hp in Hp1. injection Hp1 as <-. congruence.
    - apply nth_error_None in Hb. rewrite (proj2 (nth_error_None nsubs0 j)) by lia.
      symmetry. apply nth_error_None. lia. }
  exists nsubs. repeat (split; [assumption|]).
  assert (HW : forall j blk, nth_error bs j = Some blk -> wf_grid ax blk).
  { intros j blk Hj. eapply block_wf; eauto. }
  pose proof (blocks_offset num volumes ax Hax d Hu name i1 rest nsubs groups o bs N1 N2 N3 ltac:(lia) HB) as Hoff.
  destruct bs as [|b1 bs]; [destruct rest; [congruence|simpl in Lb; lia]|].
  rewrite merge_is_fold in Hm.
  assert (W1 : wf_grid ax b1) by (apply (HW 0 b1 eq_refl)).
  assert (Wl : Forall (wf_grid ax) bs).
  { rewrite Forall_forall. intros x Hx. apply In_nth_error in Hx as [k Hk]. apply (HW (S k) x Hk). }
  intros j a b perc k t c Ha Hb Hp Hk Hjk Hc.
  destruct (nth_error (b1 :: bs) j) as [blk|] eqn:Hblk;
    [|apply nth_error_None in Hblk; assert (j < length rest) by (apply nth_error_Some; congruence); simpl in *; lia].
  destruct (block_points' _ _ _ _ _ _ _ _ (HB _ _ Hblk)) as (a' & b' & n1 & p1 & Ha' & Hb' & Hn1 & Hp1 & E1 & Hpos & Hdb & Hpt).
  rewrite Hb in Hb'. injection Hb' as <-. rewrite Ha in Ha'. injection Ha' as <-.
  rewrite Hp in Hp1. injection Hp1 as <-.
  assert (Hkl : k < length perc) by (apply nth_error_Some; congruence).
  assert (Hone : comp ax d = 1) by apply Hu.
  assert (Hc0 : setc ax 0 c = c).
  { pose proof (in_shape_comp ax _ _ Hc) as H. rewrite Hone in H.
    rewrite <- (setc_comp ax c) at 2. f_equal. lia. }
  assert (Hcb : in_shape (sg_dims blk) (setc ax k c)).
  { rewrite Hdb. apply in_shape_setc; auto. lia. }
  destruct (Hpt _ t Hcb) as (p & q & H1 & H2 & H3); [rewrite comp_setc; auto|].
  rewrite setc_setc, Hc0 in H1, H2.
  exists p, q. split; [exact H1|split; [exact H2|]].
  destruct (merge_fold_points ax b1 bs g Hax W1 Wl Hm j blk _ Hblk Hcb) as (Hx & _).
  rewrite comp_setc in Hx. specialize (Hx Hjk).
  unfold shifted in Hx. rewrite comp_setc, setc_setc, Hoff in Hx
    by (apply Nat.lt_le_incl, nth_error_Some; congruence).
  rewrite Hx. exact H3.
Qed.
End S.
