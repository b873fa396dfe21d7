From Verif Require Import RealAux Perc_model Perc_spec Perc_proof Surface_model Surface_spec Surface_proof
  Volume_model Volume_spec Volume_proof SMerge_model SMerge_spec SMerge_proof
  Groups_model Groups_spec Groups_proof Groups2_proof
  Stack_model Stack_spec Cut_proof Gen_proof Stack_proof Stack2_proof Stack3_proof
  Final_model Final_spec Final1_proof Final2_proof Final3_proof.
From Coq Require Import Lra.
Open Scope nat_scope.

Lemma merge_fold_no_pd {D} ax (l : list (sgrid D)) : forall a g,
  l <> [] -> merge_fold ax a l = Ok g -> sg_pd g = [].
Proof.
  assert (H2 : forall a b m, merge2 (D := D) ax a b = Ok m -> sg_pd m = []).
  { intros a b m. unfold merge2. destruct (_ || _)%bool; [discriminate|]. destruct (negb _); [discriminate|].
    destruct (negb _); [discriminate|]. cbn zeta.
    destruct (merge_cell_data _ _ _ _ _ _); [|discriminate]. cbn [bind].
    match goal with |- bind ?x _ = _ -> _ => destruct x; [|discriminate] end. cbn [bind].
    intros <-%Ok_inj. reflexivity. }
  assert (H0 : forall l a g, sg_pd a = [] -> merge_fold (D := D) ax a l = Ok g -> sg_pd g = []).
  { induction l0 as [|b l0 IH]; intros a g Ha; simpl; [intros <-%Ok_inj; auto|].
    destruct (merge2 ax a b) eqn:E; [|discriminate]. cbn [bind]. apply IH. eauto. }
  intros a g Hl. destruct l as [|b l]; [congruence|]. simpl.
  destruct (merge2 ax a b) eqn:E; [|discriminate]. cbn [bind]. apply H0. eauto.
Qed.

Lemma put_all_pd {D} (num : Z -> D) ids : forall b, sg_pd (put_all (sops num) ids b) = sg_pd b.
Proof.
  induction ids as [|x ids IH]; intros b; [reflexivity|]. cbn. unfold put_all in IH. rewrite IH. reflexivity.
Qed.

Lemma vol_structured_pd {D} volumes (sa sb : ssurf D) r m g :
  generate_volume_structured volumes sa sb r m = Ok g ->
  map fst (sg_pd g) = map fst (ss_pd sa) /\
  Forall (fun e => length (snd e) = length (sg_pts g)) (sg_pd g).
Proof.
  unfold generate_volume_structured.
  destruct (negb _); [discriminate|]. destruct (negb _); [discriminate|]. destruct (negb _); [discriminate|].
  destruct (resolution_to_perc r m) as [perc|]; [|discriminate]. unfold bind at 1.
  destruct (_ =? 0); [discriminate|].
  destruct (setc (first_unit_axis (ss_dims sa)) (length perc) (ss_dims sa)) as [[nx ny] nz] eqn:Hdims.
  unfold bind at 1. set (pts := ravelF _ _ _ _).
  destruct (mapM _ (ss_pd sa)) as [pd|] eqn:Hpd; [|discriminate].
  unfold bind at 1. destruct (mapM _ (ss_cd sa)) as [cd|]; [|discriminate]. unfold bind at 1.
  match goal with |- match ?x with _ => _ end = _ -> _ => destruct x as [gh|]; [|discriminate] end.
  intros H%Ok_inj; subst g; cbn [sg_pd sg_pts].
  apply mapM_Ok in Hpd.
  assert (H : forall (kv e : string * list D), bind (repeat_structured_data (ss_dims sa) (snd kv) (length perc) (first_unit_axis (ss_dims sa)))
      (fun v => assign_data (length pts) (fst kv, v)) = Ok e -> fst e = fst kv /\ length (snd e) = length pts).
  { intros kv e. destruct (repeat_structured_data _ _ _ _); [|discriminate]. cbn [bind].
    unfold assign_data. cbn [snd]. destruct (Nat.eqb_spec (length a) (length pts)) as [E|]; [|discriminate].
    intros <-%Ok_inj. auto. }
  split; [|].
  - clear -Hpd H. induction Hpd as [|x y l l' E HF IH]; [reflexivity|]. cbn. f_equal; [|exact IH].
    apply H in E. tauto.
  - clear -Hpd H. induction Hpd as [|x y l l' E HF IH]; constructor; auto. apply H in E. tauto.
Qed.

Section Structured.
Context {D : Type} (num : Z -> D).
Context (volumes : shape3 -> list pt -> list R).
Context (ax : nat) (Hax : ax <= 2) (d : shape3) (Hu : unit_along ax d).
Context (name : string).
Notation ops := (sops num).
Notation extr := (extr volumes).
Context (o : options) (i1 : item (sbase D)) (rest : list (item (sbase D))) (bs : list (sgrid D))
  (groups : dict) (n : nat) (g : sgrid D) (Hne : rest <> [])
  (Ht : Forall (fun it => it_trans it = false) rest)
  (Hw : Forall (fun i => wf_base d (it_mesh i)) (i1 :: rest))
  (Hg : gen_loop ops o name extr (fun _ _ _ _ => Err NotImplementedError) 0 0 [] i1 rest = Ok (bs, groups, n))
  (Hm : merge_structured bs (Some ax) = Ok g).

Lemma pd_one : length rest = 1 -> points_follow ax d (it_mesh i1) g.
Proof.
  intros L1. destruct (blocks_inv num volumes ax Hax d Hu o name i1 rest bs groups n Ht Hw Hg)
    as (_ & nsubs & _ & Lb & _ & HB).
  destruct bs as [|b [|]]; simpl in Lb; try lia. cbn in Hm. apply Ok_inj in Hm. subst b.
  destruct (HB 0 g eq_refl) as (a & b & arr & gj & gj' & b0 & perc & nsub & Ha & Hb & _ & _ & _ & _ & Wa & Wb & La & Hx & Hp & Hp2 & _ & _ & E).
  injection Ha as <-.
  destruct (vol_structured_pd _ _ _ _ _ _ Hx) as [Hk Hl].
  destruct (block_facts num volumes ax Hax d Hu (it_mesh i1) (it_mesh b) arr b0 (it_res b) (it_method b) name 0
    (list_sum (firstn 0 nsubs)) Wa Wb La Hx) as (perc' & _ & _ & _ & HF).
  cbn zeta in HF. destruct HF as (_ & Wg & Ep & _).
  assert (Eg : sg_pd g = sg_pd b0) by (rewrite E; apply put_all_pd).
  assert (Ed : sg_dims g = sg_dims b0).
  { rewrite E. generalize (numbered_ids name 0 (list_sum (firstn 0 nsubs)) nsub (n_cells d)).
    intros ids. clear. revert b0. induction ids as [|x ids IH]; intros b0; [reflexivity|]. cbn. unfold put_all in IH. now rewrite IH. }
  unfold points_follow. rewrite Eg, Ed. split; [exact Hk|].
  intros k v Hv.
  destruct (vol_structured_data_axis volumes (sb_surf (set_cg ops arr (it_mesh i1))) (sb_surf (it_mesh b))
         (it_res b) (it_method b) b0 k v ax Hx Hax) as [HV _].
  { cbn. destruct Wa as (-> & _). apply Hu. }
  destruct (HV Hv) as (w & Hin & Hc). exists w. split; [exact Hin|]. split.
  - rewrite Forall_forall in Hl. specialize (Hl _ Hin). cbn in Hl. rewrite Hl.
    destruct (vol_structured_block _ _ _ _ _ _ Hx (aput_nonempty _ _ _)) as (_ & _ & _ & _ & HL & _).
    exact HL.
  - intros c Hcs. unfold at_coord. rewrite Hc by exact Hcs. cbn. destruct Wa as (-> & _). reflexivity.
Qed.

Lemma pd_many : 2 <= length rest -> sg_pd g = [].
Proof.
  intros L1. destruct (blocks_inv num volumes ax Hax d Hu o name i1 rest bs groups n Ht Hw Hg)
    as (_ & nsubs & _ & Lb & _ & _).
  destruct bs as [|b [|b' bs']]; simpl in Lb; try lia.
  cbn [merge_structured] in Hm. eapply merge_fold_no_pd; [|exact Hm]. discriminate.
Qed.
End Structured.

(* ---- transfer to the items before the cut ---- *)
Lemma base_view_only {D} (num : Z -> D) i j : only_points (sops num) i j ->
  base_view (it_mesh j) = base_view (it_mesh i) /\ ss_cd (sb_surf (it_mesh j)) = ss_cd (sb_surf (it_mesh i)) /\
  ss_pd (sb_surf (it_mesh j)) = ss_pd (sb_surf (it_mesh i)) /\ it_group j = it_group i.
Proof. intros (-> & _ & _ & _ & _ & -> & _). repeat split. Qed.

Lemma groups_follow_only {D} (num : Z -> D) int o ax d items js nsubs g labels :
  Forall2 (only_points (sops num)) items js ->
  groups_follow int o ax d js nsubs g labels -> groups_follow int o ax d items nsubs g labels.
Proof.
  intros HF (H1 & H2 & cg & names & H3 & H4 & H5 & H6 & H7). split; [auto|]. split; [auto|].
  exists cg, names. repeat (split; [assumption|]). intros c Hc.
  destruct (H7 c Hc) as (j & a & b & k & Hj & Ha & Hb & Hk & Hi).
  destruct (Forall2_nth_error_r _ _ _ _ _ HF Ha) as (a0 & Ha0 & Oa).
  destruct (Forall2_nth_error_r _ _ _ (S j) b HF Hb) as (b0 & Hb0 & Ob).
  exists j, a0, b0, k. repeat (split; [assumption|]).
  destruct (base_view_only _ _ _ Oa) as (<- & _). destruct (base_view_only _ _ _ Ob) as (_ & _ & _ & <-). exact Hi.
Qed.

Lemma cells_follow_only {D} (num : Z -> D) name ax d items js nsubs g :
  Forall2 (only_points (sops num)) items js ->
  cells_follow name ax d js nsubs g -> cells_follow name ax d items nsubs g.
Proof.
  intros HF [H1 H2]. split.
  - intros k. rewrite H1. split; (intros [H|H]; [now left|right]); intros j a b Ha Hb.
    + destruct (Forall2_nth_error _ _ _ _ _ HF Ha) as (a0 & Ha0 & Oa).
      destruct (Forall2_nth_error _ _ _ (S j) b HF Hb) as (b0 & Hb0 & Ob).
      destruct (base_view_only _ _ _ Oa) as (_ & <- & _). eauto.
    + destruct (Forall2_nth_error_r _ _ _ _ _ HF Ha) as (a0 & Ha0 & Oa).
      destruct (Forall2_nth_error_r _ _ _ (S j) b HF Hb) as (b0 & Hb0 & Ob).
      destruct (base_view_only _ _ _ Oa) as (_ & -> & _). eauto.
  - intros k x Hx Hk. destruct (H2 k x Hx Hk) as [L H]. split; [exact L|]. intros c Hc.
    destruct (H c Hc) as (j & a & v & Hj & Ha & Hv & E).
    destruct (Forall2_nth_error_r _ _ _ _ _ HF Ha) as (a0 & Ha0 & Oa).
    exists j, a0, v. destruct (base_view_only _ _ _ Oa) as (_ & <- & _). auto.
Qed.

(* ---- the two classes ---- *)
Lemma stack_mesh_inv {D} (num : Z -> D) int volumes o ax bu items g labels js :
  stack3d_mesh num int volumes o ax bu items = Ok (g, labels, js) ->
  exists g0 groups n, stack3d_structured num volumes o ax bu items = Ok (g0, groups, n, js) /\
    finish num int g0 groups = Ok (g, labels).
Proof.
  unfold stack3d_mesh. destruct (stack3d_structured _ _ _ _ _ _) as [[[[g0 groups] n] js0]|]; [|discriminate].
  cbn [bind]. destruct (finish num int g0 groups) as [[g1 l1]|] eqn:E; [|discriminate]. cbn [bind].
  intros H%Ok_inj. injection H as <- <- <-. eauto.
Qed.

Lemma extrude_mesh_inv {D} (num : Z -> D) int volumes o items g labels :
  extrude_mesh num int volumes o items = Ok (g, labels) ->
  exists g0 groups n, extrude_structured num volumes o items = Ok (g0, groups, n) /\
    finish num int g0 groups = Ok (g, labels).
Proof.
  unfold extrude_mesh. destruct (extrude_structured _ _ _ _) as [[[g0 groups] n]|]; [|discriminate].
  cbn [bind]. eauto.
Qed.

Section Classes.
Context {D : Type} (num : Z -> D) (int : D -> Z) (Hint : forall z, int (num z) = z).
Context (volumes : shape3 -> list pt -> list R) (Hvol : forall dims pts, length (volumes dims pts) = n_cells dims).
Context (o : options) (ax : nat) (d : shape3) (items : list (item (sbase D))) (g : sgrid D) (labels : dict).
Context (Hax : ax <= 2) (Hu : unit_along ax d) (Hw : Forall (fun i => wf_base d (it_mesh i)) items).
Context (Ht : Forall (fun it => it_trans it = false) (tl items)).

Lemma stack_final bu js : stack3d_mesh num int volumes o ax bu items = Ok (g, labels, js) ->
  exists nsubs, layer_counts (tl items) nsubs /\ sg_dims g = setc ax (S (list_sum nsubs)) d /\
    groups_follow int o ax d items nsubs g labels /\
    ghosts_follow volumes ax d js nsubs g /\
    cells_follow "StackItem" ax d items nsubs g.
Proof.
  intros H. apply stack_mesh_inv in H as (g0 & groups & n & H & Hf).
  destruct (stack_structured_pre num volumes o ax bu d items g0 groups n js Hax Hu Hw Ht H)
    as (i1 & rest & j1 & rest' & bs & Ei & Hne & -> & Hne' & HF & Hw' & Ht' & Hg & Hm).
  destruct (final_along num int Hint volumes ax Hax d Hu "StackItem") with (o := o) (i1 := j1) (rest := rest')
    (bs := bs) (groups := groups) (n := n) (g := g0) (g' := g) (labels := labels)
    as (nsubs & H1 & H2 & _ & _ & H3 & H4 & H5); auto; try discriminate.
  exists nsubs. split.
  { subst items. inversion HF; subst. cbn. eapply layer_counts_only; eauto. }
  split; [exact H2|]. split; [eapply groups_follow_only; eauto|]. split; [exact H4|].
  eapply cells_follow_only; eauto.
Qed.

Lemma extrude_final : extrude_mesh num int volumes o items = Ok (g, labels) ->
  exists nsubs, layer_counts (tl items) nsubs /\ sg_dims g = setc ax (S (list_sum nsubs)) d /\
    groups_follow int o ax d items nsubs g labels /\
    ghosts_follow volumes ax d items nsubs g /\
    cells_follow "ExtrudeItem" ax d items nsubs g.
Proof.
  intros H. apply extrude_mesh_inv in H as (g0 & groups & n & H & Hf). unfold extrude_structured in H.
  apply extrude_inv in H as (i1 & rest & bs & Ei & Hne & Hg & Hm).
  assert (E : first_unit_axis (ss_dims (sb_surf (it_mesh i1))) = ax).
  { rewrite Ei in Hw. inversion Hw; subst. destruct H1 as (-> & _). apply (unit_along_dim ax); auto. }
  rewrite Ei in Hm. rewrite E in Hm. rewrite Ei in *.
  destruct (final_along num int Hint volumes ax Hax d Hu "ExtrudeItem") with (o := o) (i1 := i1) (rest := rest)
    (bs := bs) (groups := groups) (n := n) (g := g0) (g' := g) (labels := labels)
    as (nsubs & H1 & H2 & _ & _ & H3 & H4 & H5); auto; try discriminate.
  exists nsubs. auto.
Qed.

Lemma finish_pd g0 groups : finish num int g0 groups = Ok (g, labels) ->
  sg_pd g = sg_pd g0 /\ sg_dims g = sg_dims g0.
Proof.
  unfold finish, clean_grid. cbn zeta.
  destruct (clean_groups _ _) as [[cg l]|]; [|discriminate]. cbn [bind].
  intros H%Ok_inj. injection H as <- _. auto.
Qed.

Lemma stack_points bu js : stack3d_mesh num int volumes o ax bu items = Ok (g, labels, js) ->
  (forall a b, items = [a; b] -> points_follow ax d (it_mesh a) g) /\
  (3 <= length items -> sg_pd g = []).
Proof.
  intros H. apply stack_mesh_inv in H as (g0 & groups & n & H & Hf).
  destruct (stack_structured_pre num volumes o ax bu d items g0 groups n js Hax Hu Hw Ht H)
    as (i1 & rest & j1 & rest' & bs & Ei & Hne & -> & Hne' & HF & Hw' & Ht' & Hg & Hm).
  apply finish_pd in Hf as [Ep Ed]. pose proof (Forall2_len _ _ _ HF) as HL.
  split.
  - intros a b Eab. assert (L1 : length rest' = 1) by (rewrite Eab in HL; simpl in HL; lia).
    pose proof (pd_one num volumes ax Hax d Hu "StackItem"%string o j1 rest' bs groups n g0 Ht' Hw' Hg Hm L1) as HP.
    assert (Oa : only_points (sops num) a j1) by (rewrite Eab in HF; inversion HF; auto).
    destruct (base_view_only _ _ _ Oa) as (_ & _ & Epd & _).
    unfold points_follow in *. rewrite Ep, Ed, <- Epd. exact HP.
  - intros L3. rewrite Ep. rewrite HL in L3. simpl in L3.
    apply (pd_many num volumes ax Hax d Hu "StackItem"%string o j1 rest' bs groups n g0 Ht' Hw' Hg Hm). lia.
Qed.

Lemma extrude_points : extrude_mesh num int volumes o items = Ok (g, labels) ->
  (forall a b, items = [a; b] -> points_follow ax d (it_mesh a) g) /\
  (3 <= length items -> sg_pd g = []).
Proof.
  intros H. apply extrude_mesh_inv in H as (g0 & groups & n & H & Hf). unfold extrude_structured in H.
  apply extrude_inv in H as (i1 & rest & bs & Ei & Hne & Hg & Hm).
  assert (E : first_unit_axis (ss_dims (sb_surf (it_mesh i1))) = ax).
  { rewrite Ei in Hw. inversion Hw; subst. destruct H1 as (-> & _). apply (unit_along_dim ax); auto. }
  rewrite Ei in Hm. rewrite E in Hm. rewrite Ei in *. apply finish_pd in Hf as [Ep Ed]. split.
  - intros a b Eab. injection Eab as -> ->.
    pose proof (pd_one num volumes ax Hax d Hu "ExtrudeItem"%string o a [b] bs groups n g0 Ht Hw Hg Hm eq_refl) as HP.
    unfold points_follow in *. rewrite Ep, Ed. exact HP.
  - intros L3. rewrite Ep. simpl in L3.
    apply (pd_many num volumes ax Hax d Hu "ExtrudeItem"%string o i1 rest bs groups n g0 Ht Hw Hg Hm). lia.
Qed.
End Classes.

Lemma stack_mesh_defined {D} (num : Z -> D) int volumes o ax bu d items :
  (forall z, int (num z) = z) -> ax <= 2 -> unit_along ax d -> 2 <= length items ->
  Forall (fun i => wf_base d (it_mesh i)) items ->
  Forall (fun it => it_trans it = false /\ positions_span it /\ group_by_name it) (tl items) ->
  exists g labels js, stack3d_mesh num int volumes o ax bu items = Ok (g, labels, js).
Proof.
  intros Hint Hax Hu L Hw HP.
  destruct (stack_defined num volumes o ax bu d items Hax Hu L Hw HP) as (g & groups & n & js & H).
  assert (Ht : Forall (fun it => it_trans it = false) (tl items)) by (eapply Forall_impl; [|exact HP]; cbn; tauto).
  unfold stack3d_mesh. rewrite H. cbn [bind].
  destruct (stack_structured_pre num volumes o ax bu d items g groups n js Hax Hu Hw Ht H)
    as (i1 & rest & j1 & rest' & bs & Ei & Hne & -> & Hne' & HF & Hw' & Ht' & Hg & Hm).
  destruct (finish_total num int Hint volumes ax Hax d Hu "StackItem") with (o := o) (i1 := j1) (rest := rest')
    (bs := bs) (groups := groups) (n := n) (g := g) as (g' & labels & ->); auto; try discriminate.
  cbn [bind]. eauto.
Qed.

Lemma extrude_mesh_defined {D} (num : Z -> D) int volumes o ax d items :
  (forall z, int (num z) = z) -> ax <= 2 -> unit_along ax d -> 2 <= length items ->
  Forall (fun i => wf_base d (it_mesh i)) items ->
  Forall (fun it => it_trans it = false /\ positions_span it /\ group_by_name it) (tl items) ->
  exists g labels, extrude_mesh num int volumes o items = Ok (g, labels).
Proof.
  intros Hint Hax Hu L Hw HP.
  destruct (extrude_defined num volumes o ax d items Hax Hu L Hw HP) as (g & groups & n & H).
  assert (Ht : Forall (fun it => it_trans it = false) (tl items)) by (eapply Forall_impl; [|exact HP]; cbn; tauto).
  unfold extrude_mesh. rewrite H. cbn [bind]. unfold extrude_structured in H.
  apply extrude_inv in H as (i1 & rest & bs & Ei & Hne & Hg & Hm).
  assert (E : first_unit_axis (ss_dims (sb_surf (it_mesh i1))) = ax).
  { rewrite Ei in Hw. inversion Hw; subst. destruct H1 as (-> & _). apply (unit_along_dim ax); auto. }
  rewrite Ei in Hm. rewrite E in Hm. rewrite Ei in *.
  destruct (finish_total num int Hint volumes ax Hax d Hu "ExtrudeItem") with (o := o) (i1 := i1) (rest := rest)
    (bs := bs) (groups := groups) (n := n) (g := g) as (g' & labels & ->); auto; try discriminate.
  eauto.
Qed.
