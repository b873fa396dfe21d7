From Verif Require Import RealAux Perc_model Perc_spec Perc_proof Surface_model Surface_spec Surface_proof
  Volume_model Volume_spec Volume_proof Ring_proof UVol_proof UVol2_proof UVol3_proof
  SMerge_model SMerge_spec SMerge_proof Groups_model Groups_spec Groups_proof Groups2_proof
  Stack_model Stack_spec Cut_proof Gen_proof Stack_proof Stack2_proof Stack3_proof Stack4_proof
  Lines_spec Final_model Final_spec Final1_proof Unstr_model Unstr_spec Unstr1_proof Unstr2_proof.
From Coq Require Import Lra Permutation.
Open Scope nat_scope.

(* everything the theorems say about a returned mesh *)
Definition umesh_spec {D} (num : Z -> D) (int : D -> Z) (name : string) (invert : bool) (o : options) (tol : R)
  (items0 items : list (item (ubase D))) (g : uvol D) (labels : dict) : Prop :=
  exists nsubs place, layer_counts (tl items0) nsubs /\ placed items nsubs place /\ identified num name nsubs place g /\
    extruded_cells invert tol items place g /\ ugroups_follow int o items place g labels /\
    ughosts_follow items place g /\ ucells_follow name items place g.

Section Classes.
Context {D : Type} (num : Z -> D) (int : D -> Z) (Hint : forall z, int (num z) = z).
Context (o : options) (tol : R) (clean : uvol D -> uvol D) (Hclean : cleans tol clean).
Context (pvmerge : list (uvol D) -> res (uvol D)) (Hmerge : appends pvmerge).

Lemma loop_finish name invert i1 rest bs groups n g0 :
  name <> "ColumnId"%string -> name <> "LayerId"%string -> name <> "CellGroup"%string ->
  Forall (fun it => it_trans it = false) rest -> Forall (fun i => wf_ubase (it_mesh i)) (i1 :: rest) ->
  gen_loop (uops num) o name
    (fun a b r m => generate_volume_unstructured (ub_surf a) (ub_surf b) r m invert)
    (fun _ _ _ _ => Err NotImplementedError) 0 0 [] i1 rest = Ok (bs, groups, n) ->
  merge_unstructured pvmerge bs = Ok g0 ->
  exists g labels, finish_unstructured num int clean g0 groups = Ok (g, labels) /\
    umesh_spec num int name invert o tol (i1 :: rest) (i1 :: rest) g labels.
Proof.
  intros N1 N2 N3 Ht Hw Hg Hm.
  destruct (blocks_facts num name invert o N1 N2 N3 i1 rest bs groups n Ht Hw Hg) as (Hnum & nsubs & HLC & Lb & HB).
  destruct (merged_appended pvmerge bs g0 Hmerge) as (order & bs' & Hord & Hp & Happ); [|exact Hm|].
  { intros blk Hin. apply In_nth_error in Hin as [j Hj].
    assert (Hlt : j < length rest) by (rewrite <- Lb; apply nth_error_Some; congruence).
    destruct (nth_error rest j) as [b|] eqn:Eb; [|apply nth_error_None in Eb; lia].
    destruct (nth_error (i1 :: rest) j) as [a|] eqn:Ea; [|apply nth_error_None in Ea; cbn in Ea; lia].
    destruct (HB j a b Ea Eb) as (ns & blk' & _ & Hj' & HO). assert (blk' = blk) as -> by congruence.
    destruct HO as (perc & cs & cg & _ & _ & _ & _ & _ & _ & _ & _ & _ & HN & _). exact HN. }
  destruct (assembled num int Hint name N3 invert o tol clean Hclean (i1 :: rest) rest) with
    (bs := bs) (groups := groups) (nsubs := nsubs) (order := order) (bs' := bs') (g0 := g0)
    as (g & labels & Hf & H); eauto.
  exists g, labels. split; [auto|]. exists nsubs. eexists. split; [exact HLC|]. exact H.
Qed.

Lemma stack_umesh_inv ax bu invert items g labels js :
  stack3d_umesh num int o ax bu invert pvmerge clean items = Ok (g, labels, js) ->
  exists g0 groups n, stack3d_unstructured num o ax bu invert (merge_unstructured pvmerge) items = Ok (g0, groups, n, js) /\
    finish_unstructured num int clean g0 groups = Ok (g, labels).
Proof.
  unfold stack3d_umesh. destruct (stack3d_unstructured _ _ _ _ _ _ _) as [[[[g0 groups] n] js0]|]; [|discriminate].
  cbn [bind]. destruct (finish_unstructured num int clean g0 groups) as [[g1 l1]|] eqn:E; [|discriminate]. cbn [bind].
  intros H%Ok_inj. injection H as <- <- <-. eauto.
Qed.

Lemma wf_only items js : Forall2 (only_points (uops num)) items js ->
  (forall i j, In i items -> In j js -> length (us_pts (ub_surf (it_mesh i))) = length (us_pts (ub_surf (it_mesh j)))) ->
  Forall (fun i => wf_ubase (it_mesh i)) items -> Forall (fun i => wf_ubase (it_mesh i)) js.
Proof.
  induction 1 as [|i j l l' Ho HF IH]; intros HL Hw; constructor; inversion Hw as [|? ? Wi Wl]; subst.
  - destruct Ho as (E & _). destruct Wi as (H1 & H2 & H3).
    pose proof (HL i j (or_introl eq_refl) (or_introl eq_refl)) as EL. 
    split; [rewrite E; exact H1|]. split; [rewrite E; exact H2|].
    intros base x Hb Hx. rewrite <- EL. apply (H3 base); auto. rewrite E in Hb. exact Hb.
  - apply IH; auto. intros a b Ha Hb. apply HL; right; auto.
Qed.

Lemma stack_cut ax bu invert items g0 groups n js np :
  (forall i, In i items -> length (us_pts (ub_surf (it_mesh i))) = np) ->
  Forall (fun i => wf_ubase (it_mesh i)) items ->
  Forall (fun it => it_trans it = false) (tl items) ->
  stack3d_unstructured num o ax bu invert (merge_unstructured pvmerge) items = Ok (g0, groups, n, js) ->
  exists j1 rest' bs, js = j1 :: rest' /\ Forall2 (only_points (uops num)) items js /\
    Forall (fun it => it_trans it = false) rest' /\ Forall (fun i => wf_ubase (it_mesh i)) js /\
    gen_loop (uops num) o "StackItem"
      (fun a b r m => generate_volume_unstructured (ub_surf a) (ub_surf b) r m invert)
      (fun _ _ _ _ => Err NotImplementedError) 0 0 [] j1 rest' = Ok (bs, groups, n) /\
    merge_unstructured pvmerge bs = Ok g0.
Proof.
  intros Hnp Hw Ht H.
  apply stack_inv in H as (i1 & rest & j1 & rest' & bs & -> & Hne & -> & Hl & Hc & Hg & Hm).
  destruct (cut_loop_lengths (uops num) (uops_lawful num) ax bu rest i1 _ np Hnp Hc) as [HF HL].
  exists j1, rest', bs. split; [auto|]. split; [auto|].
  split; [inversion HF; subst; eapply only_points_trans; eauto|]. split; [|auto].
  apply (wf_only _ _ HF); auto. intros i j Hi Hj. rewrite (Hnp i Hi). symmetry. apply (HL j Hj).
Qed.

Lemma stack_umesh_final ax bu invert items g labels js np :
  (forall i, In i items -> length (us_pts (ub_surf (it_mesh i))) = np) ->
  Forall (fun i => wf_ubase (it_mesh i)) items ->
  Forall (fun it => it_trans it = false) (tl items) ->
  stack3d_umesh num int o ax bu invert pvmerge clean items = Ok (g, labels, js) ->
  umesh_spec num int "StackItem" invert o tol items js g labels.
Proof.
  intros Hnp Hw Ht H. apply stack_umesh_inv in H as (g0 & groups & n & H & Hf).
  destruct (stack_cut _ _ _ _ _ _ _ _ _ Hnp Hw Ht H) as (j1 & rest' & bs & -> & HF & Ht' & Hw' & Hg & Hm).
  destruct (loop_finish "StackItem" invert j1 rest' bs groups n g0) as (g1 & l1 & Hf1 & HS); auto; try discriminate.
  rewrite Hf in Hf1. injection Hf1 as <- <-.
  destruct HS as (nsubs & place & HLC & HS). exists nsubs, place. split; [|exact HS].
  destruct items as [|i1 rest]; [inversion HF|]. inversion HF; subst. cbn [tl] in *. eapply layer_counts_only; eauto.
Qed.

Lemma extrude_umesh_final items g labels :
  Forall (fun i => wf_ubase (it_mesh i)) items ->
  Forall (fun it => it_trans it = false) (tl items) ->
  extrude_umesh num int o pvmerge clean items = Ok (g, labels) ->
  umesh_spec num int "ExtrudeItem" true o tol items items g labels.
Proof.
  intros Hw Ht. unfold extrude_umesh. destruct (extrude_unstructured _ _ _ _ _) as [[[g0 groups] n]|] eqn:H; [|discriminate].
  cbn [bind]. intros Hf. unfold extrude_unstructured in H. apply extrude_inv in H as (i1 & rest & bs & -> & Hne & Hg & Hm).
  destruct (loop_finish "ExtrudeItem" true i1 rest bs groups n g0) as (g1 & l1 & Hf1 & HS); auto; try discriminate.
  rewrite Hf in Hf1. injection Hf1 as <- <-. exact HS.
Qed.

(* ---- success ---- *)
Definition subdivided {M} (it : item M) : Prop :=
  exists perc, resolution_to_perc (it_res it) (it_method it) = Ok perc /\ 2 <= length perc.

Lemma loop_defined_gen name invert np types i1 rest :
  Forall (fun i => regular_ubase np types (it_mesh i)) (i1 :: rest) ->
  Forall (fun it => it_trans it = false /\ subdivided it) rest ->
  (forall j a b g, nth_error (i1 :: rest) j = Some a -> nth_error rest j = Some b ->
     exists x, initialize_group_array o (gview (uops num) (it_mesh a)) g (it_group b) "" = Ok x) ->
  exists bs groups n, gen_loop (uops num) o name
    (fun a b r m => generate_volume_unstructured (ub_surf a) (ub_surf b) r m invert)
    (fun _ _ _ _ => Err NotImplementedError) 0 0 [] i1 rest = Ok (bs, groups, n).
Proof.
  intros HR HP HI. rewrite Forall_forall in HR.
  destruct (gen_loop_err (uops num) o name
    (fun a b r m => generate_volume_unstructured (ub_surf a) (ub_surf b) r m invert)
    (fun _ _ _ _ => Err NotImplementedError) rest 0 0 [] i1) as [[[bs groups] n] H]; [| | | | |eauto].
  - eapply Forall_impl; [|exact HP]. cbn; tauto.
  - apply numbered_nil.
  - apply Forall_forall. intros i Hi. apply ub_align. apply HR; auto.
  - intros j a b arr g g' Hn Ha Hb Hi.
    destruct (HR a (nth_error_In _ _ Ha)) as ((Wal & _) & Hty & Hnp & Hct & Hsup & Hpd & Hcd & Hgh).
    destruct (HR b (or_intror (nth_error_In _ _ Hb))) as (_ & _ & Hnp' & Hct' & _).
    rewrite Forall_forall in HP. destruct (HP b (nth_error_In _ _ Hb)) as (_ & (perc & Hp & Hp2)).
    assert (Lc : length (us_cells (ub_surf (it_mesh a))) = length types) by (rewrite <- Hct, map_length; auto).
    destruct (every_cell_named _ _ _ _ _ _ _ Hn (ub_align num _ Wal) Hi) as [La _].
    cbn in La. rewrite seq_length in La.
    destruct (uvol_defined (ub_surf (set_cg (uops num) arr (it_mesh a))) (ub_surf (it_mesh b)) (it_res b) (it_method b) invert perc)
      as [v Hv]; cbn [ub_surf set_cg uops us_pts us_cells us_pd us_cd us_ghost]; auto; try congruence.
    + left. congruence.
    + intros k x Hx. rewrite Hnp. eauto.
    + intros k x Hx. rewrite Lc. destruct (String.string_dec k "CellGroup") as [->|Hk].
      * destruct (in_dec String.string_dec "CellGroup"%string (map fst (us_cd (ub_surf (it_mesh a))))) as [Hin|Hin].
        -- clear -Hx La Lc Hcd. revert Hcd Hx. generalize (us_cd (ub_surf (it_mesh a))) as l.
           induction l as [|[k' v'] l IH]; intros Hcd; cbn [aput].
           ++ intros [[= <-]|[]]. rewrite map_length. lia.
           ++ destruct (String.eqb_spec "CellGroup" k') as [<-|Hne].
              ** intros [[= <-]|H]; [rewrite map_length; lia|]. apply (Hcd "CellGroup"%string). right; auto.
              ** intros [H|H]; [apply (Hcd "CellGroup"%string); left; auto|]. apply IH; auto. intros; eapply Hcd; right; eauto.
        -- clear -Hx La Lc Hin. revert Hin Hx. generalize (us_cd (ub_surf (it_mesh a))) as l.
           induction l as [|[k' v'] l IH]; intros Hin; cbn [aput].
           ++ intros [[= <-]|[]]. rewrite map_length. lia.
           ++ destruct (String.eqb_spec "CellGroup" k') as [<-|Hne].
              ** exfalso. apply Hin. left; auto.
              ** intros [[= -> _]|H]; [congruence|]. apply IH; auto. intros Hi'. apply Hin. right; auto.
      * apply aput_other in Hx; auto. eapply Hcd; eauto.
    + intros gh Hg0. rewrite Lc. eauto.
    + destruct (uvol_cells _ _ _ _ _ _ Hv) as (perc' & cells & _ & _ & Hdec & Lcs & _).
      exists v, (length perc' - 1). split; [auto|]. cbn [ncM ncB uops set_cg ub_surf us_cells] in *.
      split; [rewrite Lc; destruct types; [congruence|discriminate]|].
      rewrite <- (decode_length _ _ _ Hdec). exact Lcs.
  - exact HI.
Qed.

Lemma loop_defined name invert np types i1 rest :
  Forall (fun i => regular_ubase np types (it_mesh i)) (i1 :: rest) ->
  Forall (fun it => it_trans it = false /\ positions_span it /\ group_by_name it) rest ->
  exists bs groups n, gen_loop (uops num) o name
    (fun a b r m => generate_volume_unstructured (ub_surf a) (ub_surf b) r m invert)
    (fun _ _ _ _ => Err NotImplementedError) 0 0 [] i1 rest = Ok (bs, groups, n).
Proof.
  intros HR HP. apply (loop_defined_gen name invert np types i1 rest HR).
  - eapply Forall_impl; [|exact HP]. intros it (H1 & (perc & H2 & H3 & _) & _). split; [exact H1|]. exists perc. auto.
  - intros j a b g Ha Hb. apply initialize_total. rewrite Forall_forall in HP.
    destruct (HP b (nth_error_In _ _ Hb)) as (_ & _ & Hgn). exact Hgn.
Qed.

Lemma merge_defined bs : bs <> [] -> (forall bs, 2 <= length bs -> exists g, pvmerge bs = Ok g) ->
  exists g, merge_unstructured pvmerge bs = Ok g.
Proof.
  intros Hne HT. destruct bs as [|b [|b' bs]]; [congruence|cbn; eauto|]. apply HT. cbn; lia.
Qed.

Lemma loop_length name invert i1 rest bs groups n :
  Forall (fun it => it_trans it = false) rest -> Forall (fun i => wf_ubase (it_mesh i)) (i1 :: rest) ->
  gen_loop (uops num) o name
    (fun a b r m => generate_volume_unstructured (ub_surf a) (ub_surf b) r m invert)
    (fun _ _ _ _ => Err NotImplementedError) 0 0 [] i1 rest = Ok (bs, groups, n) -> length bs = length rest.
Proof.
  intros Ht Hw Hg.
  assert (Hal : Forall (fun i => ub_aligned (it_mesh i)) (i1 :: rest)).
  { eapply Forall_impl; [|exact Hw]. intros i (H & _). exact H. }
  destruct (gen_loop_inv _ _ _ _ _ _ _ _ _ _ _ _ _ Ht numbered_nil
    (Forall_impl _ (fun i => ub_align num (it_mesh i)) Hal) Hg) as (_ & _ & nsubs' & Ln & Lb & _). exact Lb.
Qed.

Lemma extrude_umesh_defined_gen np types items :
  2 <= length items ->
  Forall (fun i => regular_ubase np types (it_mesh i)) items ->
  Forall (fun it => it_trans it = false /\ subdivided it) (tl items) ->
  (forall j a b g, nth_error items j = Some a -> nth_error (tl items) j = Some b ->
     exists x, initialize_group_array o (gview (uops num) (it_mesh a)) g (it_group b) "" = Ok x) ->
  (forall bs, 2 <= length bs -> exists g, pvmerge bs = Ok g) ->
  exists g labels, extrude_umesh num int o pvmerge clean items = Ok (g, labels).
Proof.
  intros H2 HR HP HI HT. destruct items as [|i1 [|i2 rest]]; cbn in H2; try lia. cbn [tl] in HP, HI.
  assert (Hw : Forall (fun i => wf_ubase (it_mesh i)) (i1 :: i2 :: rest)).
  { eapply Forall_impl; [|exact HR]. cbn. intros i H. apply H. }
  assert (Ht : Forall (fun it => it_trans it = false) (i2 :: rest)) by (eapply Forall_impl; [|exact HP]; cbn; tauto).
  destruct (loop_defined_gen "ExtrudeItem" true np types i1 (i2 :: rest) HR HP HI) as (bs & groups & n & Hg).
  pose proof (loop_length _ _ _ _ _ _ _ Ht Hw Hg) as Lb.
  destruct (merge_defined bs) as [g0 Hm]; [destruct bs; [cbn in Lb; lia|discriminate]|exact HT|].
  destruct (loop_finish "ExtrudeItem" true i1 (i2 :: rest) bs groups n g0) as (g1 & l1 & Hf1 & _); auto; try discriminate.
  exists g1, l1. unfold extrude_umesh, extrude_unstructured, extrude_generate. rewrite Hg. cbn [bind]. rewrite Hm. cbn [bind]. exact Hf1.
Qed.

Lemma extrude_umesh_defined np types items :
  2 <= length items ->
  Forall (fun i => regular_ubase np types (it_mesh i)) items ->
  Forall (fun it => it_trans it = false /\ positions_span it /\ group_by_name it) (tl items) ->
  (forall bs, 2 <= length bs -> exists g, pvmerge bs = Ok g) ->
  exists g labels, extrude_umesh num int o pvmerge clean items = Ok (g, labels).
Proof.
  intros H2 HR HP. apply (extrude_umesh_defined_gen np types items H2 HR).
  - eapply Forall_impl; [|exact HP]. intros it (H1 & (perc & H3 & H4 & _) & _). split; [exact H1|]. exists perc. auto.
  - intros j a b g Ha Hb. apply initialize_total. rewrite Forall_forall in HP.
    destruct (HP b (nth_error_In _ _ Hb)) as (_ & _ & Hgn). exact Hgn.
Qed.

Lemma stack_umesh_defined ax bu invert np types items :
  2 <= length items ->
  Forall (fun i => regular_ubase np types (it_mesh i)) items ->
  Forall (fun it => it_trans it = false /\ positions_span it /\ group_by_name it) (tl items) ->
  (forall bs, 2 <= length bs -> exists g, pvmerge bs = Ok g) ->
  exists g labels js, stack3d_umesh num int o ax bu invert pvmerge clean items = Ok (g, labels, js).
Proof.
  intros H2 HR HP HT. destruct items as [|i1 [|i2 rest]]; cbn in H2; try lia. cbn [tl] in HP.
  set (r := i2 :: rest) in *.
  assert (Hnp : forall i, In i (i1 :: r) -> length (points (uops num) i) = np).
  { intros i Hi. rewrite Forall_forall in HR. apply (HR i Hi). }
  destruct (cut_loop_defined (uops num) (uops_lawful num) ax bu np r i1 Hnp) as [js Hc].
  destruct (cut_loop_lengths (uops num) (uops_lawful num) ax bu r i1 js np Hnp Hc) as [HF HL].
  destruct (cut_loop_cons _ _ _ _ _ _ Hc) as (j1 & rest' & -> & Hl).
  assert (HR' : Forall (fun i => regular_ubase np types (it_mesh i)) (j1 :: rest')).
  { clear -HF HL HR. revert HL HR. induction HF as [|i j l l' Ho HF IH]; intros HL HR; constructor; inversion HR as [|? ? Ri Rl]; subst.
    - pose proof (HL j (or_introl eq_refl)) as EL. unfold points in EL. cbn [getp uops] in EL.
      destruct Ho as (E & _). destruct Ri as ((W1 & W2 & W3) & H2 & H3 & H4 & H5 & H6 & H7 & H8).
      assert (Ec : us_cells (ub_surf (it_mesh j)) = us_cells (ub_surf (it_mesh i))) by (rewrite E; auto).
      split; [|split; [auto|split; [exact EL|]]].
      + split; [rewrite E; exact W1|]. split; [rewrite E; exact W2|].
        intros base x Hb Hx. rewrite EL, <- H3. apply (W3 base); auto. rewrite <- Ec. auto.
      + rewrite Ec. split; [auto|]. split; [auto|]. rewrite E. cbn. auto.
    - apply IH; auto. intros; apply HL; right; auto. }
  assert (HF' : Forall2 (only_points (uops num)) r rest') by (inversion HF; auto).
  assert (HP' : Forall (fun it => it_trans it = false /\ positions_span it /\ group_by_name it) rest').
  { clear -HF' HP. revert HP; induction HF' as [|i j l l' Ho HF IH]; intros Ht; constructor;
      inversion Ht as [|? ? Hi Hl]; subst; auto.
    destruct Ho as (_ & E1 & E2 & _ & _ & E3 & E4). unfold positions_span, group_by_name in *.
    rewrite E1, E2, E3, E4. auto. }
  assert (Hw : Forall (fun i => wf_ubase (it_mesh i)) (j1 :: rest')).
  { eapply Forall_impl; [|exact HR']. cbn. intros i H. apply H. }
  assert (Ht : Forall (fun it => it_trans it = false) rest') by (eapply Forall_impl; [|exact HP']; cbn; tauto).
  destruct (loop_defined "StackItem" invert np types j1 rest' HR' HP') as (bs & groups & n & Hg).
  pose proof (loop_length _ _ _ _ _ _ _ Ht Hw Hg) as Lb.
  destruct (merge_defined bs) as [g0 Hm]; [destruct bs; [unfold r in Hl; cbn in Lb, Hl; lia|discriminate]|exact HT|].
  destruct (loop_finish "StackItem" invert j1 rest' bs groups n g0) as (g1 & l1 & Hf1 & _); auto; try discriminate.
  exists g1, l1, (j1 :: rest'). unfold stack3d_umesh, stack3d_unstructured, stack_generate, r in *. rewrite Hc. cbn [bind].
  rewrite Hg. cbn [bind]. rewrite Hm. cbn [bind]. rewrite Hf1. reflexivity.
Qed.
End Classes.

Lemma coincident {D} (items : list (item (ubase D))) place g :
  ughosts_follow items place g -> coincident_flagged items place g.
Proof.
  intros [_ HG] i j l c a b base Hi Ha Hb Hc HE.
  destruct (HG i j l c Hi) as (a' & b' & perc & base' & Ha' & Hb' & _ & Hc' & H & _).
  assert (a' = a) as -> by congruence. assert (b' = b) as -> by congruence. assert (base' = base) as -> by congruence.
  apply H. intros v t t' p q Hv _ _ Hp Hq. rewrite (HE v Hv) in Hp. assert (q = p) as -> by congruence.
  assert (HL : forall s, lerp s p p = p).
  { intros s. destruct p as [[x y] z]. unfold lerp, lerp1. f_equal; [f_equal|]; lra. }
  rewrite !HL. apply near_refl.
Qed.
