From Verif Require Import RealAux Perc_model Perc_spec Perc_proof Surface_model Surface_spec Surface_proof
  Volume_model Volume_spec SMerge_model SMerge_spec SMerge_proof Groups_model Groups_spec Groups_proof Groups2_proof
  Lines_model Polygon_model Stack_model Stack_spec Cut_proof Gen_proof Stack_proof Stack2_proof Stack3_proof Stack4_proof
  Stack5_proof Stack6_proof Stack7_proof Trans_model Trans_spec Trans1_proof Trans2_proof Trans3_proof.
From Verif Require Polygon_spec Polygon5_proof.
From Coq Require Import Lra.
Open Scope nat_scope.

(* ---- gmsh succeeds ---- *)
Definition yieldsP {A} (m : gm A) (P : A -> Prop) : Prop := forall t, exists t' x, m t = (t', Ok x) /\ P x.

Lemma y_bind {A B} (m : gm A) (f : A -> gm B) P Q :
  yieldsP m P -> (forall x, P x -> yieldsP (f x) Q) -> yieldsP (gbind m f) Q.
Proof.
  intros H1 H2 t. destruct (H1 t) as (t1 & x & E & Hx). destruct (H2 x Hx t1) as (t2 & y & E2 & Hy).
  exists t2, y. unfold gbind. rewrite E. auto.
Qed.
Lemma y_ret {A} (x : A) (P : A -> Prop) : P x -> yieldsP (gret x) P.
Proof. intros H t. exists t, x. auto. Qed.
Lemma y_call (g : gmsh) o : (forall t o, g t o <> None) -> yieldsP (call g o) (fun _ => True).
Proof.
  intros H t. unfold call. specialize (H t o). destruct (g t o) as [k|]; [|congruence]. eexists _, k. auto.
Qed.
Lemma y_mapM {A B} (f : A -> gm B) l : (forall x, In x l -> yieldsP (f x) (fun _ => True)) ->
  yieldsP (gmapM f l) (fun ys => length ys = length l).
Proof.
  induction l as [|x l IH]; intros H; cbn [gmapM]; [apply y_ret; reflexivity|].
  eapply y_bind; [apply H; left; reflexivity|]. intros y _.
  eapply y_bind; [apply IH; intros z Hz; apply H; right; exact Hz|]. intros ys E.
  apply y_ret. simpl. auto.
Qed.

Lemma ring_closed (ps : list pt) : 2 <= length ps ->
  exists l, to_points (map row ps) = Ok l /\ 2 <= length l /\ Forall (fun r => length r = 3) l.
Proof.
  destruct ps as [|p [|q ps]]; simpl length; intros H; try lia.
  unfold to_points. cbn [map]. replace (length (row p) =? 2) with false by (destruct p as [[? ?] ?]; reflexivity).
  assert (HF : Forall (fun r => length r = 3) (row p :: row q :: map row ps)).
  { change (row p :: row q :: map row ps) with (map row (p :: q :: ps)). rewrite Forall_forall.
    intros r Hr. apply in_map_iff in Hr as ([[? ?] ?] & <- & _). reflexivity. }
  destruct (row_eqb _ _); eexists; split; try reflexivity; split; auto; try (simpl; lia).
  apply Forall_app. split; auto. constructor; [|constructor]. inversion HF; auto.
Qed.

Lemma gmsh_meshes gm result ps : gmsh_works gm result -> 2 <= length ps ->
  exists t pts cells, polygon gm result false None "gmsh" (Some "triangle"%string) (map row ps) [] =
    (t, Ok (Meshed pts cells)).
Proof.
  intros [Hg Hr] Hl. destruct (ring_closed ps Hl) as (l & El & L2 & LF).
  unfold polygon. rewrite El. cbn [mapM bind length Nat.eqb String.eqb Ascii.eqb orb Bool.eqb].
  set (body := gbind _ _). assert (HB : yieldsP body (fun m => exists a b, m = Meshed a b)).
  { unfold body. eapply y_bind with (P := fun _ => True); [|intros x _; apply y_ret; eauto].
    unfold try_body. eapply y_bind; [apply y_call; auto|]. intros ? _.
    eapply y_bind with (P := fun _ => True).
    - unfold surfaces. cbn [String.eqb Ascii.eqb Bool.eqb]. eapply y_bind; [apply y_mapM|].
      + intros ring0 [<-|[]]. unfold add_surface. cbn [negb].
        assert (Hm : exists sizes, mesh_sizes true None l = Ok sizes /\ length sizes <> 0).
        { unfold mesh_sizes, diff_norms. destruct l as [|a [|b l]]; simpl in L2; try lia. cbn [tl map2].
          eexists. split; [reflexivity|]. rewrite map_length. cbn [map2]. simpl. lia. }
        destruct Hm as (sizes & -> & Hs).
        eapply y_bind with (P := fun s => s = sizes); [intros t; exists t, sizes; auto|]. intros s ->.
        eapply y_bind; [apply y_mapM|].
        * intros [r s] Hin. apply in_combine_l in Hin. cbn [fst snd].
          assert (length r = 3) as ->.
          { rewrite Forall_forall in LF. apply LF. clear -Hin. revert Hin. 
            induction l as [|a [|b l'] IH]; cbn [removelast]; [intros []|intros []|].
            intros [->|H]; [left; reflexivity|right; apply IH; exact H]. }
          cbn [Nat.eqb]. apply y_call; auto.
        * cbn beta. intros tags Ht. eapply y_bind; [apply y_mapM; intros; apply y_call; auto|].
          intros lines _. destruct tags as [|t0 tags].
          { exfalso. destruct l as [|a [|b l]]; simpl in L2; try lia.
            destruct sizes as [|s0 sizes]; [simpl in Hs; lia|]. cbn [removelast combine] in Ht.
            destruct l; simpl in Ht; lia. }
          eapply y_bind; [apply y_call; auto|]. intros ? _.
          eapply y_bind; [apply y_call; auto|]. intros ? _. apply y_ret. exact I.
      + intros ? _. eapply y_bind; [apply y_call; auto|]. intros ? _. apply y_ret. exact I.
    - intros ? _. eapply y_bind; [apply y_call; auto|]. intros ? _.
      eapply y_bind; [apply y_call; auto|]. intros ? _.
      eapply y_bind with (P := fun _ => True); [apply y_ret; exact I|]. intros ? _.
      eapply y_bind; [apply y_call; auto|]. intros ? _.
      eapply y_bind with (P := fun _ => True); [apply y_ret; exact I|]. intros ? _.
      eapply y_bind; [apply y_call; auto|]. intros ? _.
      eapply y_bind; [apply y_call; auto|]. intros ? _.
      intros t. unfold to_pyvista.
      match goal with |- context [mapM ?f ?l] => destruct (mapM_defined f l) as [cs Hcs] end.
      + intros [ty el] Hin. apply filter_In in Hin as [Hin Hne]. cbn [fst snd] in *.
        specialize (Hr t ty el Hin). cbn in Hr. destruct Hr as [<-|[<-|[<-|[<-|[]]]]]; cbn in *; eauto; discriminate.
      + rewrite Hcs. cbn [bind]. eauto. }
  unfold finally. destruct (HB []) as (t1 & m & E & a & b & ->). rewrite E.
  destruct (y_call gm Clear Hg t1) as (t2 & k & E2 & _). rewrite E2.
  destruct (y_call gm Finalize Hg t2) as (t3 & k' & E3 & _). rewrite E3. eauto.
Qed.

Lemma Forall2_nth_error_r {A B} (P : A -> B -> Prop) l m j y :
  Forall2 P l m -> nth_error m j = Some y -> exists x, nth_error l j = Some x /\ P x y.
Proof.
  intros H. revert j. induction H as [|a b l m Hab H IH]; intros [|j] E; try discriminate.
  - injection E as <-. exists a. auto.
  - apply (IH j E).
Qed.

(* ---- the stack exists ---- *)
Section T.
Context {D : Type} (num : Z -> D) (gm : gmsh) (result : list gop -> gmsh_mesh).
Context (areas : shape3 -> list pt -> list R) (ax : nat) (Hax : ax <= 2).
Notation ops := (tops num).
Notation ext := (fun a b r m => let! g := generate_surface_from_two_lines areas (LinePoly (@lb_line D a))
                                (LinePoly (lb_line b)) (stack2d_plane ax) r m in Ok (BGrid g)).
Notation trans := (transition num gm result).

Lemma gen_trans_defined o (Hw : gmsh_works gm result) rest : forall i n groups i1,
  numbered groups ->
  Forall (fun it => wf_line (size it) (it_mesh it)) (i1 :: rest) ->
  Forall (fun it => (it_trans it = false -> positions_span it) /\ group_by_name it) rest ->
  same_sizes (i1 :: rest) ->
  exists r, gen_loop ops o "StackItem" ext (trans o) i n groups i1 rest = Ok r.
Proof.
  induction rest as [|i2 rest IH]; intros i n groups i1 Hn HW HP HS; cbn [gen_loop]; [eauto|].
  inversion HW as [|? ? W1 HW']; subst. inversion HW' as [|? ? W2 _]; subst.
  inversion HP as [|? ? [P1 P2] HP']; subst.
  assert (HS' : same_sizes (i2 :: rest)) by (intros j a b Ha Hb; apply (HS (S j) a b Ha Hb)).
  destruct (initialize_total o (gview ops (it_mesh i1)) groups (it_group i2) P2) as [[arr g1] E].
  rewrite E. cbn [bind].
  pose proof (line_aligned num _ _ W1) as Al.
  destruct (initialize_spec _ _ _ _ _ _ _ Hn Al E) as (Hn1 & _ & L & _).
  assert (Larr : length arr = size i1 - 1).
  { rewrite L. cbn. rewrite seq_length. apply W1. }
  destruct (it_trans i2) eqn:Et.
  - assert (exists blk g2, trans o (set_cg ops arr (it_mesh i1)) (it_mesh i2) g1 (it_group i2) = Ok (blk, g2)
              /\ ncB ops blk = ncB ops blk) as (blk & g2 & Ht & _).
    { unfold transition. change (transition_ring (set_cg ops arr (it_mesh i1)) (it_mesh i2))
        with (map row (ln_pts (lb_line (it_mesh i1)) ++ rev (ln_pts (lb_line (it_mesh i2))))).
      destruct (gmsh_meshes gm result (ln_pts (lb_line (it_mesh i1)) ++ rev (ln_pts (lb_line (it_mesh i2)))) Hw)
        as (t & pts & cells & Hp).
      { rewrite app_length. destruct W1 as (X1 & X2 & _). unfold size in *. lia. }
      rewrite Hp. cbn [snd bind].
      destruct (initialize_total o (mkG (seq 0 (length (flat_map snd cells))) None None) g1 (it_group i2) P2) as [[x y] E2].
      rewrite E2. cbn [bind]. eauto. }
    rewrite Ht. cbn [bind]. destruct (transition_keeps num gm result o _ _ _ _ _ _ Hn1 Ht) as [Hn2 _].
    rewrite repeat_length, Nat.eqb_refl. cbn [seq map]. rewrite repeat_each_one, repeat_length, Nat.eqb_refl.
    cbn [andb negb]. destruct (IH (S i) (n + 1) g2 i2 Hn2 HW' HP' HS') as [[[bs gg] nn] Hr].
    rewrite Hr. cbn [bind]. eauto.
  - destruct (P1 eq_refl) as (perc & Hp & Hp2 & _).
    assert (W2' : wf_line (size i1) (it_mesh i2)).
    { pose proof (HS 0 i1 i2 eq_refl eq_refl Et) as Es. unfold size in *. rewrite Es. exact W2. }
    destruct (line_block_defined num areas ax Hax (size i1) _ _ arr _ _ perc W1 W2' Larr Hp Hp2) as [b0 Hb0].
    unfold lext in Hb0. change (set_cg ops arr (it_mesh i1)) with (set_cg (lops num) arr (it_mesh i1)).
    rewrite Hb0. cbn [bind].
    destruct (line_block num areas ax Hax (size i1) _ _ arr _ _ _ W1 W2' Larr Hb0) as (perc' & Hp' & _ & _ & Hnc & _).
    rewrite Hp in Hp'. apply Ok_inj in Hp'. subst perc'.
    assert (Hm : ncM ops (set_cg (lops num) arr (it_mesh i1)) = size i1 - 1) by (cbn; apply W1).
    rewrite Hm. assert (H0 : size i1 - 1 <> 0) by (destruct W1 as (X1 & _); lia).
    destruct (Nat.eqb_spec (size i1 - 1) 0); [contradiction|]. cbn [bind].
    change (ncB ops (BGrid b0)) with (n_cells (sg_dims b0)). rewrite Hnc.
    rewrite Nat.div_mul by auto.
    rewrite tile_length, repeat_each_length, !map_length, !seq_length, Nat.eqb_refl. cbn [andb negb].
    destruct (IH (S i) (n + (length perc - 1)) g1 i2 Hn1 HW' HP' HS') as [[[bs gg] nn] Hr].
    rewrite Hr. cbn [bind]. eauto.
Qed.

(* without transitions the stack is that of the structured model *)
Lemma gen_agree o rest : forall i n groups i1,
  Forall (fun it => it_trans it = false) rest ->
  gen_loop ops o "StackItem" ext (trans o) i n groups i1 rest =
  let! r := gen_loop (lops num) o "StackItem" (lext areas ax) (fun _ _ _ _ => Err NotImplementedError) i n groups i1 rest in
  let '(bs, gs, m) := r in Ok (map BGrid bs, gs, m).
Proof.
  induction rest as [|i2 rest IH]; intros i n groups i1 HT; cbn [gen_loop]; [reflexivity|].
  inversion HT as [|? ? Ht HT']; subst. rewrite Ht.
  change (gview ops (it_mesh i1)) with (gview (lops num) (it_mesh i1)).
  destruct (initialize_group_array _ _ _ _ _) as [[arr g1]|]; [|reflexivity]. cbn [bind].
  change (set_cg ops arr (it_mesh i1)) with (set_cg (lops num) arr (it_mesh i1)).
  unfold lext at 1. destruct (generate_surface_from_two_lines _ _ _ _ _ _) as [b0|]; [|reflexivity]. cbn [bind].
  change (ncM ops (set_cg (lops num) arr (it_mesh i1))) with (ncM (lops num) (set_cg (lops num) arr (it_mesh i1))).
  destruct (Nat.eqb _ 0); [reflexivity|]. cbn [bind].
  change (ncB ops (BGrid b0)) with (ncB (lops num) b0).
  destruct (negb _); [reflexivity|]. rewrite IH by auto.
  destruct (gen_loop (lops num) _ _ _ _ _ _ _ _ _) as [[[bs gs] m]|]; [|reflexivity]. cbn [bind]. reflexivity.
Qed.

Lemma grids_all (l : list (sgrid D)) : grids_of (map BGrid l) = Some l.
Proof. induction l as [|g l IH]; cbn; [reflexivity|]. now rewrite IH. Qed.

Lemma merge_grids pvmerge (l : list (sgrid D)) : merge_blocks pvmerge ax (map BGrid l) =
  let! g := merge_structured l (Some ax) in Ok (BGrid g).
Proof.
  destruct l as [|a [|b l]]; [reflexivity|reflexivity|].
  change (merge_blocks pvmerge ax (map BGrid (a :: b :: l))) with
    (match grids_of (map BGrid (a :: b :: l)) with
     | Some gs => let! g := merge_structured gs (Some ax) in Ok (BGrid g)
     | None => pvmerge (map BGrid (a :: b :: l)) end).
  now rewrite grids_all.
Qed.

Lemma cut_agree bu rest : forall i1, cut_loop ops ax bu i1 rest = cut_loop (lops num) ax bu i1 rest.
Proof.
  induction rest as [|i2 rest IH]; intros i1; [reflexivity|]. cbn [cut_loop].
  assert (E : cut_pair ops ax bu i1 i2 = cut_pair (lops num) ax bu i1 i2) by reflexivity.
  rewrite E. destruct (cut_pair _ _ _ _ _) as [[j1 j2]|]; [|reflexivity]. cbn [bind]. now rewrite IH.
Qed.

Lemma stack_agree pvmerge o bu items :
  Forall (fun it => it_trans it = false) (tl items) ->
  stack2d_generate num gm result areas pvmerge o ax bu items =
  let! r := stack2d num areas o ax bu items in
  let '(g, gs, n, js) := r in Ok (BGrid g, gs, n, js).
Proof.
  intros HT. unfold stack2d_generate, stack2d, stack_generate.
  destruct items as [|i1 [|i2 rest]]; [reflexivity|reflexivity|].
  rewrite cut_agree.
  destruct (cut_loop _ _ _ _ _) as [js|] eqn:Hc; [|reflexivity]. cbn [bind].
  pose proof (cut_loop_sizes _ (lops_lawful num) _ _ _ _ _ Hc) as HF.
  destruct js as [|j1 rest']; [reflexivity|].
  assert (HT' : Forall (fun it => it_trans it = false) rest').
  { inversion HF as [|? ? ? ? _ HF']; subst. cbn [tl] in HT. clear -HF' HT. revert HT.
    induction HF' as [|i j l l' ((_ & _ & _ & _ & _ & _ & E) & _) HF IH]; intros HT; constructor; inversion HT; subst; auto.
    congruence. }
  rewrite (gen_agree o rest' 0 0 [] j1 HT'). unfold lext.
  destruct (gen_loop (lops num) _ _ _ _ _ _ _ _ _) as [[[bs gs] m]|]; [|reflexivity]. cbn [bind].
  rewrite merge_grids. destruct (merge_structured bs (Some ax)); reflexivity.
Qed.

Lemma grids_none (bs : list (block D)) : (exists p c d, In (BTri p c d) bs) -> grids_of bs = None.
Proof.
  induction bs as [|b bs IH]; intros (p & c & d & H); [destruct H|]. destruct b as [g|]; [|reflexivity].
  destruct H as [H|H]; [discriminate|]. cbn. rewrite IH; eauto.
Qed.

Lemma same_sizes_only i1 rest js :
  Forall2 (fun i j => only_points ops i j /\ length (points ops j) = length (points ops i)) (i1 :: rest) js ->
  same_sizes (i1 :: rest) -> same_sizes js.
Proof.
  intros HF HS j a b Ha Hb Ht.
  destruct (Forall2_nth_error_r _ _ _ _ _ HF Ha) as (a' & Ha' & (_ & La)).
  destruct (Forall2_nth_error_r _ _ _ _ _ HF Hb) as (b' & Hb' & ((_ & _ & _ & _ & _ & _ & Et) & Lb)).
  specialize (HS j a' b' Ha' Hb' ltac:(congruence)).
  unfold points in *. cbn in La, Lb. congruence.
Qed.
End T.
