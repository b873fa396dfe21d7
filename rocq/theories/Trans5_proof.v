From Verif Require Import RealAux Perc_model Perc_spec Perc_proof Surface_model Surface_spec Surface_proof
  Volume_model Volume_spec SMerge_model SMerge_spec SMerge_proof Groups_model Groups_spec Groups_proof Groups2_proof
  Lines_model Lines_spec Lines1_proof Polygon_model Stack_model Stack_spec Cut_proof Gen_proof Stack_proof Stack2_proof Stack3_proof Stack4_proof
  Stack5_proof Stack6_proof Stack7_proof Trans_model Trans_spec Trans1_proof Trans2_proof Trans3_proof Trans4_proof.
From Verif Require Polygon_spec Polygon5_proof.
From Coq Require Import Lra.
Open Scope nat_scope.

Lemma nth_prev {X} (x : X) l j y : nth_error l j = Some y -> exists z, nth_error (x :: l) j = Some z.
Proof.
  intros H. destruct (nth_error (x :: l) j) eqn:E; [eauto|]. apply nth_error_None in E.
  assert (j < length l) by (apply nth_error_Some; congruence). simpl in E. lia.
Qed.

(* C35, C130 *)
Lemma stack_transition_ids {D} (num : Z -> D) gm result areas pvmerge o ax bu items g groups n js :
  1 <= ax <= 2 ->
  Forall (fun i => wf_lbase (it_mesh i)) items ->
  stack2d_generate num gm result areas pvmerge o ax bu items = Ok (g, groups, n, js) ->
  exists bs nsubs, merge_blocks pvmerge ax bs = Ok g /\
    length nsubs = length (tl items) /\ length bs = length (tl items) /\ n = list_sum nsubs /\
    forall j a b, nth_error items j = Some a -> nth_error (tl items) j = Some b ->
      exists ns blk, nth_error nsubs j = Some ns /\ nth_error bs j = Some blk /\
      (it_trans b = true -> ns = 1 /\
         transition_cells num groups (default_group o) b (list_sum (firstn j nsubs)) j blk) /\
      (it_trans b = false -> layers_of b ns /\ exists g, blk = BGrid g /\
         line_block_ids num "StackItem" ax ns (lb_nc (it_mesh a)) (list_sum (firstn j nsubs)) j g).
Proof.
  intros Hax HW H.
  destruct (transition_ids num gm result areas pvmerge o ax bu items g groups n js Hax HW H)
    as (HF & bs & nsubs & H1 & H2 & H3 & H4 & HJ).
  exists bs, nsubs. repeat (split; [assumption|]).
  intros j a b Ha Hb. destruct HF as [|i1 j1 rest rest' H0 HF]; [destruct j; discriminate|]. cbn [tl] in *.
  destruct (Forall2_nth_error _ _ _ _ _ (Forall2_cons _ _ H0 HF) Ha) as (a' & Ha' & (Ea & _)).
  destruct (Forall2_nth_error _ _ _ _ _ HF Hb) as (b' & Hb' & (_ & E1 & E2 & _ & _ & E3 & E4)).
  destruct (HJ j a' b' Ha' Hb') as (ns & blk & N1 & N2 & HT & HN).
  exists ns, blk. split; [exact N1|]. split; [exact N2|]. rewrite <- E4. split.
  - intros T. destruct (HT T) as (T1 & t & pts & cells & cd & cg & B1 & _ & B3 & B4 & B5 & B6 & B7).
    split; [exact T1|]. exists pts, (flat_map snd cells), cd, cg. rewrite <- E3, <- B5.
    rewrite <- B5 in B3. split; [exact B1|]. auto.
  - intros F. destruct (HN F) as ((perc & L1 & L2) & g' & L3 & L4). rewrite E1, E2 in L1.
    split; [exists perc; auto|]. exists g'. split; [exact L3|]. rewrite Ea in L4. exact L4.
Qed.

(* C126 *)
Lemma stack_outlines {D} (num : Z -> D) gm result areas pvmerge o ax bu items g groups n js :
  1 <= ax <= 2 ->
  Forall (fun i => wf_lbase (it_mesh i)) items ->
  stack2d_generate num gm result areas pvmerge o ax bu items = Ok (g, groups, n, js) ->
  exists bs, merge_blocks pvmerge ax bs = Ok g /\ length bs = length (tl items) /\
    forall j a b, nth_error js j = Some a -> nth_error (tl js) j = Some b -> it_trans b = true ->
      forall p q, nth_error (points (tops num) a) 0 = Some p -> nth_error (points (tops num) b) 0 = Some q -> p <> q ->
      exists blk ring t s pts cells cd,
        nth_error bs j = Some blk /\ blk = BTri pts (flat_map snd cells) cd /\
        around (points (tops num) a) (points (tops num) b) ring /\
        map fst (Polygon_spec.added t) = map row ring /\
        (Polygon_spec.numbered gm ->
           Forall2 (Polygon_spec.draws t) (Polygon_spec.drawn t) (ring_edges (map row ring))) /\
        t = s ++ [Clear; Finalize] /\ to_pyvista (result s) = Ok (pts, cells).
Proof.
  intros Hax HW H.
  destruct (transition_ids num gm result areas pvmerge o ax bu items g groups n js Hax HW H)
    as (HF & bs & nsubs & H1 & H2 & H3 & H4 & HJ).
  exists bs. split; [exact H1|]. split; [exact H3|]. intros j a b Ha Hb T p q Hp Hq Hpq.
  destruct (HJ j a b Ha Hb) as (ns & blk & N1 & N2 & HT & _).
  destruct (HT T) as (_ & t & pts & cells & cd & cg & B1 & B2 & _).
  destruct (ring_around (it_mesh a) (it_mesh b)) as (ring & Er & Hr).
  exists blk, ring. 
  assert (X : exists s, map fst (Polygon_spec.added t) = map row ring /\
        (Polygon_spec.numbered gm ->
           Forall2 (Polygon_spec.draws t) (Polygon_spec.drawn t) (ring_edges (map row ring))) /\
        t = s ++ [Clear; Finalize] /\ to_pyvista (result s) = Ok (pts, cells)).
  { unfold points in Hp, Hq. cbn in Hp, Hq.
    assert (Ho : Polygon_spec.open_ring (transition_ring (it_mesh a) (it_mesh b))).
    { unfold transition_ring. destruct (ln_pts (lb_line (it_mesh a))) as [|p' A] eqn:EA; [discriminate|].
      destruct (ln_pts (lb_line (it_mesh b))) as [|q' B] eqn:EB; [discriminate|].
      injection Hp as ->. injection Hq as ->. cbn [app map rev Polygon_spec.open_ring].
      rewrite app_assoc, map_app. cbn [map]. change (row p :: ?l ++ [row q]) with ((row p :: l) ++ [row q]).
      rewrite last_last. intros E. apply row_inj in E. congruence. }
    assert (Hrow : Polygon_spec.rows_of 3 (transition_ring (it_mesh a) (it_mesh b))).
    { unfold Polygon_spec.rows_of, transition_ring. rewrite Forall_forall. intros r Hin.
      apply in_map_iff in Hin as ([[? ?] ?] & <- & _). reflexivity. }
    destruct (Polygon5_proof.polygon_outline _ _ _ _ _ _ _ _ _ _ _ Ho Hrow (Forall_nil _) (Forall_nil _) B2)
      as ((blocks & E1 & E2) & E3 & s & E4 & E5).
    exists s. inversion E2 as [|? b1 ? ? S1 S2]; subst. inversion S2; subst.
    split; [|split; [|auto]].
    - rewrite E1. cbn [concat]. rewrite app_nil_r. rewrite <- Er. destruct S1 as [S1 _]. exact S1.
    - intros Hn. specialize (E3 Hn). cbn [flat_map] in E3. rewrite app_nil_r, Er in E3. exact E3. }
  destruct X as (s & X1 & X2 & X3 & X4). exists t, s, pts, cells, cd. auto 10.
Qed.

(* C127 *)
Lemma split_cut {D} (num : Z -> D) ax bu r1 t r2 i1 js :
  it_trans t = true ->
  (cut_loop (tops num) ax bu i1 (r1 ++ t :: r2) = Ok js <->
   exists a b, js = a ++ b /\ cut_loop (tops num) ax bu i1 r1 = Ok a /\ cut_loop (tops num) ax bu t r2 = Ok b).
Proof.
  intros Ht. rewrite (cut_split (tops num) ax bu t r2 r1 i1 Ht).
  destruct (cut_loop _ _ _ i1 r1) as [a|]; [|split; [discriminate|intros (? & ? & _ & ? & _); discriminate]]. cbn [bind].
  destruct (cut_loop _ _ _ t r2) as [b|]; [|split; [discriminate|intros (? & ? & _ & _ & ?); discriminate]]. cbn [bind].
  split.
  - intros [= <-]. eauto.
  - intros (a' & b' & -> & [= <-] & [= <-]). reflexivity.
Qed.

(* C128 *)
Lemma sizes_rejected {D} (num : Z -> D) gm result areas pvmerge o ax bu items :
  2 <= length items -> ~ same_sizes items ->
  stack2d_generate num gm result areas pvmerge o ax bu items = Err ValueError.
Proof.
  intros H2 HS. unfold stack2d_generate, stack_generate.
  destruct items as [|i1 [|i2 rest]]; simpl in H2; try lia.
  destruct (cut_loop (tops num) ax bu i1 (i2 :: rest)) as [js|e] eqn:Hc.
  - exfalso. apply HS. intros j a b Ha Hb Ht.
    apply (cut_needs (tops num) (tops_lawful num) ax bu (i2 :: rest) i1 js Hc j a b Ha Hb Ht).
  - apply cut_err in Hc. subst e. reflexivity.
Qed.

Lemma trans_defined {D} (num : Z -> D) gm result areas pvmerge o ax bu items :
  ax <= 2 -> 2 <= length items -> gmsh_works gm result -> (forall bs, exists m, pvmerge bs = Ok m) ->
  Forall (fun i => wf_line (size i) (it_mesh i)) items ->
  Forall (fun it => (it_trans it = false -> positions_span it) /\ group_by_name it) (tl items) ->
  same_sizes items ->
  exists r, stack2d_generate num gm result areas pvmerge o ax bu items = Ok r.
Proof.
  intros Hax H2 Hg Hpv HW HP HS.
  destruct (Forall_dec (fun it => it_trans it = false) (fun it => Bool.bool_dec (it_trans it) false) (tl items)) as [HT|HT].
  - rewrite stack_agree by auto.
    assert (HN : forall i, In i items -> size i = size (hd (hd i items) items)).
    { destruct items as [|i1 rest]; [simpl in H2; lia|]. cbn [hd tl] in *.
      assert (forall j a, nth_error (i1 :: rest) j = Some a -> size a = size i1) as X.
      { induction j as [|j IH]; intros a Ha; [cbn in Ha; congruence|].
        destruct (nth_prev i1 rest j a Ha) as [b Hb]. rewrite <- (IH b Hb). symmetry.
        apply (HS j b a Hb Ha). rewrite Forall_forall in HT. apply HT. eapply nth_error_In; eauto. }
      intros i Hi. apply In_nth_error in Hi as [j Hj]. eauto. }
    destruct items as [|i1 rest]; [simpl in H2; lia|]. cbn [hd tl] in *.
    destruct (stack2d_defined num areas o ax bu (size i1) (i1 :: rest)) as (g & gs & n & js & E); auto.
    + rewrite Forall_forall in *. intros i Hi. rewrite <- (HN i Hi). auto.
    + cbn [tl]. rewrite Forall_forall in *. intros i Hi. destruct (HP i Hi). auto.
    + rewrite E. cbn [bind]. eauto.
  - destruct items as [|i1 rest]; [simpl in H2; lia|]. cbn [tl] in *.
    destruct (cut_defined (tops num) (tops_lawful num) ax bu rest i1 HS) as [js Hc].
    pose proof (cut_loop_sizes _ (tops_lawful num) _ _ _ _ _ Hc) as HF.
    pose proof (same_sizes_only num i1 rest js HF HS) as HS'.
    assert (HW' : Forall (fun i => wf_line (size i) (it_mesh i)) js).
    { clear -HF HW. revert HW. induction HF as [|i j l l' ((E & _) & L) HF IH]; intros HW; constructor; inversion HW; subst; auto.
      match goal with H : wf_line _ (it_mesh i) |- _ => destruct H as (A1 & A2 & A3 & A4 & A5 & A6 & A7 & A8 & A9 & A10) end.
      assert (Es : size j = size i) by exact L. rewrite Es. rewrite E. unfold wf_line. cbn. repeat split; auto. }
    assert (HP' : Forall (fun it => (it_trans it = false -> positions_span it) /\ group_by_name it) (tl js)).
    { inversion HF as [|? ? ? ? _ HF']; subst. cbn [tl]. clear -HF' HP. revert HP.
      induction HF' as [|i j l l' ((_ & E1 & E2 & _ & _ & E3 & E4) & _) HF IH]; intros HP; constructor; inversion HP as [|? ? [P1 P2] HP2]; subst; auto.
      unfold positions_span, group_by_name in *. rewrite E1, E2, E3, E4. auto. }
    assert (HT' : ~ Forall (fun it => it_trans it = false) (tl js)).
    { intros X. apply HT. inversion HF as [|? ? ? ? _ HF']; subst. cbn [tl] in X. clear -HF' X. revert X.
      induction HF' as [|i j l l' ((_ & _ & _ & _ & _ & _ & E4) & _) HF IH]; intros X; constructor; inversion X; subst; auto.
      congruence. }
    destruct js as [|j1 rest']; [inversion HF|]. cbn [tl] in *.
    destruct (gen_trans_defined num gm result areas ax Hax o Hg rest' 0 0 [] j1 numbered_nil HW' HP' HS') as [[[bs gs] n] Hgen].
    assert (exists m, merge_blocks pvmerge ax bs = Ok m) as [m Hm].
    { assert (Hal : Forall (fun i => aligned (gview (tops num) (it_mesh i))) (j1 :: rest')).
      { eapply Forall_impl; [|exact HW']. intros i Hi. exact (line_aligned num _ _ Hi). }
      destruct (gen_blocks (tops num) o _ _ (transition num gm result o) rest'
        (fun a b g grp blk g' => transition_keeps num gm result o a b g grp blk g') 0 0 [] j1 bs gs n numbered_nil Hal Hgen)
        as (_ & _ & nsubs & _ & Lb & _ & HJ).
      assert (X : exists p c d, In (BTri p c d) bs).
      { assert (exists b, In b rest' /\ it_trans b = true) as (b & Hb & Tb).
        { clear -HT'. induction rest' as [|b rest' IH]; [destruct HT'; constructor|].
          destruct (it_trans b) eqn:E; [exists b; split; [left; reflexivity|auto]|].
          destruct IH as (b' & ? & ?); [intros X; apply HT'; constructor; auto|]. exists b'. split; [right|]; auto. }
        apply In_nth_error in Hb as [j Hj]. destruct (nth_prev j1 rest' j b Hj) as [a Ha].
        destruct (HJ j a b Ha Hj) as (arr & gj & g1 & b0 & nsub & blk & _ & _ & _ & _ & _ & B & HTT & _).
        destruct (HTT Tb) as (_ & (g2 & T2 & _) & ->). apply transition_inv in T2 as (t & pts & cells & arr2 & _ & _ & ->).
        cbn in B. eexists _, _, _. eapply nth_error_In. exact B. }
      unfold merge_blocks. destruct bs as [|b1 [|b2 bs]].
      - destruct X as (? & ? & ? & []).
      - eauto.
      - rewrite (grids_none (b1 :: b2 :: bs) X). apply Hpv. }
    unfold stack2d_generate, stack_generate. destruct rest as [|i2 rest]; [simpl in H2; lia|].
    rewrite Hc. cbn [bind]. rewrite Hgen. cbn [bind]. rewrite Hm. cbn [bind]. eauto.
Qed.

(* C129 *)
Lemma no_transition_grid {D} (num : Z -> D) gm result areas pvmerge o ax bu items g groups n js :
  Forall (fun it => it_trans it = false) (tl items) ->
  (stack2d_generate num gm result areas pvmerge o ax bu items = Ok (g, groups, n, js) <->
   exists g', g = BGrid g' /\ stack2d num areas o ax bu items = Ok (g', groups, n, js)).
Proof.
  intros HT. rewrite stack_agree by auto. destruct (stack2d num areas o ax bu items) as [[[[g0 gs] m] js0]|]; cbn [bind].
  - split; [intros [= <- <- <- <-]; eauto|]. intros (g' & -> & [= <- <- <- <-]). reflexivity.
  - split; [discriminate|intros (? & _ & ?); discriminate].
Qed.

(* C128: sequences of calls *)
Section Build.
Context {D : Type} (num : Z -> D) (ax : nat) (bu : bool) (interp : list pt -> list pt -> res (list R)).
Context (Hi : forall p b z, interp p b = Ok z -> length z = length b).
Notation npts m := (length (ln_pts (lb_line m))).

Definition scalar_first (l : list (@build_op D)) : Prop :=
  match l with OpAdd (ArgScalar _) _ :: _ => True | _ => False end.

Definition built (st : stack (lbase D)) : Prop :=
  same_sizes (st_items st) /\
  (st_flag st = false -> forall last, hd_error (rev (st_items st)) = Some last -> npts (it_mesh last) = npts (st_base st)).

Lemma same_sizes_snoc (l : list (item (lbase D))) it :
  same_sizes l -> (forall last, hd_error (rev l) = Some last -> it_trans it = false -> size last = size it) ->
  same_sizes (l ++ [it]).
Proof.
  intros HS HL j a b Ha Hb Ht.
  assert (Hj : S j < length (l ++ [it])) by (apply nth_error_Some; congruence). rewrite app_length in Hj. simpl in Hj.
  rewrite nth_error_app1 in Ha by lia.
  destruct (Nat.eq_dec (S j) (length l)) as [E|E].
  - rewrite nth_error_app2, E, Nat.sub_diag in Hb by lia. injection Hb as <-.
    apply HL; auto. destruct l as [|x l] using rev_ind; [simpl in E; lia|].
    rewrite rev_app_distr. cbn. rewrite app_length in E. simpl in E.
    rewrite nth_error_app2 in Ha by lia. replace (j - length l) with 0 in Ha by lia. exact Ha.
  - rewrite nth_error_app1 in Hb by lia. apply (HS j a b Ha Hb Ht).
Qed.

Lemma map2_len {A B C} (f : A -> B -> C) l m : length l = length m -> length (map2 f l m) = length m.
Proof. revert m; induction l as [|a l IH]; intros [|b m] H; simpl in *; try lia. rewrite IH; lia. Qed.

Lemma add_built st arg ao st' :
  built st -> (st_flag st = true -> ~ scalar_first [OpAdd arg ao]) ->
  stack_add (tops num) ax bu interp st arg ao = Ok st' ->
  built st' /\ st_flag st' = false.
Proof.
  intros [HS HB] HF.
  assert (Y : forall m, (st_items st = [] -> npts m = npts (st_base st)) ->
     (st_items st <> [] -> npts m = npts (st_base st)) ->
     let it := match st_items st with
               | [] => mkItem m ResNone None (ao_prio ao) 0%R GNone false
               | _ => mkItem m (ao_res ao) (ao_method ao) (ao_prio ao) (ao_thick ao) (ao_group ao) (st_flag st)
               end in
     built (mkStack (st_base st) (st_items st ++ [it]) false) /\ st_flag (mkStack (st_base st) (st_items st ++ [it]) false) = false).
  { intros m H1 H2 it. split; [|reflexivity].
    assert (Em : it_mesh it = m) by (unfold it; destruct (st_items st); reflexivity).
    assert (En : npts m = npts (st_base st)) by (destruct (st_items st); [apply H1; reflexivity|apply H2; discriminate]).
    split.
    - cbn [st_items]. apply same_sizes_snoc; auto. intros last Hl Ht.
      unfold size. rewrite Em, En. apply HB; auto.
      unfold it in Ht. destruct (st_items st); [discriminate|exact Ht].
    - intros _ last. cbn [st_items st_base]. rewrite rev_app_distr. cbn. intros [= <-]. rewrite Em. exact En. }
  unfold stack_add. destruct arg as [x|f|nd ncol rows|pts].
  - destruct (rev (st_items st)) as [|last l] eqn:Er; cbn [bind]; intros [= <-]; apply Y.
    + intros _. cbn. apply map2_len, map_length.
    + intros Hne. destruct Hne. rewrite <- (rev_involutive (st_items st)), Er. reflexivity.
    + intros E. rewrite E in Er. discriminate.
    + intros _. cbn. rewrite map2_len by apply map_length. apply HB; [|reflexivity].
      destruct (st_flag st) eqn:Ef; [|reflexivity]. destruct (HF eq_refl). exact I.
  - cbn [bind]. intros [= <-]. apply Y; intros _; cbn; apply map2_len; apply map_length.
  - destruct (nd =? 2); [|discriminate]. destruct (ncol =? 3); [|discriminate].
    destruct (interp _ _) as [z|] eqn:Ez; [|discriminate]. cbn [bind]. intros [= <-].
    apply Y; intros _; cbn; apply map2_len; apply Hi in Ez; exact Ez.
  - destruct (interp _ _) as [z|] eqn:Ez; [|discriminate]. cbn [bind]. intros [= <-].
    apply Y; intros _; cbn; apply map2_len; apply Hi in Ez; exact Ez.
Qed.

Lemma run_built l : forall st st', built st -> (st_flag st = true -> ~ scalar_first l) ->
  ~ scalar_after_transition l -> run_ops num ax bu interp st l = Ok st' -> built st'.
Proof.
  induction l as [|op l IH]; intros st st' HB HF HN; cbn [run_ops]; [intros [= <-]; exact HB|].
  destruct op as [arg ao|m]; cbn [run_op].
  - destruct (stack_add _ _ _ _ _ _ _) as [st1|] eqn:Ea; [|discriminate]. cbn [bind].
    destruct (add_built st arg ao st1 HB) as [HB1 HF1]; [exact HF|exact Ea|].
    apply IH; auto. congruence.
  - cbn [bind]. apply IH.
    + destruct HB as [HS _]. split; [exact HS|]. cbn. discriminate.
    + intros _. destruct l as [|[[] |] ]; cbn; auto.
    + destruct l as [|[[] |] ]; cbn in HN |- *; auto.
Qed.

Lemma build_sizes base l st : ~ scalar_after_transition l ->
  run_ops num ax bu interp (mkStack base [] false) l = Ok st -> same_sizes (st_items st).
Proof.
  intros HN H. apply run_built in H; [apply H| |discriminate|exact HN].
  split; [intros [|j] a b Ha; discriminate Ha|]. intros _ last Hl. discriminate Hl.
Qed.
End Build.

(* C131 *)
Lemma base_line_first {D} (m : lmesh pt D) l : base_line m = Ok l ->
  exists ids, nth_error (l_cells m) 0 = Some ids /\ picks (l_pts m) ids (l_pts l) /\
    (forall k, nth_error (l_cells l) k = if k + 1 <? length ids then Some [k; k + 1] else None).
Proof.
  unfold base_line. destruct (Nat.eqb_spec (length (l_cells m)) 0); [discriminate|].
  destruct (split_lines true m) as [ls|] eqn:E; [|discriminate]. cbn [bind]. unfold at_res.
  destruct (nth_error ls 0) as [l0|] eqn:El; [|discriminate]. intros [= <-].
  destruct (split_lines_faithful true m ls E) as [L H].
  destruct (nth_error (l_cells m) 0) as [ids|] eqn:Ei; [|apply nth_error_None in Ei; lia].
  destruct (H 0 ids l0 Ei El) as (H1 & _ & H3 & _). exists ids. auto.
Qed.
