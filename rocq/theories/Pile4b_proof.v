From Verif Require Import Lines_spec Lines1_proof RealAux Perc_model Perc_spec Perc_proof Surface_model Surface_spec Surface_proof
  Volume_model Volume_spec Volume_proof SMerge_model SMerge_spec SMerge_proof
  Groups_model Groups_spec Groups_proof Groups2_proof Polygon_model
  Stack_model Stack_spec Gen_proof Stack_proof Stack2_proof Stack3_proof Stack4_proof Stack6_proof Stack7_proof
  Final_model Final_spec Final1_proof Trans_model Trans_spec Trans1_proof Trans2_proof Trans3_proof Trans5_proof Trans6_proof
  Line_spec Line3_proof Settle_spec Settle_proof Input_model Input1_proof
  Pile_model Pile_spec Pile_proof Pile3_model Pile3_spec Pile3_proof Pile4_model Pile4_spec Pile4_proof.
From Verif Require Lines_model Polygon_spec Polygon5_proof Surface2_spec Surface2_proof.
From Coq Require Import Lra Ascii.
Import Lines_model(lmesh, l_pts, l_cells, l_pd, l_cd, mkL).
Open Scope nat_scope.

(* a line with its points in order and no table of groups *)
Definition straight {D} (it : item (lbase D)) : Prop :=
  exists n, Line_spec.wf_line (S n) (it_mesh it) /\ ln_ids (lb_line (it_mesh it)) = seq 0 (S (S n)) /\ lb_labels (it_mesh it) = None.

Lemma straight_lbase {D} (it : item (lbase D)) : straight it -> wf_lbase (it_mesh it).
Proof.
  intros (n & (W1 & W2 & W3 & W4 & _ & _ & _ & _ & _ & W5) & _). split; [lia|]. split; [lia|]. intros cg E. rewrite W2. now apply W5.
Qed.

(* the names given by a call *)
Lemma call_names o (mesh : gmesh nat) t (c : st_call) arr t' : numbered t -> aligned mesh -> gm_labels mesh = None ->
  (ao_group (sc_opts c) = GNone \/ exists s, ao_group (sc_opts c) = GStr s) ->
  initialize_group_array o mesh t (ao_group (sc_opts c)) "" = Ok (arr, t') ->
  forall i, i < length (gm_cells mesh) -> exists k, named t' arr i k /\ call_name (default_group o) c k.
Proof.
  intros Hn Ha El Hg H i Hi. destruct (item_names o mesh t _ arr t' Hn Ha H i Hi) as (k & H1 & H2). exists k. split; [exact H1|].
  assert (HB : base_name (labelled mesh) (ignore_groups o) (the_default o "") i k -> k = default_group o).
  { intros HB. inversion HB as [cg labels k' E|Hall E']; [|reflexivity]. exfalso. unfold labelled in E. rewrite El in E.
    destruct (gm_cg mesh) in E; discriminate. }
  unfold call_name. unfold item_name in H2. destruct Hg as [Eg|[s Eg]]; rewrite Eg in *; [now apply HB|].
  destruct H2 as (N1 & N2 & N3). split; [auto|]. split; [eauto|exact N3].
Qed.

Section Blocks.
Context {D : Type} (num : Z -> D) (gm : gmsh) (result : list gop -> gmsh_mesh) (areas : shape3 -> list pt -> list R).
Context (o : options) (ax : nat) (Hax : ax <= 2).
Notation ops := (tops num).

Lemma seq_points {X} (v w : list X) : Forall2 (fun i x => nth_error v i = Some x) (seq 0 (length v)) w -> w = v.
Proof.
  intros H. apply nth_error_ext. intros i. destruct (nth_error w i) as [x|] eqn:E.
  - destruct (Forall2_nth_r _ _ _ H i x E) as (k & Hk & Hx). assert (i < length v).
    { pose proof (Forall2_len _ _ _ H) as L. rewrite seq_length in L. rewrite L. apply nth_error_Some. congruence. }
    rewrite (nth_error_nth' _ 0) in Hk by (rewrite seq_length; assumption). rewrite seq_nth in Hk by assumption. injection Hk as <-. now symmetry.
  - apply nth_error_None in E. rewrite <- (Forall2_len _ _ _ H), seq_length in E. symmetry. now apply nth_error_None.
Qed.

Lemma line_read (m : lbase D) n ps : Line_spec.wf_line (S n) m -> ln_ids (lb_line m) = seq 0 (S (S n)) -> get_points (LinePoly (lb_line m)) = Ok ps ->
  ps = ln_pts (lb_line m).
Proof.
  intros (_ & _ & W & _) E H. apply Surface2_proof.get_points_traversed in H. cbn in H. rewrite E, <- W in H. exact (seq_points _ _ H).
Qed.

Lemma strip_block a b arr gj g1 gt call off j nsub b0 : straight a -> straight b -> numbered gj -> extends g1 gt ->
  initialize_group_array o (gview (lops num) (it_mesh a)) gj (it_group b) "" = Ok (arr, g1) ->
  it_group b = ao_group (sc_opts call) -> it_res b = ao_res (sc_opts call) -> it_method b = ao_method (sc_opts call) ->
  (ao_group (sc_opts call) = GNone \/ exists s, ao_group (sc_opts call) = GStr s) ->
  generate_surface_from_two_lines areas (LinePoly (lb_line (set_cg (lops num) arr (it_mesh a))))
    (LinePoly (lb_line (it_mesh b))) (stack2d_plane ax) (it_res b) (it_method b) = Ok b0 ->
  ncB (lops num) b0 = nsub * ncM (lops num) (set_cg (lops num) arr (it_mesh a)) ->
  let s := put_all (lops num) (numbered_ids "StackItem" j off nsub (ncM (lops num) (set_cg (lops num) arr (it_mesh a)))) b0 in
  strip_between ax call (points ops a) (points ops b) nsub s /\
  cells_named num gt (default_group o) call (nsub * (length (points ops a) - 1)) (sg_cd s).
Proof.
  intros (n & Wa & Ia & La) (n' & Wb & Ib & Lb) Hn He Hi Eg Er Em Hg Hs Hb s.
  pose proof Wa as (A1 & A2 & A3 & _ & _ & _ & _ & _ & _ & A4).
  assert (Hal : aligned (gview (lops num) (it_mesh a))).
  { unfold aligned. cbn. destruct (lb_cg (it_mesh a)) as [cg|] eqn:Ec; auto. rewrite seq_length, A2. now apply A4. }
  assert (Larr : length arr = S n).
  { destruct (initialize_spec _ _ _ _ _ _ _ Hn Hal Hi) as (_ & _ & L & _). rewrite L. cbn. now rewrite seq_length. }
  pose proof Hs as Hs'. apply surface_coords in Hs as (pa & pb & perc & la & lb & Hpa & Hpb & Hl & Hp & Hpl & Hd & HL & HN).
  assert (Hpa' : get_points (LinePoly (lb_line (it_mesh a))) = Ok pa) by exact Hpa.
  apply (line_read _ n _ Wa Ia) in Hpa'. apply (line_read _ n' _ Wb Ib) in Hpb. subst pa pb.
  assert (la = across ax /\ lb = ax) as [-> ->].
  { destruct ax as [|[|[|]]]; try lia; cbn in Hpl; inversion Hpl; auto. }
  destruct (surface_data_inv _ _ _ _ _ _ _ Hs') as (perc' & Hp' & _ & Hcd & _ & Hlen). rewrite Hp in Hp'. injection Hp' as <-.
  assert (HA : In ("CellGroup"%string, map num arr) (ln_cd (lb_line (set_cg (lops num) arr (it_mesh a))))) by (cbn; apply aput_In).
  pose proof (Hlen _ _ HA) as HLc. rewrite tile_length, map_length, Larr in HLc. cbn [ncB lops ncM set_cg lb_nc] in Hb. rewrite A2 in Hb.
  assert (Hns : nsub = length perc - 1) by (rewrite <- HLc in Hb; nia).
  assert (Epa : points ops a = ln_pts (lb_line (it_mesh a))) by reflexivity.
  assert (Epb : points ops b = ln_pts (lb_line (it_mesh b))) by reflexivity.
  rewrite Epa, Epb. split.
  - exists perc. rewrite <- Er, <- Em. split; [exact Hp|]. split; [exact Hns|].
    assert (ES : sg_dims s = strip_dims ax (length (ln_pts (lb_line (it_mesh a)))) (length perc)).
    { unfold s. cbn. rewrite Hd. destruct ax as [|[|[|]]]; try lia; reflexivity. }
    split; [exact ES|]. split; [exact HL|]. intros i k p q t Ha Hb' Ht.
    assert (EP : sg_pts s = sg_pts b0) by reflexivity. assert (ED : sg_dims s = sg_dims b0) by reflexivity.
    rewrite EP, ED. specialize (HN i k p q t Ha Hb' Ht).
    replace (node_at ax i k) with (grid_coord (across ax) ax i k) by (clear - Hax; destruct ax as [|[|[|]]]; try lia; reflexivity).
    rewrite HN. f_equal. destruct p as [[? ?] ?], q as [[? ?] ?]. cbn. unfold lerp1. apply injective_projections; [apply injective_projections|]; cbn; ring.
  - rewrite A3. replace (S (S n) - 1) with (S n) by lia. exists (tile arr nsub). split; [|split].
    + assert (HT : In ("CellGroup"%string, map num (tile arr nsub)) (sg_cd b0)).
      { rewrite Hcd. apply in_map_iff. exists ("CellGroup"%string, map num arr). split; [|exact HA]. cbn [fst snd]. rewrite <- Hns. f_equal.
        clear. induction nsub as [|k IH]; [reflexivity|]. cbn [tile]. now rewrite map_app, IH. }
      unfold s. cbn. apply aput_other; [discriminate|]. apply aput_other; [discriminate|]. apply aput_other; [discriminate|]. exact HT.
    + rewrite tile_length. lia.
    + intros c Hc. assert (Hm : c mod S n < S n) by (apply Nat.mod_upper_bound; lia).
      rewrite Eg in Hi.
      destruct (call_names o _ gj call arr g1 Hn Hal La Hg Hi (c mod S n)) as (k & (z & Hz & Hk) & Hname).
      { cbn. rewrite seq_length. lia. }
      exists k. split; [|exact Hname]. eapply named_extends; [exact He|]. exists z. split; [|exact Hk].
      rewrite Surface2_proof.tile_mod by lia. rewrite Larr. exact Hz.
Qed.

Lemma around_unique {A} (a b r r' : list A) : around a b r -> around a b r' -> r = r'.
Proof.
  intros (L & H1 & H2) (L' & H1' & H2'). apply nth_error_ext. intros i.
  destruct (Nat.lt_ge_cases i (length a)); [rewrite H1, H1'; auto|].
  destruct (Nat.lt_ge_cases i (length a + length b)).
  - assert (E : exists k, k < length b /\ i = length a + (length b - 1 - k)) by (exists (length b - 1 - (i - length a)); lia).
    destruct E as (k & Hk & ->). rewrite H2, H2'; auto.
  - rewrite !(proj2 (nth_error_None _ _)); auto; lia.
Qed.

Lemma mesh_read t ring pts cells : polygon gm result false None "gmsh" (Some "triangle"%string) ring [] = (t, Ok (Meshed pts cells)) ->
  exists s, t = s ++ [Clear; Finalize] /\ to_pyvista (result s) = Ok (pts, cells).
Proof.
  unfold polygon. destruct (to_points ring) as [ring'|]; [|discriminate]. cbn [mapM].
  change (finally gm (let* m := try_body gm result false false None "gmsh" ring' [] in gret (Meshed (fst m) (snd m))) [] = (t, Ok (Meshed pts cells)) ->
    exists s, t = s ++ [Clear; Finalize] /\ to_pyvista (result s) = Ok (pts, cells)).
  unfold finally. set (B := gbind _ _). destruct (B []) as [t1 r1] eqn:EB.
  unfold call. destruct (gm t1 Clear); [|discriminate].
  destruct (gm (t1 ++ [Clear]) Finalize); [|discriminate]. intros [= <- ->]. unfold B in EB.
  apply Polygon5_proof.gbind_ok in EB as (ta & [p c] & EB & E). injection E as <- -> ->. unfold try_body in EB.
  do 9 (apply Polygon5_proof.gbind_ok in EB as (? & ? & _ & EB)). injection EB as <- EB. rewrite <- app_assoc. eauto.
Qed.

Lemma polygon_closed ring : Polygon_spec.open_ring ring ->
  polygon gm result false None "gmsh" (Some "triangle"%string) (ring ++ firstn 1 ring) [] = polygon gm result false None "gmsh" (Some "triangle"%string) ring [].
Proof.
  intros Ho. assert (E : to_points (ring ++ firstn 1 ring) = to_points ring); [|unfold polygon; now rewrite E].
  destruct ring as [|r0 l]; [reflexivity|]. cbn [firstn]. unfold to_points. cbn [app]. change (r0 :: l ++ [r0]) with ((r0 :: l) ++ [r0]). rewrite last_last.
  cbn [Polygon_spec.open_ring] in Ho. unfold row_eqb. destruct (list_eq_dec _ r0 r0); [|congruence].
  destruct (list_eq_dec Req_EM_T r0 (last (r0 :: l) r0)); [congruence|reflexivity].
Qed.

Lemma between_read (a b : lbase D) t pts cells :
  polygon gm result false None "gmsh" (Some "triangle"%string) (transition_ring a b) [] = (t, Ok (Meshed pts cells)) ->
  mesh_between gm result (ln_pts (lb_line a)) (ln_pts (lb_line b)) pts (flat_map snd cells).
Proof.
  intros HP. destruct (mesh_read _ _ _ _ HP) as (s & -> & Hs). exists (s ++ [Clear; Finalize]), s, cells. do 3 (split; [auto|]). intros ring [Hr Hne].
  destruct (ring_around a b) as (ring0 & Er & Hr0).
  assert (Ho : Polygon_spec.open_ring (map row ring)).
  { destruct ring as [|r0 l]; [cbn in Hne; congruence|]. cbn [map Polygon_spec.open_ring]. intros E. apply Hne.
    destruct l as [|x l _] using rev_ind; [reflexivity|]. rewrite map_app in E. cbn [map] in E.
    change (row r0 :: map row l ++ [row x]) with ((row r0 :: map row l) ++ [row x]) in E. rewrite last_last in E. apply row_inj in E. subst x.
    change (r0 :: l ++ [r0]) with ((r0 :: l) ++ [r0]). transitivity (Some r0); [reflexivity|]. rewrite nth_error_app2 by (rewrite app_length; cbn; lia).
    rewrite app_length. cbn [length]. replace (_ - _) with 0 by lia. reflexivity. }
  assert (Hrow : Polygon_spec.rows_of 3 (map row ring)).
  { unfold Polygon_spec.rows_of. rewrite Forall_forall. intros r Hin. apply in_map_iff in Hin as ([[? ?] ?] & <- & _). reflexivity. }
  assert (HP' : polygon gm result false None "gmsh" (Some "triangle"%string) (map row ring) [] = (s ++ [Clear; Finalize], Ok (Meshed pts cells))).
  { rewrite Er in HP. destruct Hr as [Hr|Hr]; rewrite (around_unique _ _ _ _ Hr0 Hr) in HP; [exact HP|].
    rewrite map_app in HP. replace (map row (firstn 1 ring)) with (firstn 1 (map row ring)) in HP by (destruct ring; reflexivity).
    rewrite polygon_closed in HP by exact Ho. exact HP. }
  destruct (Polygon5_proof.polygon_outline _ _ _ _ _ _ _ _ _ _ _ Ho Hrow (Forall_nil _) (Forall_nil _) HP')
    as ((blocks & E1 & E2) & E3 & _).
  inversion E2 as [|? b1 ? ? S1 S2]; subst. inversion S2; subst.
  assert (EA : map fst (Polygon_spec.added (s ++ [Clear; Finalize])) = map row ring).
  { rewrite E1. cbn [concat]. rewrite app_nil_r. destruct S1 as [S1 _]. exact S1. }
  rewrite EA. split; [apply map_ext; now intros [[x y] z]|].
  intros Hn'. specialize (E3 Hn'). cbn [flat_map] in E3. rewrite app_nil_r in E3. exact E3.
Qed.

Lemma triangle_block a b arr2 g1 g2 gt call pts cells t off j : straight a -> straight b -> numbered g1 -> extends g2 gt ->
  polygon gm result false None "gmsh" (Some "triangle"%string) (transition_ring (it_mesh a) (it_mesh b)) [] = (t, Ok (Meshed pts cells)) ->
  initialize_group_array o (mkG (seq 0 (length (flat_map snd cells))) None None) g1 (it_group b) "" = Ok (arr2, g2) ->
  it_group b = ao_group (sc_opts call) ->
  (ao_group (sc_opts call) = GNone \/ exists s, ao_group (sc_opts call) = GStr s) ->
  exists cd, put_transition ops "StackItem" j off (BTri pts (flat_map snd cells) [("CellGroup"%string, map num arr2)]) = BTri pts (flat_map snd cells) cd /\
    mesh_between gm result (points ops a) (points ops b) pts (flat_map snd cells) /\
    cells_named num gt (default_group o) call (length (flat_map snd cells)) cd /\
    uniform_ids num "StackItem" (length (flat_map snd cells)) (-1) (Z.of_nat off) (Z.of_nat j) cd.
Proof.
  intros Sa Sb Hn He HP Hi Eg Hg.
  destruct (put_uniform num "StackItem" j off pts (flat_map snd cells) [("CellGroup"%string, map num arr2)]) as (cd & C1 & C2 & C3); try discriminate.
  exists cd. split; [exact C1|]. split; [|split; [|exact C2]].
  - exact (between_read (it_mesh a) (it_mesh b) t pts cells HP).
  - rewrite Eg in Hi. exists arr2. split; [apply C3; [left; reflexivity|discriminate]|].
    destruct (initialize_spec _ _ _ _ _ _ _ Hn (al0 _) Hi) as (_ & _ & L & _). cbn in L. rewrite seq_length in L. split; [exact L|].
    intros c Hc. destruct (call_names o _ g1 call arr2 g2 Hn (al0 _) eq_refl Hg Hi c) as (k & Hk & Hname).
    { cbn. now rewrite seq_length. }
    exists k. split; [|exact Hname]. eapply named_extends; [exact He|exact Hk].
Qed.

(* what is needed to merge a block with others *)
Definition block_facts (nsub nc off j : nat) (blk : block D) : Prop :=
  match blk with
  | BGrid s => NoDup (map fst (sg_cd s)) /\ (forall k v, In (k, v) (sg_cd s) -> length v = nsub * nc) /\
      In ("ColumnId"%string, map num (tile (map Z.of_nat (seq 0 nc)) nsub)) (sg_cd s) /\
      In ("LayerId"%string, map num (repeat_each (map Z.of_nat (seq off nsub)) nc)) (sg_cd s) /\
      In ("StackItem"%string, map num (repeat (Z.of_nat j) (nsub * nc))) (sg_cd s)
  | BTri pts tris cd => NoDup (map fst cd) /\ (forall k v, In (k, v) cd -> length v = length tris) /\
      (forall k, In k (map fst cd) <-> In k ["ColumnId"; "LayerId"; "StackItem"; "CellGroup"]%string) /\
      exists t ring cells, polygon gm result false None "gmsh" (Some "triangle"%string) ring [] = (t, Ok (Meshed pts cells)) /\ tris = flat_map snd cells
  end.

Lemma strip_facts a b arr gj g1 off j nsub b0 : straight a -> straight b -> numbered gj ->
  initialize_group_array o (gview (lops num) (it_mesh a)) gj (it_group b) "" = Ok (arr, g1) ->
  generate_surface_from_two_lines areas (LinePoly (lb_line (set_cg (lops num) arr (it_mesh a))))
    (LinePoly (lb_line (it_mesh b))) (stack2d_plane ax) (it_res b) (it_method b) = Ok b0 ->
  ncB (lops num) b0 = nsub * ncM (lops num) (set_cg (lops num) arr (it_mesh a)) ->
  block_facts nsub (length (points ops a) - 1) off j
    (BGrid (put_all (lops num) (numbered_ids "StackItem" j off nsub (ncM (lops num) (set_cg (lops num) arr (it_mesh a)))) b0)).
Proof.
  intros (n & Wa & Ia & La) (n' & Wb & Ib & Lb) Hn Hi Hs Hb.
  pose proof Wa as (A1 & A2 & A3 & _ & _ & A6 & _ & A8 & _ & A4).
  assert (En : length (points ops a) - 1 = S n) by (unfold points; cbn; rewrite A3; lia). rewrite En.
  assert (Hal : aligned (gview (lops num) (it_mesh a))).
  { unfold aligned. cbn. destruct (lb_cg (it_mesh a)) as [cg|] eqn:Ec; auto. rewrite seq_length, A2. now apply A4. }
  assert (Larr : length arr = S n).
  { destruct (initialize_spec _ _ _ _ _ _ _ Hn Hal Hi) as (_ & _ & L & _). rewrite L. cbn. now rewrite seq_length. }
  destruct (surface_data_inv _ _ _ _ _ _ _ Hs) as (perc' & Hp' & _ & Hcd & _ & Hlen).
  cbn [ncB lops ncM set_cg lb_nc] in *. rewrite A2 in *.
  assert (HN0 : NoDup (map fst (sg_cd b0))).
  { rewrite Hcd, map_map. cbn [fst]. cbn [lb_line ln_cd]. now apply aput_NoDup. }
  assert (HL0 : forall k v, In (k, v) (sg_cd b0) -> length v = nsub * S n).
  { intros k v Hv. rewrite Hcd in Hv. apply in_map_iff in Hv as ([k' w] & E & Hw). cbn [fst snd] in E. injection E as <- <-. rewrite (Hlen _ _ Hw). exact Hb. }
  unfold block_facts, put_all. cbn [numbered_ids fold_left put_ids lops fst snd sg_cd].
  assert (L1 : length (map num (tile (map Z.of_nat (seq 0 (S n))) nsub)) = nsub * S n) by (rewrite map_length, tile_length, map_length, seq_length; lia).
  assert (L2 : length (map num (repeat_each (map Z.of_nat (seq off nsub)) (S n))) = nsub * S n).
  { rewrite map_length. unfold repeat_each. rewrite flat_map_concat_map, map_map. generalize off. clear. induction nsub as [|k IH]; intros off; [reflexivity|].
    cbn [seq map concat]. rewrite app_length, repeat_length, IH. lia. }
  assert (L3 : length (map num (repeat (Z.of_nat j) (nsub * S n))) = nsub * S n) by (rewrite map_length, repeat_length; reflexivity).
  split; [repeat apply aput_NoDup; exact HN0|]. split.
  { intros k v Hv. refine (aput_all _ _ _ (fun v => length v = nsub * S n) L3 _ k v Hv).
    apply (aput_all _ _ _ (fun v => length v = nsub * S n) L2). apply (aput_all _ _ _ (fun v => length v = nsub * S n) L1). exact HL0. }
  split; [apply aput_other; [discriminate|]; apply aput_other; [discriminate|]; apply aput_In|].
  split; [apply aput_other; [discriminate|]; apply aput_In|apply aput_In].
Qed.

Lemma triangle_facts arr2 g1 g2 grp pts cells t ring off j nc : numbered g1 ->
  polygon gm result false None "gmsh" (Some "triangle"%string) ring [] = (t, Ok (Meshed pts cells)) ->
  initialize_group_array o (mkG (seq 0 (length (flat_map snd cells))) None None) g1 grp "" = Ok (arr2, g2) ->
  block_facts 1 nc off j (put_transition ops "StackItem" j off (BTri pts (flat_map snd cells) [("CellGroup"%string, map num arr2)])).
Proof.
  intros Hn HP Hi. destruct (initialize_spec _ _ _ _ _ _ _ Hn (al0 _) Hi) as (_ & _ & L & _). cbn in L. rewrite seq_length in L.
  unfold put_transition. cbn [put_ids ncB tops block_facts].
  set (N := length (flat_map snd cells)) in *.
  assert (LR : forall z, length (map num (repeat z N)) = N) by (intros; now rewrite map_length, repeat_length).
  split; [repeat apply aput_NoDup; repeat constructor; intros []|]. split.
  { intros k v Hv. refine (aput_all _ _ _ (fun v => length v = N) (LR _) _ k v Hv).
    apply (aput_all _ _ _ (fun v => length v = N) (LR _)). apply (aput_all _ _ _ (fun v => length v = N) (LR _)).
    intros k' v' [E|[]]. injection E as <- <-. rewrite map_length. exact L. }
  split.
  { intros k. rewrite !aput_fst. cbn [map fst In]. split; [intros [->|[->|[->|[->|[]]]]]; auto|intros [->|[->|[->|[->|[]]]]]; auto]. }
  exists t, ring, cells. auto.
Qed.

Definition generator := fun a b r m => let! g := generate_surface_from_two_lines areas (LinePoly (lb_line a))
                                (LinePoly (lb_line b)) (stack2d_plane ax) r m in Ok (BGrid (D := D) g).

Lemma blocks_between i1 rest bs groups n : Forall straight (i1 :: rest) ->
  gen_loop ops o "StackItem" generator (transition num gm result o) 0 0 [] i1 rest = Ok (bs, groups, n) ->
  numbered groups /\ exists nsubs, length nsubs = length rest /\ length bs = length rest /\ n = list_sum nsubs /\
    forall j a b call, nth_error (i1 :: rest) j = Some a -> nth_error rest j = Some b ->
      it_group b = ao_group (sc_opts call) -> it_res b = ao_res (sc_opts call) -> it_method b = ao_method (sc_opts call) ->
      (ao_group (sc_opts call) = GNone \/ exists s, ao_group (sc_opts call) = GStr s) ->
      exists ns blk, nth_error nsubs j = Some ns /\ nth_error bs j = Some blk /\
        block_facts ns (length (points ops a) - 1) (list_sum (firstn j nsubs)) j blk /\
        (it_trans b = true -> ns = 1 /\ exists pts tris cd, blk = BTri pts tris cd /\
           mesh_between gm result (points ops a) (points ops b) pts tris /\
           cells_named num groups (default_group o) call (length tris) cd /\
           uniform_ids num "StackItem" (length tris) (-1) (Z.of_nat (list_sum (firstn j nsubs))) (Z.of_nat j) cd) /\
        (it_trans b = false -> exists s, blk = BGrid s /\ strip_between ax call (points ops a) (points ops b) ns s /\
           cells_named num groups (default_group o) call (ns * (length (points ops a) - 1)) (sg_cd s) /\
           (1 <= ax -> line_block_ids num "StackItem" ax ns (length (points ops a) - 1) (list_sum (firstn j nsubs)) j s)).
Proof.
  intros HS Hg.
  assert (HW : Forall (fun i => wf_lbase (it_mesh i)) (i1 :: rest)) by (eapply Forall_impl; [|exact HS]; apply straight_lbase).
  destruct (gen_blocks ops o _ _ (transition num gm result o) rest (fun a b g grp blk g' => transition_keeps num gm result o a b g grp blk g') 0 0 [] i1 bs groups n
    numbered_nil (Forall_impl _ (fun i => lb_align num (it_mesh i)) HW) Hg)
    as (Hnum & _ & nsubs & Ln & Lb & En & HJ).
  split; [exact Hnum|]. exists nsubs. split; [exact Ln|]. split; [exact Lb|]. split; [exact En|].
  intros j a b call Ha Hb Eg Er Em Hgr.
  destruct (HJ j a b Ha Hb) as (arr & gj & g1 & b0 & nsub & blk & H1 & H2 & H3 & H4 & H5 & H6 & HT & HF).
  assert (Sa : straight a) by (rewrite Forall_forall in HS; apply HS; eapply nth_error_In; eauto).
  assert (Sb : straight b) by (rewrite Forall_forall in HS; apply HS; right; eapply nth_error_In; eauto).
  exists nsub, blk. split; [exact H5|]. split; [exact H6|]. split.
  { destruct (it_trans b) eqn:T.
    - destruct (HT eq_refl) as (T1 & (g2 & T2 & T3) & T4). apply transition_inv in T2 as (t & pts & cells & arr2 & P1 & P2 & P3). subst b0 nsub.
      rewrite T4. exact (triangle_facts arr2 g1 g2 (it_group b) pts cells t _ _ j _ H3 P1 P2).
    - destruct (HF eq_refl) as (F1 & F2 & F3 & F4). unfold generator in F1.
      destruct (generate_surface_from_two_lines areas _ _ _ _ _) as [gb|] eqn:Hs in F1; [|discriminate]. cbn [bind] in F1. injection F1 as <-.
      change (0 + j) with j in F4. change (0 + list_sum (firstn j nsubs)) with (list_sum (firstn j nsubs)) in F4. rewrite put_all_grid in F4.
      rewrite F4. exact (strip_facts a b arr gj g1 _ j nsub gb Sa Sb H2 H1 Hs F3). }
  split.
  - intros T. destruct (HT T) as (T1 & (g2 & T2 & T3) & T4). split; [exact T1|].
    apply transition_inv in T2 as (t & pts & cells & arr2 & P1 & P2 & P3). subst b0.
    destruct (triangle_block a b arr2 g1 g2 groups call pts cells t (list_sum (firstn j nsubs)) j Sa Sb H3 T3 P1 P2 Eg Hgr) as (cd & B1 & B2 & B3 & B4).
    exists pts, (flat_map snd cells), cd. split; [rewrite T4; exact B1|]. auto.
  - intros F. destruct (HF F) as (F1 & F2 & F3 & F4). unfold generator in F1.
    destruct (generate_surface_from_two_lines areas _ _ _ _ _) as [gb|] eqn:Hs in F1; [|discriminate]. cbn [bind] in F1. injection F1 as <-.
    change (0 + j) with j in F4. change (0 + list_sum (firstn j nsubs)) with (list_sum (firstn j nsubs)) in F4. rewrite put_all_grid in F4.
    eexists. split; [exact F4|].
    destruct (strip_block a b arr gj g1 groups call (list_sum (firstn j nsubs)) j nsub gb Sa Sb H2 H4 H1 Eg Er Em Hgr Hs F3) as [B1 B2].
    split; [exact B1|]. split; [exact B2|]. intros H1ax.
    destruct (one_line_block num areas o "StackItem" ax j (list_sum (firstn j nsubs)) nsub a b arr gj g1 gb)
      as [X1 X2]; auto; try discriminate; [now apply straight_lbase|].
    destruct Sa as (k & (A1 & A2 & A3 & _) & _). replace (length (points ops a) - 1) with (lb_nc (it_mesh a)).
    { exact X2. }
    unfold points. cbn. rewrite A2, A3. lia.
Qed.
End Blocks.
