From Coq Require Import Reals Lra Permutation Sorted.
From Verif Require Import Prelude Lines_spec Lines_model Lines_props Groups_model Groups_spec Surface_model Polygon_model Volume_spec Voronoi_model Voronoi_spec
  Voronoi1_proof Voronoi2_proof Voronoi3_proof Voronoi4_proof Voronoi5_proof Voronoi6_proof VFinal_model VFinal_spec VFinal_proof VFinal2_proof VDef_spec.
Open Scope nat_scope.

Lemma mapM_in_range (verts : list pt2) r : Forall (fun v => 0 <= v < Z.of_nat (length verts))%Z r -> exists ps, mapM (py_at verts) r = Ok ps.
Proof.
  induction 1 as [|v r Hv _ (ps & E)]; cbn [mapM]; [eauto|]. destruct (py_at_ok verts v Hv) as (x & Ex & _). rewrite Ex. cbn [bind]. rewrite E. cbn [bind]. eauto.
Qed.

Lemma polygons_defined valid clip ori verts : forall regions points cells,
  Forall (Forall (fun v => 0 <= v < Z.of_nat (length verts))%Z) regions ->
  (exists r, polygons valid clip ori verts regions points cells = Ok r) \/
  polygons valid clip ori verts regions points cells = Err ValueError /\ exists ps, valid ps = false.
Proof.
  induction regions as [|r rs IH]; intros points cells H; cbn [polygons]; [eauto|]. inversion H as [|? ? Hr Hrs]; subst.
  destruct (mapM_in_range verts r Hr) as (ps & E). rewrite E. cbn [bind].
  destruct (valid ps) eqn:Ev; [auto|right; eauto].
Qed.

Lemma ring_source {A} (f : list A) x : In x f -> exists y, In (x, y) (ring_edges f).
Proof.
  intros H. assert (E : map fst (ring_edges f) = f).
  { destruct f as [|a l]; [reflexivity|]. unfold ring_edges. generalize a at 1 3 as b. revert a H. 
    clear. intros a _. revert a. 
    induction l as [|c l IH]; intros a b; cbn; [reflexivity|]. f_equal. apply IH. }
  rewrite <- E in H. apply in_map_iff in H as ([u v] & <- & H). eauto.
Qed.
Lemma ring_ends {A} (f : list A) x y : In (x, y) (ring_edges f) -> In x f.
Proof.
  intros H. assert (E : map fst (ring_edges f) = f).
  { destruct f as [|a l]; [reflexivity|]. unfold ring_edges. generalize a at 1 3 as b. revert a H. 
    clear. intros a _. revert a. 
    induction l as [|c l IH]; intros a b; cbn; [reflexivity|]. f_equal. apply IH. }
  rewrite <- E. apply (in_map fst _ _ H).
Qed.

Lemma averaged_range points faces pairs points' out :
  (forall i j, In (i, j) pairs -> i <> j /\ i < length points /\ j < length points) ->
  (forall f, In f faces -> in_range (length points) f) ->
  average_points points faces 0 pairs = Ok (points', out) ->
  length points' = length points /\ forall i f, In (i, f) out -> in_range (length points') f.
Proof.
  intros Hp Hf E. destruct (C58_faces _ _ _ _ _ Hp E) as (rep & _ & _ & Hm & L & _ & Ho). split; [exact L|].
  intros i f Hin x Hx. apply Ho in Hin as (f0 & Hf0 & HE & _). destruct (ring_source _ _ Hx) as (y & Hy). rewrite HE in Hy.
  apply filter_In in Hy as [Hy _]. apply ring_ends in Hy. apply in_map_iff in Hy as (u & <- & Hu).
  destruct (Hm u) as (_ & _ & c & _ & _ & _ & _ & Hc & _); [eapply Hf; [eapply nth_error_In; eauto|exact Hu]|].
  apply nth_error_Some. congruence.
Qed.

Lemma mask_get_some {A} mask (l : list A) k : nth_error mask k = Some true -> k < length l -> mask_get mask l <> [].
Proof.
  revert l k. induction mask as [|b mask IH]; intros [|a l] [|k]; cbn; try discriminate; try lia.
  - intros [= ->] _. discriminate.
  - intros H Hk. destruct b; [discriminate|]. apply (IH _ k); auto. lia.
Qed.

Lemma voronoi_defined {A} (g : vgeo A) o b items vo :
  well_formed b items -> (forall it, In it items -> gm_cells (vi_mesh it) <> [] \/ vi_poly it = true) ->
  (forall S, candidates g b items S -> exists s, In s S /\ ~ covered g b items s) ->
  tessellates vo -> sorts (v_argsort vo) -> close_pairs vo -> v_boundary vo = true ->
  (exists m, voronoi_mesh g o b items vo = Ok m /\ ((forall vs, v_pairs vo vs = None) -> (forall ps, v_clip vo ps <> []) -> vm_points m <> [])) \/
  voronoi_mesh g o b items vo = Err ValueError /\ exists ps, v_valid vo ps = false.
Proof.
  intros WF HI HS HT Hso HP HB.
  destruct (scatter_defined g o b items WF HI) as ([st t] & Es). destruct (scatter_spec g o b items WF st t Es) as (S & HC & Ep & La & Lg & _ & _ & Hk).
  destruct (HS S HC) as (s & Hin & Hnc). apply In_nth_error in Hin as (k & Hs). apply (Hk k s Hs) in Hnc.
  unfold voronoi_mesh. rewrite Es. cbn [bind fst snd]. unfold assemble.
  set (vpts := mask_get (vs_active st) (map (drop_axis (v_axis vo)) (vs_pts st))).
  assert (Hne : vpts <> []).
  { apply (mask_get_some _ _ k); [exact Hnc|]. rewrite Ep, !map_length. apply nth_error_Some. congruence. }
  destruct (HT vpts Hne) as (PD & Ed & HR).
  destruct (tessellation_spec (v_diagram vo vpts) PD (v_argsort vo) (v_atan2 vo) (v_infinity vo) (v_ptp vo) Hso)
    as (outs & ext & c & radius & Et & Lo & _ & _ & Hout).
  { now rewrite Ed. }
  { intros p r Hr. apply (HR p r Hr). }
  rewrite Et. cbn [bind]. set (verts := d_vertices (v_diagram vo vpts) ++ ext) in *.
  assert (Hreg : forall p out, nth_error outs p = Some out -> out <> [] /\ Forall (fun v => 0 <= v < Z.of_nat (length verts))%Z out).
  { intros p out Hp. assert (p < length (d_points (v_diagram vo vpts))) by (rewrite <- Lo; apply nth_error_Some; congruence).
    assert (exists r, region_of (v_diagram vo vpts) p r) as (r & Hr).
    { destruct PD as (_ & L2 & _ & _ & _ & F6). destruct (nth_error (d_point_region (v_diagram vo vpts)) p) as [z|] eqn:Ez; [|apply nth_error_None in Ez; lia].
      rewrite Forall_forall in F6. pose proof (F6 z (nth_error_In _ _ Ez)) as Hz.
      destruct (nth_error (d_regions (v_diagram vo vpts)) (Z.to_nat z)) as [r|] eqn:Er; [|apply nth_error_None in Er; lia]. exists r, z. auto with zarith. }
    destruct (Hout p r Hr) as (out' & Hp' & (S1 & S2) & HF). rewrite Hp in Hp'. injection Hp' as <-. split; [|exact HF].
    destruct (HR p r Hr) as (Hrn & Hop). destruct (in_dec Z.eq_dec (-1)%Z r) as [Hi|Hi]; [|rewrite (S1 Hi); exact Hrn].
    destruct (S2 Hi) as ((news & HPm & HF2) & _). intros ->. apply Permutation_nil in HPm. apply app_eq_nil in HPm as [_ ->].
    inversion HF2 as [E|]. now apply (Hop Hi). }
  assert (Hreg' : Forall (Forall (fun v => 0 <= v < Z.of_nat (length verts))%Z) outs).
  { apply Forall_forall. intros out Hin. apply In_nth_error in Hin as (p & Hp). apply (Hreg p out Hp). }
  rewrite HB. cbn [negb]. unfold shorten. destruct (v_pairs vo verts) as [pairs|] eqn:EP.
  - assert (Hp' : forall i j, In (i, j) pairs -> i <> j /\ i < length (map (insert_axis 2) verts) /\ j < length (map (insert_axis 2) verts)).
    { intros i j Hin. rewrite map_length. exact (HP verts pairs i j EP Hin). }
    assert (Hf : forall f, In f (map (map Z.to_nat) outs) -> f <> [] /\ in_range (length (map (insert_axis 2) verts)) f).
    { intros f Hin. apply in_map_iff in Hin as (out & <- & Hin). apply In_nth_error in Hin as (p & Hp). destruct (Hreg p out Hp) as [Hn HF]. split.
      - now destruct out.
      - intros x Hx. apply in_map_iff in Hx as (z & <- & Hz). rewrite Forall_forall in HF. specialize (HF z Hz). rewrite map_length. lia. }
    destruct (C58_defined _ _ 0 pairs Hp' Hf) as ([pts faces] & EA). rewrite EA. cbn [bind].
    destruct (averaged_range _ _ _ _ _ Hp' (fun f Hin => proj2 (Hf f Hin)) EA) as (_ & Hr).
    assert (Hreg2 : Forall (Forall (fun v => 0 <= v < Z.of_nat (length (map (drop_axis 2) pts)))%Z) (map (fun f => map Z.of_nat (snd f)) faces)).
    { apply Forall_forall. intros out Hin. apply in_map_iff in Hin as ([i f] & <- & Hin). apply Forall_forall. intros z Hz.
      apply in_map_iff in Hz as (x & <- & Hx). specialize (Hr i f Hin x Hx). rewrite map_length. lia. }
    assert (HF : forall act v, (exists m, (let! pc := polygons (v_valid vo) (v_clip vo) (v_orientation vo) (map (drop_axis 2) pts) (map (fun f => map Z.of_nat (snd f)) faces) [] [] in
       let '(points, cells) := pc in Ok (mkVM points cells (mask_get act (vs_groups st)) t (map (insert_axis (v_axis vo)) v))) = Ok m) \/
      (let! pc := polygons (v_valid vo) (v_clip vo) (v_orientation vo) (map (drop_axis 2) pts) (map (fun f => map Z.of_nat (snd f)) faces) [] [] in
       let '(points, cells) := pc in Ok (mkVM points cells (mask_get act (vs_groups st)) t (map (insert_axis (v_axis vo)) v))) = Err ValueError /\ exists ps, v_valid vo ps = false).
    { intros act v. destruct (polygons_defined (v_valid vo) (v_clip vo) (v_orientation vo) _ _ [] [] Hreg2) as [([points cells] & E)|[E HV]]; rewrite E; cbn [bind]; [left; eauto|right; auto]. }
    match goal with |- context [if existsb ?f ?x then _ else _] => destruct (existsb f x) end; cbn [bind];
      match goal with |- context [mkVM _ _ (mask_get ?a _) _ (map _ ?v)] => destruct (HF a v) as [(m & E)|E] end;
      first [left; exists m; split; [exact E|intros HN; rewrite HN in EP; discriminate] | right; exact E].
  - cbn [bind]. destruct (polygons_defined (v_valid vo) (v_clip vo) (v_orientation vo) _ outs [] [] Hreg') as [([points cells] & E)|[E HV]]; rewrite E; cbn [bind]; [left|right; auto].
    eexists. split; [reflexivity|]. intros _ Hclip. cbn [vm_points].
    destruct (polygons_spec _ _ _ _ _ _ _ _ _ E) as (ext' & css & -> & -> & HF). cbn [app] in *.
    destruct outs as [|out outs]. { exfalso. apply Hne. rewrite <- Ed. apply length_zero_iff_nil. rewrite <- Lo. reflexivity. }
    inversion HF as [|? cell ? ? (ps & _ & _ & Hpk) _]; subst. intros ->. inversion Hpk as [E1 E2|i x ? ? Hi]; [|destruct i; discriminate].
    symmetry in E2. apply (f_equal (@length _)) in E2. rewrite orient_length in E2. destruct (v_clip vo ps) eqn:Ec; [now apply (Hclip ps)|discriminate].
Qed.

Lemma generate_defined {A} (g : vgeo A) o b items vo t :
  well_formed b items -> (forall it, In it items -> gm_cells (vi_mesh it) <> [] \/ vi_poly it = true) ->
  (forall S, candidates g b items S -> exists s, In s S /\ ~ covered g b items s) ->
  tessellates vo -> sorts (v_argsort vo) -> close_pairs vo -> v_boundary vo = true ->
  (forall vpts, length (d_point_region (v_diagram vo vpts)) = length vpts) ->
  (exists r, generate_voronoi g o b items [] vo t = Ok r) \/
  generate_voronoi g o b items [] vo t = Err ValueError /\
    ((exists ps, v_valid vo ps = false) \/ (exists ps, v_clip vo ps = []) \/ (exists vs, v_pairs vo vs <> None)).
Proof.
  intros WF HI HS HT Hso HP HB HD.
  destruct (voronoi_defined g o b items vo WF HI HS HT Hso HP HB) as [(m & Em & Hne)|[Em HV]].
  - pose proof (circles_defined g o b items [] vo t m WF HD Em) as HC.
    assert (HSB : simple_boundary t (v_axis vo) m []) by (intros f circle ids poly _ []). specialize (HC HSB).
    destruct (vm_points m) as [|p ps] eqn:Ep.
    + right. split. { unfold generate_voronoi. rewrite Em. cbn [bind]. unfold polygon_mesh. rewrite Ep. reflexivity. }
      right. destruct (Classical_Prop.classic (exists ps, v_clip vo ps = [])) as [H|H1]; [now left|right].
      destruct (Classical_Prop.classic (exists vs, v_pairs vo vs <> None)) as [H|H2]; [exact H|]. exfalso. apply Hne; auto.
      * intros vs. destruct (v_pairs vo vs) eqn:E; [|reflexivity]. exfalso. apply H2. exists vs. congruence.
      * intros ps E. apply H1. eauto.
    + left. apply HC. split; [congruence|]. intros ? [].
  - right. split; [unfold generate_voronoi; rewrite Em; reflexivity|]. now left.
Qed.
