From Coq Require Import Reals Lra Lia Permutation Sorted.
From Verif Require Import RealAux Perc_model Volume_model Volume_spec Lines_spec Lines_model Groups_model Groups_spec Groups_proof Groups2_proof
  Stack_model Stack_spec Stack3_proof Stack4_proof SMerge_proof Nodes_proof Final_model Final_spec Unstr_model Unstr_spec Unstr1_proof Unstr3_proof
  Voronoi_model Voronoi_spec VFinal_model VFinal_spec VFinal_props
  Topo_model Topo5_proof MMerge_model MMerge_spec MMerge_proof Paint_spec Paint_proof Tidy_proof SMerge_model Well_model Well_spec Well_proof
  Sweep_model Sweep_spec Sweep2_model Sweep2_spec Sweep2_proof Well3_model Well3_spec Well3_proof Well4_model Well4_spec.
Open Scope nat_scope.

Section Load.
Context {D : Type} (num : Z -> D) (int : D -> Z) (Hint : forall z, int (num z) = z) (areas : shape3 -> list pt -> list R).
Context (pvmerge : list (uvol D) -> res (uvol D)) (Hmerge : appends pvmerge) (Htotal : forall x y, exists g, pvmerge [x; y] = Ok g).
Context (clean : R -> uvol D -> uvol D) (e1 e2 : R) (He1 : cleans e1 (clean (/ 10 ^ 8)%R)) (He2 : cleans e2 (clean (/ 10 ^ 4)%R)).

Lemma taken (pts ps : list pt) ids : Forall2 (fun i q => nth_error pts i = Some q) ids ps ->
  take (map (fun '(x, y, _) => (x, y, 0%R)) pts) ids = Ok (map (at_height 0) ps).
Proof.
  unfold take. induction 1 as [|i q ids ps Hi _ IH]; cbn [mapM map]; [reflexivity|].
  unfold at_res at 1. rewrite nth_error_map, Hi. cbn [option_map bind]. rewrite IH. cbn [bind]. destruct q as [[x y] z]. reflexivity.
Qed.

(* the background mesh: 704 polygons with their names *)
Lemma background_ok : exists g2 groups l cg b,
  load_well_2d num int areas pvmerge clean = Ok (g2, groups) /\ drawn g2 (map snd l) /\ names_of int g2 groups (map fst l) /\ length l = 704 /\
  (named_count "Core" l = 64 /\ named_count "Casing" l = 32 /\ named_count "Cement" l = 128 /\ named_count "Matrix" l = 480) /\
  (forall c k ps, nth_error l c = Some (k, ps) -> In k ["Core"; "Casing"; "Cement"; "Matrix"]%string) /\
  numbered groups /\ well_background int g2 groups = Ok b /\
  vb_mesh b = mkG (map (map (at_height 0)) (map snd l)) (Some cg) (Some groups) /\ vb_pref b = PrefCell /\ length cg = 704 /\
  get_cell_group (Some cg) (Some groups) = Ok (Some (inl (map fst l))).
Proof.
  destruct (load_ok num int Hint areas pvmerge Hmerge Htotal clean e1 e2 He1 He2)
    as (g2 & groups & l & A & B & C & E & F & _ & K & T & W & Lnum).
  destruct (base_ok int g2 groups l B C T W) as (cells2 & cg2 & Hc2 & EB & Hcg2 & Hg2 & L2 & Lcg2 & HF2).
  destruct T as (cells' & Hc' & HS & _). unfold cells_of in Hc2, Hc'. assert (cells' = cells2) by congruence. subst cells'.
  assert (EW : exists b, well_background int g2 groups = Ok b /\ vb_mesh b = mkG (map (map (at_height 0)) (map snd l)) (Some (map int cg2)) (Some groups) /\
    vb_pref b = PrefCell).
  { unfold well_background. rewrite (flat_cells_decode _ _ _ Hc2 HS). cbn [bind]. rewrite Hcg2. cbn [option_map].
    assert (EM : mapM (fun c => take (map (fun '(x, y, _) => (x, y, 0%R)) (uv_pts g2)) (snd c)) (map flat_of cells2) = Ok (map (map (at_height 0)) (map snd l))).
    { clear - HF2. induction HF2 as [|c p cells ps (ty & ids & -> & _ & HI) _ IH]; cbn [map mapM flat_of snd]; [reflexivity|].
      rewrite (taken _ _ _ HI). cbn [bind]. rewrite IH. reflexivity. }
    rewrite EM. cbn [bind]. eexists. split; [reflexivity|]. split; reflexivity. }
  destruct EW as (b & EW & Eb & Ep). exists g2, groups, l, (map int cg2), b.
  split; [exact A|]. split; [exact B|]. split; [exact C|]. split; [exact E|]. split; [exact K|]. split.
  { intros c k ps Hi. destruct (F k ps (nth_error_In _ _ Hi)) as (qs & HZ & HF).
    destruct (Forall2_get_r _ _ _ HF2 c ps ltac:(rewrite nth_error_map, Hi; reflexivity)) as (cell & _ & ty & ids & _ & Hps & _).
    destruct qs as [|q qs]; [inversion HF; subst; cbn in Hps; lia|]. inversion HZ; subst. eapply four_names; eauto. }
  split; [exact Lnum|]. split; [exact EW|]. split; [exact Eb|]. split; [exact Ep|]. split; [rewrite map_length, Lcg2; exact E|exact Hg2].
Qed.

Lemma load_voronoi_2d_ok geo vo tools tol0 tol r : v_axis vo = 2 ->
  (forall vpts, length (d_point_region (v_diagram vo vpts)) = length vpts) ->
  tidies tol0 (k_tidy tools) -> tidies tol (k_clean tools) ->
  load_voronoi_2d num int areas pvmerge clean geo vo tools = Ok r ->
  exists g2 groups l sel, load_well_2d num int areas pvmerge clean = Ok (g2, groups) /\ drawn g2 (map snd l) /\ names_of int g2 groups (map fst l) /\ length l = 704 /\
  (named_count "Core" l = 64 /\ named_count "Casing" l = 32 /\ named_count "Cement" l = 128 /\ named_count "Matrix" l = 480) /\
  (forall c k ps, nth_error l c = Some (k, ps) -> In k ["Core"; "Casing"; "Cement"; "Matrix"]%string) /\
  StronglySorted lt sel /\ length (vr_cells r) = length sel /\ length (vr_groups r) = length sel /\ length (vr_xyz r) = length sel /\
  (forall i c, nth_error sel i = Some c -> exists k ps, nth_error l c = Some (k, ps) /\
     nth_error (vr_xyz r) i = Some (at_height 0 (vg_center geo (map (at_height 0) ps))) /\ named (vr_labels r) (vr_groups r) i k) /\
  numbered (vr_labels r) /\
  (forall k, In k (map fst (vr_labels r)) <-> exists i, named (vr_labels r) (vr_groups r) i k) /\
  ((forall vs, v_pairs vo vs = None) -> length (vr_cells r) = 704).
Proof.
  intros Hax HD T0 T H. destruct background_ok as (g2 & groups & l & cg & b & A & B & C & E & K & Hfour & Lnum & EW & Eb & Ep & Lcg & Hg2).
  unfold load_voronoi_2d in H. rewrite A in H. cbn [bind] in H. rewrite EW in H. cbn [bind] in H.
  assert (WF : well_formed b []).
  { split; [|intros it []]. unfold aligned. rewrite Eb. cbn [gm_cg gm_cells]. rewrite !map_length. congruence. }
  destruct (C147_returned_cells _ geo _ b [] [] vo tools tol0 tol r WF HD T0 T H)
    as (S & sel & (order & l0 & ls & (HP & _) & (HO & HC0 & HB) & HLs & ES) & Hsort & L1 & L2 & L3 & Hs & Hn & Hl & Hall).
  cbn [length seq] in HP. apply Permutation_sym, Permutation_nil in HP. subst order. inversion HLs; subst ls. cbn [concat] in ES. rewrite app_nil_r in ES. subst l0.
  rewrite Ep, Eb in HB. cbn [gm_cells] in HB.
  assert (LS : length S = 704). { apply (f_equal (@length _)) in HB. rewrite !map_length in HB. congruence. }
  exists g2, groups, l, sel. do 10 (split; [assumption|]). split; [|split; [exact Hn|split; [exact Hl|]]].
  - intros i c Hi. destruct (Hs i c Hi) as (s & name & Hsi & _ & Hx & Hnm & Hsn).
    assert (Hc : c < length S) by (apply nth_error_Some; congruence).
    destruct (nth_error l c) as [[k ps]|] eqn:El; [|apply nth_error_None in El; lia].
    assert (Es : s_pt s = vg_center geo (map (at_height 0) ps)).
    { assert (X : nth_error (map s_pt S) c = Some (s_pt s)) by (rewrite nth_error_map, Hsi; reflexivity).
      rewrite HB, !nth_error_map, El in X. cbn in X. congruence. }
    assert (Ec : s_cell s = c).
    { assert (X : nth_error (map s_cell S) c = Some (s_cell s)) by (rewrite nth_error_map, Hsi; reflexivity).
      rewrite HC0 in X. rewrite (nth_error_nth' _ 0), seq_nth in X by (rewrite ?seq_length; lia). cbn in X. congruence. }
    assert (Eo : s_owner s = Background). { rewrite Forall_forall in HO. apply HO. eapply nth_error_In; eauto. }
    exists k, ps. split; [reflexivity|]. split.
    + rewrite Hx, Es, Hax. destruct (vg_center geo (map (at_height 0) ps)) as [[x y] z]. reflexivity.
    + unfold site_name in Hsn. rewrite Eo, Ep, Ec in Hsn. replace k with name; [exact Hnm|].
      pose proof (label_iff groups _ _ c k Lnum Hg2 ltac:(rewrite nth_error_map, El; reflexivity)) as HL.
      rewrite Eb in Hsn. inversion Hsn as [cg' lb' k1 E1 H1 _|H1]; subst.
      * injection E1 as <- <-. now apply HL.
      * destruct (H1 _ _ k eq_refl (proj2 (HL k) eq_refl)).
  - intros HN. rewrite L1. assert (X : forall i, In i sel <-> In i (seq 0 704)).
    { intros i. rewrite in_seq. split.
      - intros Hin. apply In_nth_error in Hin as (k & Hk). destruct (Hs k i Hk) as (s & _ & Hsi & _).
        assert (i < length S) by (apply nth_error_Some; congruence). lia.
      - intros [_ Hi]. destruct (nth_error S i) as [s|] eqn:Es; [|apply nth_error_None in Es; lia].
        apply (Hall eq_refl HN i s Es). intros (j & it & Hj & _). destruct j; discriminate. }
    rewrite <- (seq_length 704 0). apply Permutation_length. apply NoDup_Permutation; [now apply sorted_nodup|apply seq_NoDup|exact X].
Qed.
End Load.
