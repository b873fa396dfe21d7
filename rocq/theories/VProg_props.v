From Coq Require Import Reals Lra Lia Sorted.
From Verif Require Seeds2_proof.
From Verif Require Import Prelude Perc_model Grid Surface_model Volume_model Groups_model Lines_spec Lines_model Groups_spec Polygon_model
  Objects_model Objects_spec Objects1_proof Objects5_proof Voronoi_model Voronoi_spec Voronoi1_proof Voronoi6_proof Unstr_spec Seeds_model Seeds_spec
  VFinal_model VFinal_spec VFinal_proof VFinal2_proof VFinal_props VProg_model VProg_spec VProg_proof.
Open Scope R_scope.

(* [C167] a call is accepted exactly when it leaves items *)
Theorem C167_accepted :
  forall D areas swap axis s (c : vcall D),
  proper c ->
  (exists s', run_call areas swap axis s c = (s', Ok tt)) <-> exists its balls, leaves axis c its balls.
Proof.
  intros D areas swap axis s c Hp. split.
  - intros (s' & E). destruct (run_leaves areas swap axis s c s' Hp E) as (its & balls & H & _). eauto.
  - intros (its & balls & H). destruct (leaves_run areas swap axis s c its balls H) as (its' & _ & E). eauto.
Qed.
Print Assumptions C167_accepted.

Lemma formed {D} axis (b : vbase (list pt)) (calls : list (vcall D)) items balls :
  aligned (vb_mesh b) -> Forall proper calls -> program_leaves axis calls items balls -> well_formed b items.
Proof.
  intros Hb Hp Hl. split; [exact Hb|]. pose proof (program_formed axis calls items balls Hp Hl) as F.
  rewrite Forall_forall in F. exact F.
Qed.
Lemma program_split {D} areas swap g o b (calls : list (vcall D)) vo t r :
  Forall proper calls -> voronoi_program areas swap g o b calls vo t = Ok r ->
  exists items balls, program_leaves (v_axis vo) calls items balls /\
    generate_voronoi g o b items (map in_ball balls) vo t = Ok r.
Proof.
  intros Hp. unfold voronoi_program. destruct (run_calls _ _ _ _ _) as [s [[]|]] eqn:E; [|discriminate]. intros H.
  destruct (calls_leave areas swap _ _ _ _ Hp E) as (items & balls & Hl & ->). exists items, balls. split; [exact Hl|exact H].
Qed.

(* [C167] the cells of the mesh are those of the candidate points of the items left by the calls *)
Theorem C167_cells :
  forall D areas swap g o b (calls : list (vcall D)) vo t tol0 tol r,
  aligned (vb_mesh b) -> Forall proper calls ->
  (forall vpts, length (d_point_region (v_diagram vo vpts)) = length vpts) ->
  tidies tol0 (k_tidy t) -> tidies tol (k_clean t) ->
  voronoi_program areas swap g o b calls vo t = Ok r ->
  exists items balls S sel, program_leaves (v_axis vo) calls items balls /\ candidates g b items S /\ StronglySorted lt sel /\
    length (vr_cells r) = length sel /\ length (vr_groups r) = length sel /\ length (vr_xyz r) = length sel /\
    (forall k i, nth_error sel k = Some i -> exists s name, nth_error S i = Some s /\ ~ covered g b items s /\
       nth_error (vr_xyz r) k = Some (flattened (v_axis vo) (s_pt s)) /\
       named (vr_labels r) (vr_groups r) k name /\ site_name o b items s name) /\
    Groups_spec.numbered (vr_labels r) /\
    (forall name, In name (map fst (vr_labels r)) <-> exists k, named (vr_labels r) (vr_groups r) k name) /\
    (balls = [] -> (forall vs, v_pairs vo vs = None) ->
     forall i s, nth_error S i = Some s -> ~ covered g b items s -> In i sel).
Proof.
  intros D areas swap g o b calls vo t tol0 tol r Hb Hp HD T0 T H.
  destruct (program_split _ _ _ _ _ _ _ _ _ Hp H) as (items & balls & Hl & E).
  destruct (returned_cells g o b items _ vo t tol0 tol r (formed _ _ _ _ _ Hb Hp Hl) HD T0 T E)
    as (S & sel & H1 & H2 & H3 & H4 & H5 & H6 & H7 & H8 & H9).
  exists items, balls, S, sel. do 9 (split; [assumption|]). intros ->. now apply H9.
Qed.
Print Assumptions C167_cells.

(* [C167] plain circles become cells *)
Theorem C167_circles :
  forall D areas swap g o b (calls : list (vcall D)) vo t tol0 tol r,
  aligned (vb_mesh b) -> Forall proper calls ->
  (forall vpts, length (d_point_region (v_diagram vo vpts)) = length vpts) ->
  0 <= tol0 -> tidies tol0 (k_tidy t) -> tidies tol (k_clean t) ->
  voronoi_program areas swap g o b calls vo t = Ok r ->
  exists items balls m, program_leaves (v_axis vo) calls items balls /\ voronoi_mesh g o b items vo = Ok m /\
    (exists kept, remaining (tol0 + tol) t (v_axis vo) (map in_ball balls) m r kept) /\
    (apart t (v_axis vo) m (map in_ball balls) -> simple_boundary t (v_axis vo) m (map in_ball balls) ->
     fused_circles (tol0 + tol) t (v_axis vo) (map in_ball balls) m r).
Proof.
  intros D areas swap g o b calls vo t tol0 tol r Hb Hp HD P0 T0 T H.
  destruct (program_split _ _ _ _ _ _ _ _ _ Hp H) as (items & balls & Hl & E). pose proof (formed _ _ _ _ _ Hb Hp Hl) as WF.
  assert (exists m, voronoi_mesh g o b items vo = Ok m) as (m & Em).
  { unfold generate_voronoi in E. destruct (voronoi_mesh g o b items vo) as [m|]; [eauto|discriminate]. }
  exists items, balls, m. split; [exact Hl|]. split; [exact Em|]. split; [eapply circles_kept; eauto|].
  intros. eapply circles_fused; eauto.
Qed.
Print Assumptions C167_circles.

(* [C167] programs that succeed *)
Theorem C167_defined :
  forall D areas swap g o b (calls : list (vcall D)) vo t items0 balls,
  aligned (vb_mesh b) -> Forall proper calls ->
  (forall vpts, length (d_point_region (v_diagram vo vpts)) = length vpts) ->
  program_leaves (v_axis vo) calls items0 balls ->
  exists items, program_leaves (v_axis vo) calls items balls /\
  forall m, voronoi_mesh g o b items vo = Ok m -> simple_boundary t (v_axis vo) m (map in_ball balls) ->
  ((exists r, voronoi_program areas swap g o b calls vo t = Ok r) <->
   vm_points m <> [] /\
   forall ball, In ball balls -> (exists i, enclosed t (v_axis vo) m (in_ball ball) i) /\ joined t (v_axis vo) m (in_ball ball)).
Proof.
  intros D areas swap g o b calls vo t items0 balls Hb Hp HD Hl.
  destruct (leave_calls areas swap (v_axis vo) calls items0 balls Hl (mkSeeds [] [])) as (items & Hi & E).
  exists items. split; [exact Hi|]. intros m Em Hs. unfold voronoi_program. rewrite E.
  unfold generate_seeds, grown. cbn [s_items s_fuse app].
  rewrite (circles_defined g o b items (map in_ball balls) vo t m (formed _ _ _ _ _ Hb Hp Hi) HD Em Hs).
  split; (intros [H1 H2]; split; [exact H1|]).
  - intros ball Hin. apply H2. now apply in_map.
  - intros c Hc. apply in_map_iff in Hc as (ball & <- & Hin). auto.
Qed.
Print Assumptions C167_defined.

(* [C167] a call that is not acceptable makes the program fail *)
Theorem C167_errors :
  forall D areas swap g o b (calls : list (vcall D)) vo t,
  Forall proper calls -> (exists c, In c calls /\ forall its balls, ~ leaves (v_axis vo) c its balls) ->
  exists e, voronoi_program areas swap g o b calls vo t = Err e.
Proof.
  intros D areas swap g o b calls vo t Hp (c & Hc & Hn).
  destruct (voronoi_program areas swap g o b calls vo t) as [r|e] eqn:E; [|eauto]. exfalso.
  destruct (program_split _ _ _ _ _ _ _ _ _ Hp E) as (items & balls & Hl & _). clear E Hp.
  induction Hl as [|c' calls its balls its' balls' H _ IH]; [destruct Hc|].
  destruct Hc as [->|Hc]; [exact (Hn _ _ H)|auto].
Qed.
Print Assumptions C167_errors.

(* C167: the error is that of the first call refused, whatever comes before and after; ValueError for a circle without
   a proper constraint radius *)
Theorem C167_first_error :
  forall D areas swap g o b (before : list (vcall D)) c after vo t items balls,
  program_leaves (v_axis vo) before items balls -> proper c -> (forall its bs, ~ leaves (v_axis vo) c its bs) ->
  (exists e, voronoi_program areas swap g o b (before ++ c :: after) vo t = Err e /\
     forall after', voronoi_program areas swap g o b (c :: after') vo t = Err e) /\
  (forall radius arg cr res center plain prio group, c = CallCircle radius arg res center plain prio group ->
     constraint_of radius arg cr -> ~ (0 < radius /\ radius <= cr < 2 * radius) ->
     voronoi_program areas swap g o b (before ++ c :: after) vo t = Err ValueError).
Proof.
  intros D areas swap g o b before c after vo t items balls Hb Hp Hn.
  destruct (leave_calls areas swap (v_axis vo) before items balls Hb (mkSeeds [] [])) as (its' & _ & Hr).
  assert (HE : forall s, exists s' e, run_call areas swap (v_axis vo) s c = (s', Err e)).
  { intros s. destruct (run_call areas swap (v_axis vo) s c) as [s' [[]|e]] eqn:E; [|eauto].
    exfalso. destruct (run_leaves areas swap (v_axis vo) s c s' Hp E) as (i & bl & Hl & _). exact (Hn _ _ Hl). }
  assert (HA : forall s after', run_calls areas swap (v_axis vo) s (c :: after') = run_call areas swap (v_axis vo) s c).
  { intros s after'. cbn [run_calls]. destruct (HE s) as (s' & e & ->). reflexivity. }
  assert (HB : exists s, run_calls areas swap (v_axis vo) (mkSeeds [] []) (before ++ c :: after) = run_call areas swap (v_axis vo) s c).
  { eexists. rewrite (run_calls_app areas swap (v_axis vo) before (c :: after) _ _ Hr). apply HA. }
  destruct HB as [s HB]. unfold voronoi_program. rewrite HB. split.
  - destruct (HE s) as (s' & e & E). exists e. rewrite E. split; [reflexivity|]. intros after'. rewrite HA.
    pose proof (run_call_state areas swap (v_axis vo) s (mkSeeds [] []) c) as ES. rewrite E in ES. cbn in ES.
    destruct (run_call areas swap (v_axis vo) (mkSeeds [] []) c) as [s2 r2]. cbn in ES. subst r2. reflexivity.
  - intros radius arg cr res center plain prio group -> Hc Hbad. cbn [run_call]. rewrite (Seeds2_proof.circle_bad areas swap _ _ _ _ _ _ _ _ _ _ Hc Hbad). reflexivity.
Qed.
Print Assumptions C167_first_error.

(* a background mesh of two cells and a plain circle of one cell: three polygons, of which the
   first two have their center in the circle *)
Definition px_geo : vgeo (list pt) := mkGeo (fun c => hd (0, 0, 0) c) (fun _ _ => None).
Definition px_base : vbase (list pt) := mkVB (mkG [[(0, 0, 0)]; [(5, 0, 0)]] None None) [] PrefCell.
Definition px_calls : list (vcall unit) := [CallCircle 3 (Some 3) ResNone None true 0 "well"].
Definition px_item : vitem (list pt) := mkVI (mkG (turns 2 [0; 1] (pie (0, 0, 0) 3)) None None) false "well" 0%Z.
Definition px_mesh : vmesh :=
  mkVM (rx_tri 0 ++ rx_tri 1 ++ rx_tri 2) [[0; 1; 2]; [3; 4; 5]; [6; 7; 8]]%nat [0; 0; 1]%Z [("default", 0); ("well", 1)]%Z%string
       [(0, 0, 0); (5, 0, 0); (0, 0, 0)].

Lemma px_leaves : program_leaves 2 px_calls [px_item] [((0, 0, 0), 3)].
Proof.
  change [px_item] with ([px_item] ++ []). change [((0, 0, 0), 3)] with ([((0, 0, 0), 3)] ++ []).
  constructor; [|constructor].
  apply (lv_circle 2 3 (Some 3) 3 ResNone None [0; 1] (0, 0, 0) (0, 0, 0) true 0%Z "well" [px_item]);
    [now left|lra|lra|exact sub_none|cbn; lia|constructor|constructor|]. now apply ci_one.
Qed.
Lemma px_only items balls : program_leaves 2 px_calls items balls -> items = [px_item].
Proof.
  intros H. inversion H as [|c cs its bs its' bs' Hc Hn]; subst. inversion Hn; subst. rewrite app_nil_r.
  inversion Hc as [| |radius arg cr res center p c q pl prio group its0 H1 H2 H3 H4 H5 H6 H7 H8|]; subst.
  destruct H1 as [E|[E _]]; [|discriminate]. injection E as <-. assert (E : Ok p = Ok [0; 1]) by (rewrite <- sub_none; symmetry; exact H4).
  injection E as ->. inversion H6; subst. inversion H8; subst; [reflexivity|lra].
Qed.
Lemma px_voronoi : voronoi_mesh px_geo iopt px_base [px_item] rx_vo = Ok px_mesh.
Proof.
  unfold voronoi_mesh, scatter, start, iopt. cbn -[orient IZR polar degrees]. lazy -[orient IZR Rplus Rmult insert_axis drop_axis mean2 far_radius px_mesh polar degrees].
  rewrite !rx_orient by lra. unfold px_mesh, in_plane. reflexivity.
Qed.
Lemma px_like f : mesh_of 2 px_mesh f -> exists f', mesh_of 2 rx_mesh f' /\ f_pts f' = f_pts f /\ f_cells f' = f_cells f.
Proof.
  intros (Fp & Fc & Ft & _). exists (mkF (f_pts f) (f_cells f) (combine (vm_groups rx_mesh) (vm_xyz rx_mesh))).
  split; [|split; reflexivity]. repeat split; try assumption; reflexivity.
Qed.
Lemma px_boundary f f' ids : f_pts f' = f_pts f -> f_cells f' = f_cells f -> k_boundary rx_tools f ids = k_boundary rx_tools f' ids.
Proof. intros E1 E2. cbn [rx_tools k_boundary]. unfold cell_points. now rewrite E1, E2. Qed.
Lemma px_simple circles : simple_boundary rx_tools 2 px_mesh circles.
Proof.
  intros f c ids poly Hf Hc Hl Hb. destruct (px_like f Hf) as (f' & Hf' & E1 & E2).
  rewrite (px_boundary f f' ids E1 E2) in Hb. exact (rx_simple circles f' c ids poly Hf' Hc Hl Hb).
Qed.
Lemma px_joined circle : joined rx_tools 2 px_mesh circle.
Proof.
  intros f ids Hf Hl. destruct (px_like f Hf) as (f' & Hf' & E1 & E2). split; [reflexivity|].
  destruct (rx_joined circle f' ids Hf' Hl) as (_ & poly & Hb & Hi). exists poly. rewrite (px_boundary f f' ids E1 E2), <- E1. auto.
Qed.
Lemma px_enclosed i : enclosed rx_tools 2 px_mesh (in_ball ((0, 0, 0), 3)) i <-> i = 0%nat \/ i = 1%nat.
Proof.
  rewrite (rx_enclosed (in_ball ((0, 0, 0), 3)) i : enclosed rx_tools 2 px_mesh _ i <-> _).
  assert (D : forall x, 0 <= x -> dist3 (0, 0, 0) (x, 0, 0) = x).
  { intros x Hx. unfold dist3. rewrite <- (sqrt_square x Hx) at 3. f_equal. ring. }
  unfold in_ball. cbn [fst snd]. split.
  - intros [Hi H]. destruct i as [|[|[|]]]; auto; [|lia]. cbn -[dist3] in H. rewrite D in H by lra. destruct (Rlt_dec 4 3); [lra|discriminate].
  - intros [-> | ->]; (split; [lia|]); cbn -[dist3]; rewrite D by lra; destruct (Rlt_dec _ _); auto; lra.
Qed.
Lemma px_proper : Forall proper px_calls.
Proof. constructor; [|constructor]. intros s. discriminate. Qed.
Lemma px_program areas swap : exists r, voronoi_program areas swap px_geo iopt px_base px_calls rx_vo rx_tools = Ok r.
Proof.
  assert (Hb : aligned (vb_mesh px_base)) by exact I.
  pose proof (C167_defined unit areas swap px_geo iopt px_base px_calls rx_vo rx_tools [px_item] [((0, 0, 0), 3)] Hb px_proper rx_diagram px_leaves) as X.
  destruct X as (items & Hl & H).
  rewrite (px_only _ _ Hl) in H. apply (H px_mesh px_voronoi (px_simple _)). split; [discriminate|].
  intros ball [<-|[]]. split; [exists 0%nat; apply px_enclosed; now left|apply px_joined].
Qed.

Example C167_example : forall areas swap, Forall proper px_calls /\ aligned (vb_mesh px_base) /\
  exists r, voronoi_program areas swap px_geo iopt px_base px_calls rx_vo rx_tools = Ok r /\
    length (vr_cells r) = 2%nat /\
    fused_circles (0 + 0) rx_tools 2 (map in_ball [((0, 0, 0), 3)]) px_mesh r.
Proof.
  intros areas swap. pose proof px_proper as Hp. assert (Hb : aligned (vb_mesh px_base)) by exact I.
  split; [exact Hp|]. split; [exact I|]. destruct (px_program areas swap) as (r & Hr). exists r. split; [exact Hr|].
  destruct (C167_circles unit areas swap px_geo iopt px_base px_calls rx_vo rx_tools 0 0 r Hb Hp rx_diagram (Rle_refl 0) rx_tidies rx_tidies Hr)
    as (items & balls & m & Hl & Em & (kept & Hk) & Hf).
  rewrite (px_only _ _ Hl) in Em. rewrite px_voronoi in Em. injection Em as <-.
  assert (Eb : balls = [((0, 0, 0), 3)]).
  { clear - Hl. inversion Hl as [|c cs its bs its' bs' Hc Hn]; subst. inversion Hn; subst. rewrite app_nil_r.
    inversion Hc as [| |radius arg cr res center p c q pl prio group its0 H1 H2 H3 H4 H5 H6 H7 H8|]; subst. inversion H7; reflexivity. }
  subst balls. split.
  - destruct Hk as (Sk & Hk & L & _). rewrite L. rewrite (sorted_same kept [0; 2]%nat); [reflexivity|exact Sk|repeat constructor|].
    intros i. rewrite Hk. cbn [px_mesh vm_cells length map In]. split.
    + intros [Hi H]. destruct i as [|[|[|]]]; auto; [|lia]. exfalso.
      destruct (H _ (or_introl eq_refl)) as [_ Hm]; [apply px_enclosed; auto|].
      specialize (Hm 0%nat (proj2 (px_enclosed 0) (or_introl eq_refl))). lia.
    + intros Hi. split; [lia|]. intros c [<-|[]] Hc. split; [exact Hc|]. intros j Hj. apply px_enclosed in Hc, Hj. lia.
  - apply Hf; [|apply px_simple]. split.
    + intros c [<-|[]]. exists 0%nat. apply px_enclosed. now left.
    + intros [|[|j]] [|[|j']] c c' i H H'; cbn in *; congruence || (destruct j; discriminate) || (destruct j'; discriminate).
Qed.

Example C167_first_error_example : forall areas swap g o b vo t, v_axis vo = 2%nat ->
  voronoi_program areas swap g o b (px_calls ++ [CallCircle 3 (Some 2) ResNone None true 0 ""; CallPoints [[]] 0 ""]) vo t = Err ValueError.
Proof.
  intros areas swap g o b vo t Hv.
  refine (proj2 (C167_first_error unit areas swap g o b px_calls _ _ vo t [px_item] [((0, 0, 0), 3)] _ _ _) 3 (Some 2) 2 ResNone None true 0%Z ""%string eq_refl _ _).
  - rewrite Hv. exact px_leaves.
  - intros s. discriminate.
  - intros its bs H. inversion H; subst. destruct H7 as [E|[E _]]; [injection E as <-; lra|discriminate].
  - now left.
  - lra.
Qed.

Example C167_errors_example : forall its balls, ~ leaves (D := unit) 2 (CallCircle 3 (Some 2) ResNone None true 0 "") its balls.
Proof. intros its balls H. inversion H; subst. destruct H7 as [E|[E _]]; [injection E as <-; lra|discriminate]. Qed.
