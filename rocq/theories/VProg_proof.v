From Coq Require Import Reals Lra Lia Sorted.
From Verif Require Import Prelude RealAux Perc_model Perc_proof Grid Surface_model Surface_spec Surface_proof Volume_model
  Groups_model Lines_spec Lines_model Lines1_proof Groups_spec Voronoi_model Objects_model Objects_spec Objects1_proof Objects3_proof Objects5_proof
  Seeds_model Seeds_spec Seeds1_proof Seeds2_proof Seeds3_proof Seeds4_proof Seeds5_proof VProg_model VProg_spec.
Open Scope R_scope.

Lemma tl_nth {A} (l : list A) k : nth_error (tl l) k = nth_error l (S k).
Proof. destruct l; [destruct k|]; reflexivity. Qed.
Lemma list_ext {A} (l m : list A) : (forall k, nth_error l k = nth_error m k) -> l = m.
Proof.
  revert m. induction l as [|x l IH]; intros [|y m] H; try reflexivity; try (specialize (H 0%nat); discriminate).
  f_equal; [specialize (H 0%nat); cbn in H; congruence|]. apply IH. intros k. apply (H (S k)).
Qed.
Lemma turns_eq axis p f L : length L = (length p - 1)%nat ->
  (forall k t t', nth_error p k = Some t -> nth_error p (S k) = Some t' -> nth_error L k = Some (f (360 * t) (360 * t'))) ->
  map (map (flatten axis)) L = turns axis p f.
Proof.
  intros HL H. rewrite (map_ext _ _ (map_flatten axis)). unfold turns. apply list_ext. intros k.
  rewrite !nth_error_map. destruct (nth_error (combine p (tl p)) k) as [[t t']|] eqn:E.
  - assert (nth_error p k = Some t /\ nth_error (tl p) k = Some t') as [A B].
    { clear - E. revert k E. generalize (tl p). induction p as [|x p IH]; intros [|y q] [|k] E; try discriminate.
      - now injection E as -> ->. - exact (IH q k E). }
    rewrite tl_nth in B. rewrite (H k t t' A B). reflexivity.
  - apply nth_error_None in E. rewrite combine_length in E.
    assert (N : nth_error L k = None).
    { apply nth_error_None. assert (length (tl p) = (length p - 1)%nat) by (destruct p; cbn; lia). lia. }
    rewrite N. reflexivity.
Qed.

Lemma inside_ball c r : inside c r = in_ball (c, r).
Proof.
  apply FunctionalExtensionality.functional_extensionality. intros p. unfold inside, in_ball. cbn [fst snd].
  replace (norm (sub3 p c)) with (dist3 c p); [reflexivity|].
  destruct c as [[a b] d], p as [[x y] z]. unfold dist3, norm, sub3, dot. now rewrite ?Rplus_assoc.
Qed.

Lemma center_ball axis center c : offset center c -> exists q, ball_center axis center q /\ plain_center axis center = Ok q.
Proof.
  intros []; cbn [plain_center]; eexists; (split; [|reflexivity]); [constructor|constructor..].
  - rewrite insert_embed. constructor.
  - constructor.
Qed.
Lemma ball_fun axis center q q' : ball_center axis center q -> ball_center axis center q' -> q = q'.
Proof.
  intros [|row p Hp] H; inversion H as [|row' p' Hp']; subst; [reflexivity|].
  destruct Hp; inversion Hp'; reflexivity.
Qed.

Section P.
Context {D : Type} (areas : shape3 -> list pt -> list R) (swap : bool).

(* a state extended with items and balls *)
Definition grown (s : seeds) (its : list (vitem (list pt))) (balls : list (pt * R)) : seeds :=
  mkSeeds (s_items s ++ its) (s_fuse s ++ map in_ball balls).

Lemma seeds_eq s its balls s' : s_items s' = s_items s ++ its -> s_fuse s' = s_fuse s ++ map in_ball balls -> s' = grown s its balls.
Proof. destruct s'. cbn. now intros -> ->. Qed.

Lemma circle_exact axis s radius arg cr res p center c plain prio group :
  constraint_of radius arg cr -> 0 < radius -> radius <= cr < 2 * radius ->
  subdivides (mkSub res None) p -> (2 <= length p)%nat -> offset center c ->
  exists its q, circle_items axis c radius cr p prio group its /\ ball_center axis center q /\
    add_circle areas swap axis s radius arg res center plain prio group =
    (grown s its (if plain then [(q, radius)] else []), Ok tt).
Proof.
  intros Hc Hr Hcr S L O. destruct (center_ball axis center c O) as (q & Hq & Eq).
  assert (Fin : forall s2, (if plain then after s2 (plain_center axis center) (fun c0 =>
        (mkSeeds (s_items s2) (s_fuse s2 ++ [inside c0 radius]), Ok tt)) else (s2, Ok tt)) =
     (mkSeeds (s_items s2) (s_fuse s2 ++ map in_ball (if plain then [(q, radius)] else [])), Ok tt)).
  { intros s2. rewrite Eq. cbn [after]. destruct plain; cbn [map]; [now rewrite inside_ball|]. rewrite app_nil_r. now destruct s2. }
  unfold add_circle. rewrite (constraint_val _ _ _ Hc).
  destruct (Req_dec cr radius) as [->|Hne].
  - destruct (Rlt_dec 0 (radius - radius)) as [H|_]; [lra|]. destruct (Req_EM_T (radius - radius) 0) as [_|H]; [|lra].
    destruct (fan_ok radius _ p center c Hr S L O) as (m & Em & Lm & Nm). rewrite Em. cbn [after].
    eexists _, q. split; [|split; [exact Hq|]].
    + apply ci_one. reflexivity.
    + rewrite Fin. unfold add_mesh, grown. cbn [s_items s_fuse gm_cells gm_cg gm_labels].
      rewrite (turns_eq axis p (pie c radius) (fan_cells m) Lm Nm). reflexivity.
  - destruct (Rlt_dec 0 (cr - radius)) as [_|]; [|lra].
    replace (radius - (cr - radius)) with (2 * radius - cr) by ring. replace (radius + (cr - radius)) with cr by ring.
    destruct (fan_ok (2 * radius - cr) _ p center c ltac:(lra) S L O) as (m & Em & Lm & Nm).
    destruct (rings_ok areas (2 * radius - cr) radius _ p center c ltac:(lra) S L O) as (g & Eg & Lg & Ng).
    destruct (rings_ok areas radius cr _ p center c ltac:(lra) S L O) as (h & Eh & Lh & Nh).
    rewrite Em. cbn [after]. rewrite Eg. cbn [after].
    destruct (merged_ok swap (fan_cells m) (sgrid_cells g)) as (its & Ei);
      [intros X; rewrite X in Lm; cbn in Lm; lia|intros X; rewrite X in Lg; cbn in Lg; lia|].
    rewrite Ei. cbn [after fst]. rewrite Eh. cbn [after]. rewrite Fin.
    pose proof (turns_eq axis p _ _ Lm Nm) as T1. pose proof (turns_eq axis p _ _ Lg Ng) as T2. pose proof (turns_eq axis p _ _ Lh Nh) as T3.
    eexists _, q. split; [|split; [exact Hq|]].
    + apply (ci_two axis c radius cr p prio group
        (if swap then turns axis p (ring c (2 * radius - cr) radius) ++ turns axis p (pie c (2 * radius - cr))
         else turns axis p (pie c (2 * radius - cr)) ++ turns axis p (ring c (2 * radius - cr) radius))); [lra|].
      destruct swap; auto.
    + unfold add_mesh, grown. cbn [s_items s_fuse gm_cells gm_cg gm_labels]. rewrite <- app_assoc. cbn [app].
      rewrite T3.
      replace (if swap then _ else _) with (map (map (flatten axis)) (both swap (fan_cells m) (sgrid_cells g)))
        by (unfold both; rewrite <- T1, <- T2; destruct swap; apply map_app).
      replace (length (map (map (flatten axis)) (both swap (fan_cells m) (sgrid_cells g)))) with (length (fan_cells m) + length (sgrid_cells g))%nat
        by (rewrite map_length; unfold both; destruct swap; rewrite app_length; lia).
      reflexivity.
Qed.

Lemma circle_ok_inv axis s radius arg res center plain prio group s' :
  add_circle areas swap axis s radius arg res center plain prio group = (s', Ok tt) ->
  exists cr p c, constraint_of radius arg cr /\ 0 < radius /\ radius <= cr < 2 * radius /\
    subdivides (mkSub res None) p /\ (2 <= length p)%nat /\ offset center c.
Proof.
  intros H. set (cr := match arg with Some c => c | None => 3 / 2 * radius end).
  assert (Hc : constraint_of radius arg cr) by (unfold constraint_of, cr; destruct arg; auto).
  assert (exists r m, Circle r (mkSub res None) center = Ok m) as (r & m & Em).
  { unfold add_circle in H. rewrite (constraint_val _ _ _ Hc) in H.
    destruct (Rlt_dec 0 (cr - radius)).
    - destruct (Circle _ _ _) as [m|] eqn:Em; [eauto|discriminate].
    - destruct (Req_EM_T (cr - radius) 0); [|discriminate]. destruct (Circle _ _ _) as [m|] eqn:Em; [eauto|discriminate]. }
  apply circle_inv in Em as (_ & p & c & S & L & O). exists cr, p, c.
  assert (A : 0 < radius /\ radius <= cr < 2 * radius) by (apply (circle_accepted areas swap axis s radius arg cr res p center c plain prio group); eauto).
  tauto.
Qed.

Lemma items_unlabelled axis P width pref padding cs ce priority group points its :
  polyline_items areas axis P width pref padding cs ce priority group points = Ok its ->
  Forall (fun it => gm_cg (vi_mesh it) = None) its.
Proof.
  unfold polyline_items. destruct (axis_points _ _ _); [|discriminate]. cbn [bind].
  destruct (strip _ _ _); [|discriminate]. cbn [bind].
  destruct (generate_surface_from_two_lines _ _ _ _ _ _); [|discriminate]. cbn [bind].
  destruct (surface_dims _) as [|n [|m [|]]]; try discriminate. intros [= <-]. repeat constructor.
Qed.
Lemma loop_unlabelled f lines s s' : (forall l its, f l = Ok its -> Forall (fun it => gm_cg (vi_mesh it) = None) its) ->
  polyline_loop f s lines = (s', Ok tt) -> exists its, s' = mkSeeds (s_items s ++ its) (s_fuse s) /\ Forall (fun it : vitem (list pt) => gm_cg (vi_mesh it) = None) its.
Proof.
  intros Hf. revert s. induction lines as [|l ls IH]; intros s; cbn [polyline_loop].
  - intros [= <-]. exists []. rewrite app_nil_r. split; [now destruct s|constructor].
  - destruct (f l) as [its|] eqn:E; [|discriminate]. cbn [after]. intros H. destruct (IH _ H) as (its' & -> & F). cbn [s_items s_fuse].
    exists (its ++ its'). rewrite app_assoc. split; [reflexivity|]. apply Forall_app. split; [eauto|exact F].
Qed.

Lemma line_exact axis s (arg : list pt + lmesh pt D) ls width pref padding cs ce res p prio group :
  polylines arg ls -> Forall (fun l => (2 <= length l)%nat) ls -> subdivides (mkSub res None) p -> (2 <= length p)%nat ->
  exists P its, widened p P /\
    drawn_all (fun l => draws axis width pref padding cs ce P l (match prio with Some z => z | None => 0%Z end) group) ls its /\
    Forall (fun it => gm_cg (vi_mesh it) = None) its /\
    add_polyline areas axis s arg width pref padding cs ce res prio group = (grown s its [], Ok tt).
Proof.
  intros Ha Hl Hr Lp. destruct (polyline_ok areas axis s arg ls width pref padding cs ce res p prio group Ha Hl Hr Lp) as (P & its & W & E & Dr).
  exists P, its. split; [exact W|]. split; [exact Dr|].
  assert (Forall (fun it => gm_cg (vi_mesh it) = None) its).
  { unfold add_polyline in E. destruct (polyline_mesh arg); [|discriminate]. cbn [after] in E.
    destruct (resolution_to_perc _ _); [|discriminate]. cbn [after] in E.
    destruct (extended_perc _); [|discriminate]. cbn [after] in E. destruct (split_lines _ _); [|discriminate]. cbn [after] in E.
    apply loop_unlabelled in E as (its' & E & F); [|intros; eapply items_unlabelled; eauto].
    injection E as E. apply app_inv_head in E as ->. exact F. }
  split; [assumption|]. rewrite E. unfold grown. cbn [map]. now rewrite app_nil_r.
Qed.

Lemma loop_long axis P width pref padding cs ce prio group lines s s' :
  polyline_loop (polyline_items areas axis P width pref padding cs ce prio group) s lines = (s', Ok tt) ->
  Forall (fun l => (2 <= length l)%nat) lines.
Proof.
  revert s. induction lines as [|l ls IH]; intros s; cbn [polyline_loop]; [constructor|].
  destruct (Nat.le_gt_cases 2 (length l)) as [H|H]; [|rewrite items_bad by lia; discriminate].
  destruct (polyline_items _ _ _ _ _ _ _ _ _ _ _); [|discriminate]. cbn [after]. intros E. constructor; [exact H|eauto].
Qed.

Lemma line_ok_inv axis s (arg : list pt + lmesh pt D) width pref padding cs ce res prio group s' :
  match arg with inl _ => True | inr m => wf_lines m end ->
  add_polyline areas axis s arg width pref padding cs ce res prio group = (s', Ok tt) ->
  exists ls p, polylines arg ls /\ Forall (fun l => (2 <= length l)%nat) ls /\ subdivides (mkSub res None) p /\ (2 <= length p)%nat.
Proof.
  intros Hw H. unfold add_polyline in H. destruct (polyline_mesh arg) as [m|] eqn:Em; [|discriminate]. cbn [after] in H.
  destruct (resolution_to_perc _ _) as [p|] eqn:Er; [|discriminate]. cbn [after] in H.
  destruct (Nat.le_gt_cases 2 (length p)) as [Lp|Lp]; [|rewrite extended_bad in H by lia; discriminate].
  destruct (extended_perc _); [|discriminate]. cbn [after] in H. destruct (split_lines true m) as [ls|] eqn:Es; [|discriminate]. cbn [after] in H.
  exists (map l_pts ls), p. split; [|split; [eapply loop_long; eauto|split; [exact Er|exact Lp]]].
  destruct arg as [pts|m']; cbn [polyline_mesh] in Em.
  - destruct (Nat.le_gt_cases 2 (length pts)) as [Hp|Hp].
    + assert (Hl : @polylines D (inl pts) [pts]) by now constructor.
      destruct (arg_lines (inl pts) [pts] Hl) as (m' & out & E1 & E2 & E3). cbn [polyline_mesh] in E1.
      rewrite E1 in Em. injection Em as ->. rewrite E2 in Es. injection Es as ->. rewrite E3. exact Hl.
    + unfold multiple_lines in Em. destruct (Nat.leb_spec 2 (length pts)); [lia|discriminate].
  - injection Em as ->. constructor; [exact Hw|]. apply split_true_runs, Es.
Qed.

Lemma rows_points axis rows ps : mapM (check_row axis) rows = Ok ps <-> Forall2 (row_point axis) rows ps.
Proof.
  split.
  - revert ps. induction rows as [|r rows IH]; intros ps H; cbn in H; [injection H as <-; constructor|].
    destruct (check_row axis r) as [q|] eqn:E; [|discriminate]. cbn in H. destruct (mapM _ _) as [qs|]; [|discriminate]. injection H as <-.
    constructor; [|now apply IH]. destruct r as [|a [|b [|c [|]]]]; cbn in E; try discriminate; injection E as <-; [|constructor].
    change (row_point axis [a; b] (insert_axis axis (a, b))). rewrite insert_embed. constructor.
  - induction 1 as [|r q rows ps Hr _ IH]; [reflexivity|]. cbn. rewrite IH.
    replace (check_row axis r) with (Ok q); [reflexivity|]. destruct Hr; cbn [check_row]; [rewrite <- insert_embed|]; reflexivity.
Qed.

Lemma single_plane axis ps : map (fun x => map (flatten axis) [x]) ps = map (fun p => [in_plane axis p]) ps.
Proof. apply map_ext. intros p. now rewrite <- flatten_plane. Qed.

Lemma run_leaves axis s (c : vcall D) s' : proper c -> run_call areas swap axis s c = (s', Ok tt) ->
  exists its balls, leaves axis c its balls /\ s' = grown s its balls.
Proof.
  destruct c as [m poly prio group|rows prio group|radius arg res center plain prio group|arg width pref padding cs ce res prio group];
    cbn [run_call proper].
  - intros _ [= <-]. eexists _, []. split; [constructor|]. apply seeds_eq; cbn; [|now rewrite app_nil_r].
    now rewrite (map_ext _ _ (map_flatten axis)).
  - unfold add_points. destruct (mapM _ _) as [ps|] eqn:E; [|discriminate]. intros _ [= <-].
    eexists _, []. split; [constructor; apply rows_points, E|]. apply seeds_eq; cbn; [|now rewrite app_nil_r].
    now rewrite map_map, (single_plane axis).
  - intros _ H. destruct (circle_ok_inv _ _ _ _ _ _ _ _ _ _ H) as (cr & p & c & Hc & Hr & Hcr & S & L & O).
    destruct (circle_exact axis s radius arg cr res p center c plain prio group Hc Hr Hcr S L O) as (its & q & Hi & Hq & E).
    rewrite E in H. injection H as <-. do 2 eexists. split; [|reflexivity]. econstructor; eauto.
  - intros [Hw _] H. destruct (line_ok_inv _ _ _ _ _ _ _ _ _ _ _ _ Hw H) as (ls & p & Ha & Hl & S & L).
    destruct (line_exact axis s arg ls width pref padding cs ce res p prio group Ha Hl S L) as (P & its & W & Dr & F & E).
    rewrite E in H. injection H as <-. do 2 eexists. split; [|reflexivity]. econstructor; eauto.
Qed.

Lemma leaves_run axis s (c : vcall D) its balls : leaves axis c its balls -> exists its', leaves axis c its' balls /\
  run_call areas swap axis s c = (grown s its' balls, Ok tt).
Proof.
  intros H. destruct H as [m poly prio group|rows ps prio group Hp|radius arg cr res center p c q plain prio group its Hc Hr Hcr S L O Hq Hi
    |arg width pref padding cs ce res prio group ls p P its Ha Hl S L W Dr F]; cbn [run_call].
  - eexists. split; [constructor|]. f_equal. apply seeds_eq; cbn; [|now rewrite app_nil_r]. now rewrite (map_ext _ _ (map_flatten axis)).
  - eexists. split; [constructor; exact Hp|]. unfold add_points. rewrite (proj2 (rows_points axis rows ps) Hp). f_equal.
    apply seeds_eq; cbn; [|now rewrite app_nil_r]. now rewrite map_map, (single_plane axis).
  - destruct (circle_exact axis s radius arg cr res p center c plain prio group Hc Hr Hcr S L O) as (its' & q' & Hi' & Hq' & E).
    rewrite (ball_fun _ _ _ _ Hq' Hq) in E. exists its'. split; [econstructor; eauto|exact E].
  - destruct (line_exact axis s arg ls width pref padding cs ce res p prio group Ha Hl S L) as (P' & its' & W' & Dr' & F' & E).
    exists its'. split; [econstructor; eauto|exact E].
Qed.

Lemma grown_app s its balls its' balls' : grown (grown s its balls) its' balls' = grown s (its ++ its') (balls ++ balls').
Proof. unfold grown. cbn. now rewrite map_app, !app_assoc. Qed.
Lemma grown_nil s : grown s [] [] = s.
Proof. unfold grown. cbn. rewrite !app_nil_r. now destruct s. Qed.

Lemma calls_leave axis (calls : list (vcall D)) s s' : Forall proper calls -> run_calls areas swap axis s calls = (s', Ok tt) ->
  exists its balls, program_leaves axis calls its balls /\ s' = grown s its balls.
Proof.
  revert s. induction calls as [|c calls IH]; intros s Hp; cbn [run_calls].
  - intros [= <-]. exists [], []. split; [constructor|]. now rewrite grown_nil.
  - inversion Hp; subst. destruct (run_call areas swap axis s c) as [s1 [[]|]] eqn:E; [|discriminate]. intros Hr.
    destruct (run_leaves axis s c s1 H1 E) as (its & balls & Hl & ->). destruct (IH _ H2 Hr) as (its' & balls' & Hl' & ->).
    exists (its ++ its'), (balls ++ balls'). split; [now constructor|]. apply grown_app.
Qed.

Lemma leave_calls axis (calls : list (vcall D)) its balls : program_leaves axis calls its balls -> forall s, exists its',
  program_leaves axis calls its' balls /\ run_calls areas swap axis s calls = (grown s its' balls, Ok tt).
Proof.
  induction 1 as [|c calls its balls its' balls' H _ IH]; intros s; cbn [run_calls].
  - exists []. split; [constructor|]. now rewrite grown_nil.
  - destruct (leaves_run axis s c its balls H) as (i1 & L1 & ->). destruct (IH (grown s i1 balls)) as (i2 & L2 & ->).
    exists (i1 ++ i2). split; [now constructor|]. now rewrite grown_app.
Qed.

(* ---- items are well formed ---- *)
Lemma run_calls_app axis (calls calls' : list (vcall D)) : forall s s', run_calls areas swap axis s calls = (s', Ok tt) ->
  run_calls areas swap axis s (calls ++ calls') = run_calls areas swap axis s' calls'.
Proof.
  induction calls as [|c calls IH]; intros s s' H; cbn [run_calls app] in H |- *.
  - injection H as ->. reflexivity.
  - destruct (run_call areas swap axis s c) as [s1 [[]|e]]; [now apply IH|discriminate].
Qed.

(* what a call answers does not depend on the previous calls *)
Lemma loop_state f lines : forall s s', snd (polyline_loop f s lines) = snd (polyline_loop f s' lines).
Proof. induction lines as [|l lines IH]; intros s s'; cbn; [reflexivity|]. unfold after. destruct (f l); [apply IH|reflexivity]. Qed.
Lemma run_call_state axis s s' (c : vcall D) : snd (run_call areas swap axis s c) = snd (run_call areas swap axis s' c).
Proof.
  destruct c as [m poly prio group|rows prio group|radius cr res center pl prio group|arg width pref padding cs ce res prio group]; cbn [run_call].
  - reflexivity.
  - unfold add_points. destruct (mapM _ _); reflexivity.
  - unfold add_circle, after. cbv zeta.
    repeat match goal with |- context [match ?x with _ => _ end] => destruct x; try reflexivity end.
  - unfold add_polyline, after.
    repeat match goal with |- context [match ?x with Ok _ => _ | Err _ => _ end] => destruct x; try reflexivity end.
    apply loop_state.
Qed.

Lemma drawn_groups {axis width pref padding cs ce P prio group} ls its :
  drawn_all (fun l => draws axis width pref padding cs ce P l prio group) ls its ->
  Forall (fun it => vi_group it = group \/ vi_group it = ""%string) its.
Proof.
  induction 1 as [|l ls a b its Hd _ IH]; [constructor|]. destruct Hd as (Q & E & N & _ & _ & _ & _ & _ & _ & _ & G1 & _ & G2 & _).
  constructor; [now left|]. constructor; [now right|exact IH].
Qed.
Lemma plain_empty : plain ""%string. Proof. intros s. discriminate. Qed.
Lemma leaves_formed axis (c : vcall D) its balls : proper c -> leaves axis c its balls ->
  Forall (fun it => aligned (vi_mesh it) /\ plain (vi_group it)) its.
Proof.
  intros Hp H. destruct H as [m poly prio group|rows ps prio group _|radius arg cr res center p c q pl prio group its Hc Hr Hcr S L O Hq Hi
    |arg width pref padding cs ce res prio group ls p P its Ha Hl S L W Dr F]; cbn [proper] in Hp.
  - destruct Hp as [Ha Hp]. repeat constructor; [|exact Hp]. unfold aligned in *. cbn. destruct (gm_cg m); [now rewrite map_length|exact I].
  - repeat constructor. exact Hp.
  - destruct Hi; repeat constructor; try exact Hp; try exact plain_empty. unfold aligned. cbn. now rewrite repeat_length.
  - destruct Hp as [_ Hp]. apply drawn_groups in Dr. rewrite Forall_forall in *. intros it Hi. split.
    + unfold aligned. now rewrite (F it Hi).
    + destruct (Dr it Hi) as [->| ->]; [exact Hp|exact plain_empty].
Qed.
Lemma program_formed axis (calls : list (vcall D)) its balls : Forall proper calls -> program_leaves axis calls its balls ->
  Forall (fun it => aligned (vi_mesh it) /\ plain (vi_group it)) its.
Proof.
  intros Hp H. induction H as [|c calls its balls its' balls' H _ IH]; [constructor|]. inversion Hp; subst.
  apply Forall_app. split; [eapply leaves_formed; eauto|auto].
Qed.
End P.
