(* Cell centers: apex, affine images, position of the center. *)
From Coq Require Import Reals Lra Ascii Permutation Psatz.
From Verif Require Import Center_model Volume_spec Topo_spec Topo2_proof Center_spec Center_proof Center2_proof.
Open Scope nat_scope.

(* ---- apex ---- *)
Lemma tetra_rows_apex points all : forall cells cells' locs mask rows, length cells = length cells' ->
  (forall i loc, nth_error mask i = Some true -> nth_error locs i = Some loc ->
     (exists i0 rest i1 rest', nth_error cells i = Some (i0 :: rest) /\ nth_error cells' i = Some (i1 :: rest') /\
        i0 < length points /\ i1 < length points) /\
     forall faces, Forall2 (fun l f => nth_error all l = Some f) loc faces -> balanced faces) ->
  tetra_rows points all cells locs mask rows = tetra_rows points all cells' locs mask rows.
Proof.
  induction cells as [|ids cells IH]; intros [|ids' cells'] [|loc locs] [|b mask] [|row rows] Hl H; try discriminate; auto.
  cbn [tetra_rows]. rewrite (IH cells'); [| auto |].
  2:{ intros i loc' H1 H2. exact (H (S i) loc' H1 H2). }
  destruct b; auto. specialize (H 0 loc eq_refl eq_refl). destruct H as [(i0 & rest & i1 & rest' & A & B & L0 & L1) Hb].
  cbn [nth_error] in A, B. injection A as ->. injection B as ->.
  destruct (pick_faces all loc) as [faces|] eqn:Ef; auto. cbn [bind].
  rewrite (tetra_apex points (i0 :: rest) (i1 :: rest') faces i0 i1 rest rest'); auto.
  apply Hb, pick_faces_Ok; auto.
Qed.

Theorem centers_apex vtk version points m m' ghosts :
  v_types m' = v_types m -> v_faces m' = v_faces m -> v_locs m' = v_locs m ->
  length (v_cells m') = length (v_cells m) ->
  (forall i, nth_error (v_types m) i = Some 42 ->
     (exists i0 rest i1 rest', nth_error (v_cells m) i = Some (i0 :: rest) /\
        nth_error (v_cells m') i = Some (i1 :: rest') /\ i0 < length points /\ i1 < length points) /\
     forall faces, poly_faces m i faces -> balanced faces) ->
  get_cell_centers vtk version (Some "tetra"%string) (UGrid m points) ghosts =
  get_cell_centers vtk version (Some "tetra"%string) (UGrid m' points) ghosts.
Proof.
  intros Et Ef El Hl H. unfold get_cell_centers, vtk_rows, polyhedron_rows. rewrite Et, Ef, El.
  change (String.eqb "tetra" "box") with false. change (String.eqb "tetra" "geometric") with false.
  change (String.eqb "tetra" "tetra") with true. cbn [andb].
  destruct vtk as [cs|]; cbn [bind]; auto.
  destruct (put_rows _ _ _) as [rows|]; cbn [bind]; auto.
  rewrite (tetra_rows_apex points (v_faces m) (v_cells m) (v_cells m')); auto.
  intros i loc H1 H2. rewrite nth_error_map in H1. destruct (nth_error (v_types m) i) as [t|] eqn:Ei; [|discriminate].
  assert (t = 42) as -> by (apply eq_sym, Nat.eqb_eq; cbn [option_map] in H1; congruence).
  destruct (H i Ei) as [A B]. split; auto. intros faces Hf. apply B. exists loc; auto.
Qed.

(* ---- affine images ---- *)
Section Aff.
Variables o a b c : vec.
Let A := affine_map o a b c.

Definition lin (k : nat) (p : vec) : R :=
  (coord 0 p * coord k a + coord 1 p * coord k b + coord 2 p * coord k c)%R.

Lemma coord_A k p : k < 3 -> coord k (A p) = (coord k o + lin k p)%R.
Proof.
  intros Hk. unfold A, affine_map, lin. destruct p as [[? ?] ?], o as [[? ?] ?], a as [[? ?] ?], b as [[? ?] ?], c as [[? ?] ?].
  destruct k as [|[|[|]]]; simpl; lra || lia.
Qed.

Lemma at_pts_map pts i : i < length pts -> at_pts (map A pts) i = A (at_pts pts i).
Proof.
  intros Hi. unfold at_pts. rewrite (nth_indep _ _ (A (0, 0, 0)%R)) by (rewrite map_length; auto). apply map_nth.
Qed.

Lemma det_A u v w p : det3 (vsub (A u) (A p)) (vsub (A v) (A p)) (vsub (A w) (A p)) =
  (det3 a b c * det3 (vsub u p) (vsub v p) (vsub w p))%R.
Proof.
  unfold A, affine_map, det3, vsub. destruct u as [[? ?] ?], v as [[? ?] ?], w as [[? ?] ?], p as [[? ?] ?],
    o as [[? ?] ?], a as [[? ?] ?], b as [[? ?] ?], c as [[? ?] ?]. ring.
Qed.

Lemma point_at_map points i : point_at (map A points) i = match point_at points i with Ok p => Ok (A p) | Err e => Err e end.
Proof. unfold point_at. rewrite nth_error_map. destruct (nth_error points i); auto. Qed.

Lemma tri_points_map points t : tri_points (map A points) t =
  match tri_points points t with Ok (p, q, r) => Ok (A p, A q, A r) | Err e => Err e end.
Proof.
  destruct t as [[u v] w]. unfold tri_points. rewrite !point_at_map.
  destruct (point_at points u); cbn [bind]; auto. destruct (point_at points v); cbn [bind]; auto.
  destruct (point_at points w); cbn [bind]; auto.
Qed.

Lemma mapM_tri_map points l : mapM (tri_points (map A points)) l =
  match mapM (tri_points points) l with Ok r => Ok (map (fun '(p, q, r) => (A p, A q, A r)) r) | Err e => Err e end.
Proof.
  induction l as [|t l IH]; auto. cbn [mapM]. rewrite tri_points_map. destruct (tri_points points t) as [[[p q] r]|]; cbn [bind]; auto.
  rewrite IH. destruct (mapM (tri_points points) l); cbn [bind]; auto.
Qed.

Lemma tri_in points t x : tri_points points t = Ok x ->
  let '(u, v, w) := t in u < length points /\ v < length points /\ w < length points.
Proof.
  destruct t as [[u v] w]. unfold tri_points, point_at.
  destruct (nth_error points u) eqn:E1; [|discriminate]; cbn [bind].
  destruct (nth_error points v) eqn:E2; [|discriminate]; cbn [bind].
  destruct (nth_error points w) eqn:E3; [|discriminate]. intros _.
  repeat split; apply nth_error_Some; congruence.
Qed.

Lemma vol_A points p t x : tri_points points t = Ok x ->
  vol6 (at_pts (map A points)) (A p) t = (det3 a b c * vol6 (at_pts points) p t)%R.
Proof.
  intros H. apply tri_in in H. destruct t as [[u v] w]. destruct H as (H1 & H2 & H3). unfold vol6.
  rewrite !at_pts_map by auto. apply det_A.
Qed.

Lemma moment_A k points p t x : k < 3 -> tri_points points t = Ok x ->
  moment k (at_pts (map A points)) (A p) t =
  (det3 a b c * (4 * coord k o * vol6 (at_pts points) p t +
     (coord k a * moment 0 (at_pts points) p t + coord k b * moment 1 (at_pts points) p t +
      coord k c * moment 2 (at_pts points) p t)))%R.
Proof.
  intros Hk H. unfold moment. pose proof (vol_A points p t x H) as Hv. apply tri_in in H.
  destruct t as [[u v] w]. destruct H as (H1 & H2 & H3). rewrite Hv.
  rewrite !at_pts_map, !coord_A by auto. unfold lin. ring.
Qed.

Lemma tetra_center_A points ids faces : det3 a b c <> 0%R ->
  tetra_center (map A points) ids faces = match tetra_center points ids faces with Ok p => Ok (A p) | Err e => Err e end.
Proof.
  intros Hd. destruct (triangles faces) as [|t0 tris] eqn:Et.
  { unfold tetra_center. rewrite fans_are, Et; auto. }
  destruct ids as [|i0 rest]. { unfold tetra_center. rewrite fans_are, Et; auto. }
  assert (Hne : triangles faces <> []) by congruence.
  destruct (nth_error points i0) as [p|] eqn:Ep.
  2:{ unfold tetra_center. rewrite fans_are, Et. unfold point_at. rewrite nth_error_map, Ep; auto. }
  destruct (mapM (tri_points points) (triangles faces)) as [tets|e] eqn:Em.
  2:{ unfold tetra_center. rewrite fans_are, Et, <- Et. rewrite point_at_map.
      assert (point_at points i0 = Ok p) as -> by (apply point_at_Ok; auto). cbn [bind].
      change (mapM _ (triangles faces)) with (mapM (tri_points (map A points)) (triangles faces)) at 1.
      change (mapM _ (triangles faces)) with (mapM (tri_points points) (triangles faces)) at 2.
      rewrite mapM_tri_map, Em; auto. }
  destruct (tetra_center_eq points i0 rest p faces tets Hne Ep Em) as [A1 A2].
  assert (Ep' : nth_error (map A points) i0 = Some (A p)) by (rewrite nth_error_map, Ep; auto).
  assert (Em' := mapM_tri_map points (triangles faces)). rewrite Em in Em'.
  destruct (tetra_center_eq (map A points) i0 rest (A p) faces _ Hne Ep' Em') as [B1 B2].
  assert (Hok : forall t, In t (triangles faces) -> exists x, tri_points points t = Ok x).
  { intros t Ht. apply mapM_Ok in Em. clear -Em Ht. induction Em; simpl in Ht; [tauto|]. destruct Ht as [<-|Ht]; eauto. }
  assert (HV : rsum (map (vol6 (at_pts (map A points)) (A p)) (triangles faces)) =
               (det3 a b c * rsum (map (vol6 (at_pts points) p) (triangles faces)))%R).
  { rewrite <- rsum_scale. apply rsum_ext. intros t Ht. destruct (Hok t Ht) as [x Hx]. eapply vol_A; eauto. }
  rewrite HV in *. set (V := rsum (map (vol6 (at_pts points) p) (triangles faces))) in *.
  destruct (Req_EM_T V 0) as [E|E].
  - rewrite A1, B1 by (rewrite ?E; lra). auto.
  - destruct (A2 E) as (q & -> & Hq). destruct B2 as (q' & -> & Hq'); [apply Rmult_integral_contrapositive; auto|].
    f_equal. apply coord_ext. intros k Hk. specialize (Hq' k Hk).
    assert (HM : rsum (map (moment k (at_pts (map A points)) (A p)) (triangles faces)) =
      (det3 a b c * (4 * coord k o * V + (coord k a * rsum (map (moment 0 (at_pts points) p) (triangles faces)) +
        coord k b * rsum (map (moment 1 (at_pts points) p) (triangles faces)) +
        coord k c * rsum (map (moment 2 (at_pts points) p) (triangles faces)))))%R).
    { unfold V. rewrite <- !rsum_scale, <- !rsum_plus, <- rsum_scale. apply rsum_ext. intros t Ht.
      destruct (Hok t Ht) as [x Hx]. eapply moment_A; eauto. }
    rewrite HM, <- !Hq in Hq' by lia. rewrite coord_A by auto. unfold lin.
    apply Rmult_eq_reg_l with (4 * (det3 a b c * V))%R.
    + rewrite Hq'. ring.
    + repeat apply Rmult_integral_contrapositive_currified; auto; lra.
Qed.

Lemma cell_points_map points ids : mapM (point_at (map A points)) ids =
  match mapM (point_at points) ids with Ok ps => Ok (map A ps) | Err e => Err e end.
Proof.
  induction ids as [|i ids IH]; auto. cbn [mapM]. rewrite point_at_map. destruct (point_at points i); cbn [bind]; auto.
  rewrite IH. destruct (mapM (point_at points) ids); auto.
Qed.

Lemma cells_points_map points l : mapM (mapM (point_at (map A points))) l =
  match mapM (mapM (point_at points)) l with Ok ps => Ok (map (map A) ps) | Err e => Err e end.
Proof.
  induction l as [|i l IH]; auto. cbn [mapM]. rewrite cell_points_map. destruct (mapM (point_at points) i); cbn [bind]; auto.
  rewrite IH. destruct (mapM (mapM (point_at points)) l); auto.
Qed.

Lemma geometric_A ps : geometric_center (map A ps) = option_map A (geometric_center ps).
Proof.
  destruct ps as [|p ps]; auto. unfold geometric_center. cbn [map option_map]. rewrite <- (map_cons A p ps).
  f_equal. rewrite map_length. set (l := p :: ps). assert (Hn : INR (length l) <> 0%R) by (apply not_0_INR; discriminate).
  apply coord_ext. intros k Hk. rewrite coord_scale3, coord_sum3, coord_A by auto. unfold lin.
  rewrite !coord_scale3, !coord_sum3 by lia. rewrite map_map.
  rewrite (rsum_ext (fun x => coord k (A x)) (fun x => coord k o + lin k x)%R) by (intros; apply coord_A; auto).
  rewrite rsum_plus. unfold lin. rewrite !rsum_plus.
  assert (E : forall j kk, rsum (map (fun x => coord j x * kk)%R l) = (kk * rsum (map (coord j) l))%R).
  { intros j kk. rewrite <- rsum_scale. apply rsum_ext; intros; lra. }
  rewrite !E.
  assert (Ec : rsum (map (fun _ => coord k o) l) = (INR (length l) * coord k o)%R).
  { clear. induction l as [|x l IH]; [unfold rsum; simpl; lra|]. cbn [map]. unfold rsum in *; cbn [fold_right].
    rewrite IH. change (length (x :: l)) with (S (length l)). rewrite S_INR. lra. }
  rewrite Ec. field. auto.
Qed.

Lemma tetra_rows_A points all : det3 a b c <> 0%R -> forall cells locs mask rows r,
  length cells = length rows -> length mask = length rows -> length locs = length rows ->
  tetra_rows points all cells locs mask rows = Ok r ->
  exists r', tetra_rows (map A points) all cells locs mask rows = Ok r' /\ length r' = length r /\
    forall i, nth_error r' i = match nth_error mask i with
                               | Some true => option_map (option_map A) (nth_error r i)
                               | _ => nth_error r i end.
Proof.
  intros Hd. induction cells as [|ids cells IH]; intros [|loc locs] [|m mask] [|row rows] r L1 L2 L3 H; try discriminate; cbn [tetra_rows] in *.
  - apply Ok_inj in H; subst. exists []; split; auto; split; auto. intros [|i]; auto.
  - destruct (if m then _ else _) as [row'|] eqn:Er; [|discriminate]; cbn [bind] in H.
    destruct (tetra_rows points all cells locs mask rows) as [rest|] eqn:E; [|discriminate]; cbn [bind] in H.
    apply Ok_inj in H; subst r. destruct (IH locs mask rows rest) as (rest' & E' & Hl & Hn); simpl in *; auto; try lia.
    rewrite E'. destruct m.
    + destruct (pick_faces all loc) as [faces|] eqn:Ef; [|discriminate]; cbn [bind] in *.
      rewrite tetra_center_A by auto. destruct (tetra_center points ids faces) as [q|]; [|discriminate]; cbn [bind] in *.
      apply Ok_inj in Er; subst row'. eexists; split; [reflexivity|]. split; [simpl; lia|].
      intros [|i]; simpl; auto.
    + apply Ok_inj in Er; subst row'. cbn [bind]. eexists; split; [reflexivity|]. split; [simpl; lia|]. intros [|i]; simpl; auto.
Qed.

Theorem centers_affine vtk version method points m ghosts rows after : wf_mesh m ->
  length (v_locs m) = length (v_types m) ->
  method = "geometric"%string \/ (method = "tetra"%string /\ det3 a b c <> 0%R) ->
  get_cell_centers vtk version (Some method) (UGrid m points) ghosts = (Ok rows, after) ->
  exists rows', get_cell_centers vtk version (Some method) (UGrid m (map A points)) ghosts = (Ok rows', after) /\
    (gate version method = true -> forall i t r, nth_error (v_types m) i = Some t -> nth_error rows i = Some r ->
      nth_error rows' i = Some (if t =? 42 then option_map A r else r)).
Proof.
  intros W HL Hm H. unfold get_cell_centers in *.
  destruct (vtk_rows vtk (UGrid m points)) as [rows0|] eqn:E0; [|discriminate].
  assert (vtk_rows vtk (UGrid m (map A points)) = Ok rows0) as -> by exact E0. cbn [bind] in *.
  destruct (vtk_rows_spec _ _ _ _ E0) as (cs & -> & Hl & _).
  unfold polyhedron_rows in *. destruct W as [W1 W2].
  set (mask := map (Nat.eqb 42) (v_types m)) in *.
  assert (Hml : length mask = length (v_types m)) by (unfold mask; rewrite map_length; auto).
  assert (Hmask : forall i t, nth_error (v_types m) i = Some t -> nth_error mask i = Some (t =? 42)).
  { intros i t Ht. rewrite Nat.eqb_sym. apply mask_poly; auto. }
  destruct (existsb (fun b => b) mask) eqn:Eany; cbn [negb] in *.
  2:{ exists rows; split; auto. intros _ i t r Ht Hr. destruct (t =? 42) eqn:E42; auto. exfalso.
      apply Hmask in Ht. rewrite E42 in Ht. apply nth_error_In in Ht.
      assert (existsb (fun b => b) mask = true) by (apply existsb_exists; exists true; auto). congruence. }
  unfold gate. destruct Hm as [->|[-> Hd]].
  - change (String.eqb "geometric" "box") with false in *. change (String.eqb "geometric" "geometric") with true in *.
    cbn [andb] in *. destruct (use_geometric version).
    2:{ exists rows; split; auto. discriminate. }
    rewrite cells_points_map. destruct (mapM (mapM (point_at points)) _) as [pts|] eqn:Ep; [|discriminate]; cbn [bind] in *.
    rewrite map_map. rewrite (map_ext _ (fun ps => option_map A (geometric_center ps))) by (intros; apply geometric_A).
    rewrite <- map_map.
    destruct (put_rows mask (map geometric_center pts) rows0) as [r|] eqn:Er; [|discriminate].
    apply pair_equal_spec in H as [Hr <-]. apply Ok_inj in Hr; subst r.
    apply put_rows_Ok in Er; [|lia]. destruct Er as (R1 & R2 & R3).
    destruct (put_rows_def mask (map (option_map A) (map geometric_center pts)) rows0) as [r' Er']; [lia|rewrite map_length; auto|].
    rewrite Er'. exists r'. split; auto. intros _ i t r Ht Hr.
    apply put_rows_Ok in Er'; [|lia]. destruct Er' as (S1 & S2 & S3).
    specialize (R3 i _ (Hmask _ _ Ht)). specialize (S3 i _ (Hmask _ _ Ht)).
    destruct (t =? 42); [|congruence]. rewrite S3, nth_error_map, <- R3, Hr. auto.
  - change (String.eqb "tetra" "box") with false in *. change (String.eqb "tetra" "geometric") with false in *.
    change (String.eqb "tetra" "tetra") with true in *. cbn [andb] in *. destruct (use_tetra version).
    2:{ exists rows; split; auto. discriminate. }
    destruct (tetra_rows points (v_faces m) (v_cells m) (v_locs m) mask rows0) as [r|] eqn:Er; [|discriminate].
    apply pair_equal_spec in H as [Hr <-]. apply Ok_inj in Hr; subst r.
    destruct (tetra_rows_A points (v_faces m) Hd (v_cells m) (v_locs m) mask rows0 rows) as (r' & -> & Hl' & Hn); auto; try lia.
    exists r'; split; auto. intros _ i t r Ht Hr. rewrite Hn, (Hmask _ _ Ht), Hr. destruct (t =? 42); auto.
Qed.
End Aff.


(* ---- the center is inside ---- *)
Lemma rsum_le {A} (f g : A -> R) l : (forall x, In x l -> (f x <= g x)%R) -> (rsum (map f l) <= rsum (map g l))%R.
Proof.
  induction l as [|x l IH]; intros H; unfold rsum in *; simpl; [lra|].
  specialize (IH ltac:(intros; apply H; simpl; auto)). specialize (H x (or_introl eq_refl)). lra.
Qed.

Lemma triangle_vertices faces u v w : In (u, v, w) (triangles faces) ->
  In u (concat faces) /\ In v (concat faces) /\ In w (concat faces).
Proof.
  unfold triangles. rewrite in_concat. intros (l & Hl & Ht). apply in_map_iff in Hl as (f & <- & Hf).
  destruct f as [|v0 r]; [inversion Ht|]. cbn [fan_triangles] in Ht. apply in_map_iff in Ht as ([a b] & E & Hab).
  apply pair_equal_spec in E as [E <-]. apply pair_equal_spec in E as [<- <-].
  rewrite pairs_combine in Hab.
  assert (Ha : In a r).
  { apply in_combine_l in Hab. clear -Hab. induction r as [|x r IH]; auto. destruct r; [inversion Hab|].
    destruct Hab as [<-|H]; simpl; auto. right; apply IH; auto. }
  assert (Hb : In b r) by (apply in_combine_r in Hab; destruct r; simpl in *; auto).
  repeat split; apply in_concat; exists (v0 :: r); simpl; auto.
Qed.

Theorem centroid_inside P a faces c : tet_centroid P a faces c ->
  (forall t, In t (triangles faces) -> (0 <= vol6 P a t)%R) \/ (forall t, In t (triangles faces) -> (vol6 P a t <= 0)%R) ->
  forall n k, (forall i, In i (concat faces) -> (dotv n (P i) <= k)%R) -> (dotv n a <= k)%R -> (dotv n c <= k)%R.
Proof.
  intros [HV Hc] Hs n k Hn Ha. set (V := rsum (map (vol6 P a) (triangles faces))) in *.
  assert (E : (4 * V * dotv n c = rsum (map (fun t => let '(u, v, w) := t in
     vol6 P a t * (dotv n (P u) + dotv n (P v) + dotv n (P w) + dotv n a)) (triangles faces)))%R).
  { unfold dotv at 1.
    replace (4 * V * _)%R with (coord 0 n * (4 * V * coord 0 c) + coord 1 n * (4 * V * coord 1 c) + coord 2 n * (4 * V * coord 2 c))%R by ring.
    rewrite !Hc by lia. rewrite <- !rsum_scale, <- !rsum_plus. apply rsum_ext. intros [[u v] w] _. unfold dotv. ring. }
  assert (Hb : forall u v w, In (u, v, w) (triangles faces) -> (dotv n (P u) + dotv n (P v) + dotv n (P w) + dotv n a <= 4 * k)%R).
  { intros u v w Ht. apply triangle_vertices in Ht as (A & B & C). apply Hn in A, B, C. lra. }
  assert (E4 : (4 * V * k = rsum (map (fun t => 4 * k * vol6 P a t) (triangles faces)))%R).
  { rewrite rsum_scale. unfold V. lra. }
  destruct Hs as [Hs|Hs].
  - assert (0 <= V)%R.
    { unfold V. replace 0%R with (rsum (map (fun _ : nat * nat * nat => 0%R) (triangles faces))).
      - apply rsum_le; auto.
      - clear. induction (triangles faces) as [|x l IH]; unfold rsum in *; simpl; [lra|rewrite IH; lra]. }
    assert (4 * V * dotv n c <= 4 * V * k)%R.
    { rewrite E, E4. apply rsum_le. intros [[u v] w] Ht. pose proof (Hs _ Ht). pose proof (Hb _ _ _ Ht). nra. }
    apply Rmult_le_reg_l with (4 * V)%R; lra.
  - assert (V <= 0)%R.
    { unfold V. replace 0%R with (rsum (map (fun _ : nat * nat * nat => 0%R) (triangles faces))).
      - apply rsum_le; auto.
      - clear. induction (triangles faces) as [|x l IH]; unfold rsum in *; simpl; [lra|rewrite IH; lra]. }
    assert (4 * V * k <= 4 * V * dotv n c)%R.
    { rewrite E, E4. apply rsum_le. intros [[u v] w] Ht. pose proof (Hs _ Ht). pose proof (Hb _ _ _ Ht). nra. }
    apply Rmult_le_reg_l with (-4 * V)%R; lra.
Qed.

Lemma gate_own version method v : version_of version v -> fst (fst v) < 10 -> snd (fst v) < 10 ->
  (gate version method = true <-> own_formula method v).
Proof.
  intros H Ha Hb. destruct v as [[a b] c]. destruct (gates _ _ _ _ H Ha Hb) as (G1 & G2 & G3). unfold gate, own_formula.
  destruct (String.eqb_spec method "box") as [->|Nb].
  - rewrite G1. split; [auto|]. intros [[_ E]|[[E _]|[E _]]]; auto; discriminate.
  - destruct (String.eqb_spec method "geometric") as [->|Ng].
    + rewrite G2. split; [auto|]. intros [[E _]|[[_ E]|[E _]]]; auto; discriminate.
    + destruct (String.eqb_spec method "tetra") as [->|Nt].
      * rewrite G3. split; [auto|]. intros [[E _]|[[E _]|[_ E]]]; auto; discriminate.
      * split; [discriminate|]. intros [[E _]|[[E _]|[E _]]]; congruence.
Qed.

Theorem centers_affine_all o a b c vtk version v method points m ghosts rows after : wf_mesh m ->
  length (v_locs m) = length (v_types m) ->
  version_of version v -> fst (fst v) < 10 -> snd (fst v) < 10 -> own_formula method v ->
  method = "geometric"%string \/ (method = "tetra"%string /\ det3 a b c <> 0%R) ->
  get_cell_centers vtk version (Some method) (UGrid m points) ghosts = (Ok rows, after) ->
  exists rows', get_cell_centers vtk version (Some method)
                  (UGrid m (map (affine_map o a b c) points)) ghosts = (Ok rows', after) /\
    forall i t r, nth_error (v_types m) i = Some t -> nth_error rows i = Some r ->
      nth_error rows' i = Some (if t =? 42 then option_map (affine_map o a b c) r else r).
Proof.
  intros W HL Hv Ha Hb Ho Hm H. destruct (centers_affine o a b c _ _ _ _ _ _ _ _ W HL Hm H) as (rows' & E & Hr).
  exists rows'; split; auto. apply Hr. apply (gate_own version method v); auto.
Qed.

Theorem centers_version vtk version v method points m ghosts rows after : wf_mesh m ->
  length (v_locs m) = length (v_types m) ->
  version_of version v -> fst (fst v) < 10 -> snd (fst v) < 10 ->
  get_cell_centers vtk version (Some method) (UGrid m points) ghosts = (Ok rows, after) ->
  exists cs, vtk = Ok cs /\
    forall i, nth_error (v_types m) i = Some 42 ->
      (own_formula method v -> exists c, nth_error rows i = Some c /\ method_center method points m i c) /\
      (~ own_formula method v -> exists c, vtk_center (v_types m) cs i c /\ nth_error rows i = Some (Some c)).
Proof.
  intros W HL Hv Ha Hb H. destruct (centers_spec _ _ _ _ _ _ _ _ W HL H) as (cs & E & _ & Hr).
  exists cs; split; auto. intros i Hi. specialize (Hr i 42 Hi). cbn [Nat.eqb andb] in Hr.
  pose proof (gate_own version method v Hv Ha Hb) as G. change ((42 =? 42) && gate version method) with (gate version method) in Hr.
  destruct (gate version method).
  - split; auto. intros Hn; exfalso; apply Hn, G; auto.
  - split; [intros Ho; apply G in Ho; discriminate|]. intros _. destruct Hr as [[E0 _]|[_ Hr]]; [discriminate|auto].
Qed.

Theorem centers_rows vtk version method points m ghosts rows after : wf_mesh m ->
  length (v_locs m) = length (v_types m) ->
  get_cell_centers vtk version (Some method) (UGrid m points) ghosts = (Ok rows, after) ->
  exists cs, vtk = Ok cs /\ length rows = length (v_types m) /\
    (forall i t, nth_error (v_types m) i = Some t -> t <> 42 ->
      (t = 0 /\ nth_error rows i = Some None) \/
      (t <> 0 /\ exists c, vtk_center (v_types m) cs i c /\ nth_error rows i = Some (Some c))) /\
    ((forall i, nth_error (v_types m) i = Some 42 ->
        exists c, nth_error rows i = Some c /\ method_center method points m i c) \/
     (forall i, nth_error (v_types m) i = Some 42 ->
        exists c, vtk_center (v_types m) cs i c /\ nth_error rows i = Some (Some c))).
Proof.
  intros W HL H. destruct (centers_spec _ _ _ _ _ _ _ _ W HL H) as (cs & E & Hl & Hr).
  exists cs; split; auto. split; auto. split.
  - intros i t Ht Hne. specialize (Hr i t Ht). apply Nat.eqb_neq in Hne. rewrite Hne in Hr; auto.
  - destruct (gate version method); [left|right]; intros i Hi; specialize (Hr i 42 Hi); cbn in Hr; auto.
    destruct Hr as [[E0 _]|[_ Hr]]; [discriminate|auto].
Qed.

Theorem centers_inside vtk version points m ghosts rows after i ids i0 a faces c : wf_mesh m ->
  length (v_locs m) = length (v_types m) ->
  version_of version (9, 5, 0) ->
  get_cell_centers vtk version (Some "tetra"%string) (UGrid m points) ghosts = (Ok rows, after) ->
  nth_error (v_types m) i = Some 42 -> nth_error (v_cells m) i = Some (i0 :: ids) ->
  nth_error points i0 = Some a -> poly_faces m i faces -> nth_error rows i = Some (Some c) ->
  (forall t, In t (triangles faces) -> (0 <= vol6 (at_pts points) a t)%R) \/
  (forall t, In t (triangles faces) -> (vol6 (at_pts points) a t <= 0)%R) ->
  forall n k, (forall j, In j (concat faces) -> (dotv n (at_pts points j) <= k)%R) -> (dotv n a <= k)%R ->
    (dotv n c <= k)%R.
Proof.
  intros W HL Hv H Ht Hids Ha (loc & Hloc & Hf) Hc Hs.
  destruct (centers_version _ _ _ _ _ _ _ _ _ W HL Hv ltac:(simpl; lia) ltac:(simpl; lia) H) as (cs & _ & Hr).
  destruct (Hr i Ht) as [H1 _]. destruct H1 as (c' & Hc' & Hm).
  { right; right; split; auto. unfold ver_le; lia. }
  rewrite Hc in Hc'. injection Hc' as <-. destruct Hm as (ids' & E & Hm). rewrite Hids in E. injection E as <-.
  destruct Hm as [[E _]|[[E _]|(_ & j0 & rest & a' & faces' & d & E1 & E2 & (loc' & E3 & E4) & E5 & E6)]]; try discriminate.
  injection E1 as <- <-. rewrite Ha in E2. injection E2 as <-. rewrite Hloc in E3. injection E3 as <-.
  injection E5 as <-.
  assert (faces' = faces) as ->.
  { clear -Hf E4. revert faces' E4. induction Hf as [|l f loc faces Hl Hf IH]; intros faces' H'; inversion H'; subst; auto.
    f_equal; [congruence|auto]. }
  apply centroid_inside with (P := at_pts points); auto.
Qed.
