From Coq Require Import Reals Lra.
From Verif Require Import Prelude Grid Perc_model Surface_model Volume_model Groups_model Lines_model Lines_spec Lines1_proof Polygon_model
  Voronoi_model Objects_model Objects_spec Objects3_proof Seeds_model Stack_model Trans_model Trans5_proof Trans6_proof
  Input_model Input_spec.
Open Scope nat_scope.

Lemma insert_two axis l : axis <= 2 -> length l = 2 ->
  exists x y z, insert_zero axis l = Ok [x; y; z] /\ described axis l (x, y, z).
Proof.
  intros Hax Hl. destruct l as [|u [|v [|]]]; cbn in Hl; try lia.
  destruct axis as [|[|[|]]]; try lia; cbn; eauto 10.
Qed.

Lemma check_ok axis a : axis <= 2 -> proper a -> point_shape a ->
  exists b, check_point_array axis a = Ok b /\ Forall2 (described axis) (rows_of_array a) (array_points b).
Proof.
  intros Hax Hp Hs. destruct a as [l|n rows|]; cbn in Hs; [| |contradiction]; unfold check_point_array.
  - destruct Hs as [Hl|Hl].
    + rewrite Hl. cbn [Nat.eqb]. destruct (insert_two axis l Hax Hl) as (x & y & z & -> & Hd).
      cbn [bind length Nat.eqb]. eexists. split; [reflexivity|]. cbn. auto.
    + rewrite Hl. cbn [Nat.eqb bind]. rewrite Hl. cbn [Nat.eqb]. eexists. split; [reflexivity|].
      destruct l as [|x [|y [|z [|]]]]; cbn in Hl; try lia. cbn. constructor; [|constructor]. left. reflexivity.
  - cbn in Hp. destruct Hs as [->| ->]; cbn [Nat.eqb].
    + assert (exists rows', mapM (insert_zero axis) rows = Ok rows' /\
        Forall2 (fun row r => exists x y z, r = [x; y; z] /\ described axis row (x, y, z)) rows rows') as (rows' & -> & HF).
      { induction Hp as [|r rows Hr Hp IH]; [exists []; split; [reflexivity|constructor]|].
        destruct IH as (rows' & E & HF). destruct (insert_two axis r Hax Hr) as (x & y & z & E1 & Hd).
        exists ([x; y; z] :: rows'). cbn. rewrite E1. cbn [bind]. rewrite E. split; [reflexivity|].
        constructor; eauto 6. }
      cbn [bind Nat.eqb]. eexists. split; [reflexivity|]. cbn [array_points rows_of_array].
      clear Hp. induction HF as [|r r' rows rows' (x & y & z & -> & Hd) HF IH]; constructor; auto.
    + cbn [bind Nat.eqb]. eexists. split; [reflexivity|]. cbn [array_points rows_of_array].
      induction Hp as [|r rows Hr Hp IH]; constructor; auto.
      destruct r as [|x [|y [|z [|]]]]; cbn in Hr; try lia. left. reflexivity.
Qed.

Lemma check_bad axis a : axis <= 2 -> ~ point_shape a -> check_point_array axis a = Err ValueError.
Proof.
  intros Hax Hs. destruct a as [l|n rows|]; cbn in Hs; [| |reflexivity]; unfold check_point_array.
  - destruct (Nat.eqb_spec (length l) 2); [tauto|]. cbn [bind]. destruct (Nat.eqb_spec (length l) 3); [tauto|]. reflexivity.
  - destruct (Nat.eqb_spec n 2); [tauto|]. cbn [bind]. destruct (Nat.eqb_spec n 3); [tauto|]. reflexivity.
Qed.

(* q is p in the plane *)
Lemma flatten_grounded axis p : axis <= 2 -> grounded axis p (flatten axis p).
Proof.
  intros Hax. destruct p as [[x y] z]. unfold grounded. split.
  - destruct axis as [|[|[|]]]; try lia; reflexivity.
  - intros i Hi Hn. destruct axis as [|[|[|]]]; try lia; destruct i as [|[|[|]]]; try lia; reflexivity.
Qed.

Lemma add_array_ok axis s a prio group : axis <= 2 -> proper a -> point_shape a ->
  exists it s', add_array axis s a prio group = (s', Ok tt) /\ s_items s' = s_items s ++ [it] /\ s_fuse s' = s_fuse s /\
    vi_prio it = prio /\ vi_group it = group /\ vi_poly it = true /\
    gm_cg (vi_mesh it) = None /\ gm_labels (vi_mesh it) = None /\
    Forall2 (fun row cell => exists p q, described axis row p /\ grounded axis p q /\ cell = [q])
      (rows_of_array a) (gm_cells (vi_mesh it)).
Proof.
  intros Hax Hp Hs. destruct (check_ok axis a Hax Hp Hs) as (b & E & HF). unfold add_array. rewrite E.
  eexists; eexists. split; [reflexivity|]. cbn. split; [reflexivity|]. repeat (split; [reflexivity|]).
  rewrite map_map. clear -HF Hax. induction HF as [|r p rows ps Hd HF IH]; constructor; auto.
  exists p, (flatten axis p). split; [exact Hd|]. split; [apply flatten_grounded; auto|reflexivity].
Qed.

Lemma add_mesh_item axis s m poly prio group : axis <= 2 ->
  exists it, s_items (add_mesh axis s m poly prio group) = s_items s ++ [it] /\
    s_fuse (add_mesh axis s m poly prio group) = s_fuse s /\
    vi_prio it = prio /\ vi_group it = group /\ vi_poly it = poly /\
    gm_cg (vi_mesh it) = gm_cg m /\ gm_labels (vi_mesh it) = gm_labels m /\
    Forall2 (Forall2 (grounded axis)) (gm_cells m) (gm_cells (vi_mesh it)).
Proof.
  intros Hax. eexists. cbn. repeat (split; [reflexivity|]).
  induction (gm_cells m) as [|c l IH]; constructor; auto.
  induction c; constructor; auto. apply flatten_grounded; auto.
Qed.

Lemma add_array_bad axis s a prio group : axis <= 2 -> ~ point_shape a ->
  add_array axis s a prio group = (s, Err ValueError).
Proof. intros Hax Hs. unfold add_array. now rewrite check_bad. Qed.

(* rows given one by one *)
Lemma add_points_rows axis s rows prio group : axis <= 2 ->
  (Forall (fun r => length r = 2 \/ length r = 3) rows -> exists it s', add_points axis s rows prio group = (s', Ok tt) /\
    s_items s' = s_items s ++ [it] /\ s_fuse s' = s_fuse s /\ vi_prio it = prio /\ vi_group it = group /\ vi_poly it = true /\
    gm_cg (vi_mesh it) = None /\ gm_labels (vi_mesh it) = None /\
    Forall2 (fun row cell => exists p q, described axis row p /\ grounded axis p q /\ cell = [q]) rows (gm_cells (vi_mesh it))) /\
  (~ Forall (fun r => length r = 2 \/ length r = 3) rows -> add_points axis s rows prio group = (s, Err ValueError)).
Proof.
  intros Hax.
  assert (HR : forall r, (length r = 2 \/ length r = 3) /\ (exists p, check_row axis r = Ok p /\ described axis r p) \/
                         ~ (length r = 2 \/ length r = 3) /\ check_row axis r = Err ValueError).
  { intros [|x [|y [|z [|w l]]]]; [right|right|left|left|right]; cbn [length check_row].
    - split; [lia|reflexivity].
    - split; [lia|reflexivity].
    - split; [lia|]. destruct axis as [|[|[|]]]; try lia; eexists; (split; [reflexivity|]); right; auto.
    - split; [lia|]. eexists. split; [reflexivity|]. left. reflexivity.
    - split; [lia|reflexivity]. }
  assert (HM : (Forall (fun r => length r = 2 \/ length r = 3) rows ->
       exists ps, mapM (check_row axis) rows = Ok ps /\ Forall2 (described axis) rows ps) /\
     (~ Forall (fun r => length r = 2 \/ length r = 3) rows -> mapM (check_row axis) rows = Err ValueError)).
  { induction rows as [|r rows [IH1 IH2]]; [split; [intros _; exists []; split; [reflexivity|constructor]|intros H; exfalso; apply H; constructor]|].
    cbn [mapM]. destruct (HR r) as [(Hr & p & E & Hd)|(Hr & E)]; rewrite E; cbn [bind].
    - split.
      + intros H. inversion H as [|? ? _ H2]; subst. destruct (IH1 H2) as (ps & -> & HF). cbn [bind].
        eexists. split; [reflexivity|]. constructor; auto.
      + intros H. rewrite IH2; [reflexivity|]. intros H2. apply H. constructor; auto.
    - split; [intros H; inversion H; tauto|reflexivity]. }
  unfold add_points. destruct HM as [HM1 HM2]. split.
  - intros H. destruct (HM1 H) as (ps & -> & HF). eexists; eexists. split; [reflexivity|]. cbn.
    split; [reflexivity|]. repeat (split; [reflexivity|]).
    rewrite map_map. clear -HF Hax. induction HF as [|r p rows ps Hd HF IH]; constructor; auto.
    exists p, (flatten axis p). split; [exact Hd|]. split; [apply flatten_grounded; auto|reflexivity].
  - intros H. now rewrite HM2.
Qed.

(* ---- base lines ---- *)
Lemma positions_spec {D} axis xs : axis <= 2 ->
  exists l : lmesh pt D, stack2d_line axis (inl xs) = Ok l /\ length (l_pts l) = length xs /\
    (forall k t, nth_error xs k = Some t -> exists p, nth_error (l_pts l) k = Some p /\ coordinate axis p = 0%R /\
       coordinate ((axis + 1) mod 3) p = t /\ coordinate ((axis + 2) mod 3) p = 0%R) /\
    (forall k, nth_error (l_cells l) k = if k + 1 <? length xs then Some [k; k + 1] else None) /\
    (axis = 2 -> l_pts l = map (documented axis) xs).
Proof.
  intros Hax. eexists. split; [reflexivity|]. cbn [positions_line l_pts l_cells].
  split; [apply map_length|]. split; [|split].
  - intros k t Hk. rewrite nth_error_map, Hk. eexists. split; [reflexivity|].
    destruct axis as [|[|[|]]]; try lia; cbn; auto.
  - intros k. unfold segments. rewrite map2_nth_error.
    destruct (Nat.ltb_spec (k + 1) (length xs)) as [H|H].
    + rewrite (nth_error_nth' _ 0) by (rewrite seq_length; lia). rewrite seq_nth by lia.
      destruct xs as [|x xs]; [cbn in H; lia|]. cbn [length seq tl] in *.
      rewrite (nth_error_nth' (seq 1 (length xs)) 0) by (rewrite seq_length; lia). rewrite seq_nth by lia.
      do 3 f_equal; lia.
    + destruct (nth_error (seq 0 (length xs)) k) eqn:E; [|reflexivity].
      assert (Ht : nth_error (tl (seq 0 (length xs))) k = None); [|rewrite Ht; reflexivity].
      apply nth_error_None. destruct xs as [|x xs]; [cbn; lia|]. cbn [length seq tl] in *. rewrite seq_length. lia.
  - intros ->. apply map_ext. intros t. reflexivity.
Qed.

Lemma positions_documented {D} axis xs (l : lmesh pt D) : axis < 2 -> stack2d_line axis (inl xs) = Ok l ->
  (exists t, In t xs /\ t <> 0%R) -> l_pts l <> map (documented axis) xs.
Proof.
  intros Hax [= <-] (t & Ht & H0) E. cbn [positions_line l_pts] in E.
  assert (H : pset ((axis + 1) mod 3) t origin = documented axis t).
  { induction xs as [|x xs IH]; [contradiction|]. cbn [map] in E. injection E as E1 E2.
    destruct Ht as [->|Ht]; auto. }
  destruct axis as [|[|]]; try lia; cbn in H; injection H; intros; lra.
Qed.

Lemma new_line_int {D} other (current : lmesh pt D) n p rest : l_pts current = p :: rest ->
  exists l : lmesh pt D, new_line other current (inl (Z.of_nat (S n))) = Ok l /\ length (l_pts l) = S (S n) /\
    (forall k P, nth_error (l_pts l) k = Some P ->
       along (l_pts current) (INR k / INR (S n) * polyline_length (l_pts current)) P) /\
    nth_error (l_pts l) 0 = Some p /\ nth_error (l_pts l) (S n) = Some (last (l_pts current) p) /\
    (forall k, nth_error (l_cells l) k = if k <? S n then Some [k; k + 1] else None).
Proof.
  intros E. assert (Hc : regular_count (l_pts current) (Some (Z.of_nat (S n))) = Z.of_nat (S n)).
  { unfold regular_count. destruct (Z.eqb_spec (Z.of_nat (S n)) 0); [lia|reflexivity]. }
  destruct (regular_ok other (l_pts current) (Some (Z.of_nat (S n))) n) as (pts & Ep & Lp & Ha); [rewrite E; discriminate|exact Hc|].
  destruct (regular_ends other (l_pts current) (Some (Z.of_nat (S n))) n p rest E Hc) as (pts' & Ep' & H0 & H1).
  rewrite Ep in Ep'. injection Ep' as <-.
  unfold new_line. rewrite Ep. cbn [bind].
  set (m := mkL pts [seq 0 (length pts)] [] []).
  assert (W : @wf_lines pt D m).
  { split; [|split]; cbn; try tauto. intros ids [<-|[]] i Hi. apply in_seq in Hi. lia. }
  destruct (base_line_defined m W) as (l & E1 & E2); [discriminate|]. exists l. split; [exact E2|].
  destruct (base_line_first m l E1) as (ids & Ei & HP & HC). cbn in Ei. injection Ei as <-.
  assert (EP : l_pts l = pts).
  { cbn [m l_pts] in HP. pose proof (picks_seq [] pts []) as HQ. cbn [app length] in HQ. rewrite app_nil_r in HQ.
    exact (picks_fun _ _ _ _ HP HQ). }
  rewrite EP. split; [exact Lp|]. split; [exact Ha|]. split; [exact H0|]. split; [exact H1|].
  intros k. rewrite HC, seq_length, Lp.
  destruct (Nat.ltb_spec (k + 1) (S (S n))), (Nat.ltb_spec k (S n)); try lia; reflexivity.
Qed.

Lemma new_line_bad {D} other (current : lmesh pt D) n : l_pts current = [] \/ (n < -1)%Z ->
  new_line other current (inl n) = Err ValueError.
Proof.
  intros H. unfold new_line. destruct (Z.eqb_spec n 0) as [->|Hn].
  - destruct H as [H|H]; [|lia]. unfold RegularLine. rewrite H. reflexivity.
  - unfold RegularLine. destruct (Z.eqb_spec n 0); [lia|]. destruct (Nat.eqb_spec (length (l_pts current)) 0); [reflexivity|].
    destruct (Z.ltb_spec (n + 1) 0); [reflexivity|]. destruct H as [H|H]; [rewrite H in *; cbn in *; lia|lia].
Qed.
