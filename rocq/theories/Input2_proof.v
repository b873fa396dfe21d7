From Coq Require Import Reals Lra.
From Verif Require Import Prelude Grid Perc_model Perc_spec Perc_proof Surface_model Surface_spec Surface_proof Volume_model Volume_spec
  Ring_proof UVol_proof UVol2_proof UVol3_proof Polygon_model Polygon_spec Polygon4_proof Objects3_proof
  Input_model Input_spec.
Open Scope nat_scope.

(* ---- the default surface ---- *)
Lemma default_surface {D} areas plane r method (g : sgrid D) :
  StructuredSurface areas None None plane r method = Ok g ->
  exists perc ax bx, resolution_to_perc r method = Ok perc /\ plane_axes plane ax bx /\
    sg_dims g = grid_dims ax bx 2 (length perc) /\
    forall i j t, i <= 1 -> nth_error perc j = Some t ->
      at_coord (sg_dims g) (sg_pts g) (grid_coord ax bx i j) = Some (INR i, t, 0%R).
Proof.
  intros H. unfold StructuredSurface in H. apply surface_coords in H.
  destruct H as (pa & pb & perc & ax & bx & Ea & Eb & _ & Hp & Hpl & Hd & _ & Hat).
  apply Ok_inj in Ea, Eb. subst pa pb. exists perc, ax, bx.
  split; [exact Hp|]. split; [exact Hpl|]. split; [exact Hd|].
  intros i j t Hi Hj. destruct i as [|[|]]; try lia; erewrite Hat; try exact Hj; try reflexivity;
    unfold lerp, lerp1; cbn; f_equal; f_equal; try f_equal; ring.
Qed.

Lemma default_surface_defined {D} areas plane ax bx r method perc :
  plane_axes plane ax bx -> resolution_to_perc r method = Ok perc ->
  exists g : sgrid D, StructuredSurface areas None None plane r method = Ok g.
Proof.
  intros Hp E. unfold StructuredSurface, generate_surface_from_two_lines. cbn [get_points bind length Nat.eqb negb].
  rewrite E. cbn [bind]. destruct (surface_points_defined plane ax bx [(0, 0, 0); (1, 0, 0)]%R [(0, 1, 0); (1, 1, 0)]%R perc Hp) as ((d & p) & ->).
  cbn [bind]. eexists. reflexivity.
Qed.

(* ---- the half stadium ---- *)
Section Stadium.
Open Scope R_scope.

Definition crossing (p q r : R * R) : R :=
  (fst q - fst p) * (snd r - snd p) - (snd q - snd p) * (fst r - fst p).
Definition circ (t : R) : R * R := (cos t, sin t).

Lemma sin_pos x : 0 < x < PI -> 0 < sin x.
Proof. intros [H1 H2]. apply sin_gt_0; lra. Qed.

Lemma crossing_arc a b c : 0 <= a -> a < b -> b <= PI -> 0 <= c <= PI -> (c < a \/ b < c) ->
  0 < crossing (circ a) (circ b) (circ c).
Proof.
  intros Ha Hab Hb Hc Ho. unfold crossing, circ. cbn [fst snd].
  assert (E : (cos b - cos a) * (sin c - sin a) - (sin b - sin a) * (cos c - cos a) =
    4 * sin ((b - a) / 2) * (sin ((c - b) / 2) * sin ((c - a) / 2))).
  { replace ((cos b - cos a) * (sin c - sin a) - (sin b - sin a) * (cos c - cos a))
      with (sin (c - b) + sin (b - a) - sin (c - a)) by (rewrite !sin_minus; ring).
    set (y := (b - a) / 2). set (x := (c - b) / 2). replace ((c - a) / 2) with (x + y) by (unfold x, y; field).
    replace (c - b) with (2 * x) by (unfold x; field). replace (b - a) with (2 * y) by (unfold y; field).
    replace (c - a) with (2 * x + 2 * y) by (unfold x, y; field).
    rewrite !sin_plus, !sin_2a, !cos_2a_sin. ring. }
  rewrite E. apply Rmult_lt_0_compat; [apply Rmult_lt_0_compat; [lra|apply sin_pos; lra]|].
  destruct Ho as [Ho|Ho].
  - replace ((c - b) / 2) with (- ((b - c) / 2)) by field. replace ((c - a) / 2) with (- ((a - c) / 2)) by field.
    rewrite !sin_neg. assert (0 < sin ((b - c) / 2)) by (apply sin_pos; lra).
    assert (0 < sin ((a - c) / 2)) by (apply sin_pos; lra). nra.
  - apply Rmult_lt_0_compat; apply sin_pos; lra.
Qed.

Lemma crossing_right a b : 0 <= a -> a < b -> b <= PI -> 0 < crossing (circ a) (circ b) (1, -1).
Proof.
  intros Ha Hab Hb. unfold crossing, circ. cbn [fst snd].
  replace ((cos b - cos a) * (-1 - sin a) - (sin b - sin a) * (1 - cos a))
    with (cos a - cos b + (sin (b - a) - (sin b - sin a))) by (rewrite sin_minus; ring).
  set (h := (b - a) / 2). set (k := (a + b) / 2).
  assert (E : sin (b - a) - (sin b - sin a) = 2 * sin h * (cos h - cos k)).
  { replace (b - a) with (2 * h) by (unfold h; field). replace b with (k + h) by (unfold h, k; field).
    replace a with (k - h) by (unfold h, k; field). rewrite sin_2a, sin_plus, sin_minus. ring. }
  rewrite E. assert (0 < sin h) by (apply sin_pos; unfold h; lra).
  assert (cos k <= cos h) by (apply cos_decr_1; unfold h, k; lra).
  assert (cos b < cos a) by (apply cos_decreasing_1; lra). nra.
Qed.

Lemma crossing_left a b : 0 <= a -> a < b -> b <= PI -> 0 < crossing (circ a) (circ b) (-1, -1).
Proof.
  intros Ha Hab Hb. unfold crossing, circ. cbn [fst snd].
  replace ((cos b - cos a) * (-1 - sin a) - (sin b - sin a) * (-1 - cos a))
    with (cos a - cos b + (sin (b - a) + (sin b - sin a))) by (rewrite sin_minus; ring).
  set (h := (b - a) / 2). set (k := (a + b) / 2).
  assert (E : sin (b - a) + (sin b - sin a) = 2 * sin h * (cos h + cos k)).
  { replace (b - a) with (2 * h) by (unfold h; field). replace b with (k + h) by (unfold h, k; field).
    replace a with (k - h) by (unfold h, k; field). rewrite sin_2a, sin_plus, sin_minus. ring. }
  rewrite E. assert (0 < sin h) by (apply sin_pos; unfold h; lra).
  assert (cos (PI - h) <= cos k) by (apply cos_decr_1; unfold h, k; lra).
  rewrite cos_minus, cos_PI, sin_PI in *.
  assert (cos b < cos a) by (apply cos_decreasing_1; lra). nra.
Qed.

Variable m : nat.
Hypothesis Hm : (1 <= m)%nat.

(* the outline *)
Definition angle (k : nat) : R := INR k * PI / INR m.
Definition corner_at (i : nat) : R * R :=
  if (i =? 0)%nat then (1, -1) else if (i =? m + 2)%nat then (-1, -1) else circ (angle (i - 1)).

Lemma m_pos : 0 < INR m. Proof using Hm. apply lt_0_INR. lia. Qed.

Lemma angle_lt j k : (j < k)%nat -> angle j < angle k.
Proof using Hm.
  intros H%lt_INR. unfold angle, Rdiv. pose proof PI_RGT_0. pose proof (Rinv_0_lt_compat _ m_pos).
  apply Rmult_lt_compat_r; [assumption|]. apply Rmult_lt_compat_r; assumption.
Qed.
Lemma angle_0 : angle 0 = 0. Proof. unfold angle. cbn. unfold Rdiv. ring. Qed.
Lemma angle_m : angle m = PI. Proof using Hm. unfold angle. field. pose proof m_pos. lra. Qed.
Lemma angle_range k : (k <= m)%nat -> 0 <= angle k <= PI.
Proof using Hm.
  intros H. split.
  - destruct k; [rewrite angle_0; lra|]. rewrite <- angle_0. left. apply angle_lt. lia.
  - destruct (Nat.eq_dec k m) as [->|]; [rewrite angle_m; lra|]. rewrite <- angle_m. left. apply angle_lt. lia.
Qed.

Lemma outline_turn u v w : (u < m + 3)%nat -> (w < m + 3)%nat -> w <> u -> w <> v ->
  v = (u + 1)%nat /\ (u < m + 2)%nat \/ u = (m + 2)%nat /\ v = 0%nat ->
  0 < crossing (corner_at u) (corner_at v) (corner_at w).
Proof using Hm.
  intros Hu Hw N1 N2 Hv.
  assert (Hsin : forall k, (k <= m)%nat -> 0 <= sin (angle k)) by (intros k Hk; pose proof (angle_range k Hk); apply sin_ge_0; lra).
  destruct Hv as [(-> & Hu2)|(-> & ->)].
  - destruct (Nat.eq_dec u 0) as [->|U0]; [|destruct (Nat.eq_dec u (m + 1)) as [->|U1]].
    + assert (E1 : corner_at (0 + 1) = (1, 0)).
      { unfold corner_at. destruct (Nat.eqb_spec (0 + 1) 0); [lia|]. destruct (Nat.eqb_spec (0 + 1) (m + 2)); [lia|].
        cbn [Nat.add Nat.sub]. unfold circ. rewrite angle_0, cos_0, sin_0. reflexivity. }
      rewrite E1. unfold corner_at at 1. cbn [Nat.eqb]. unfold crossing. cbn [fst snd].
      unfold corner_at. destruct (Nat.eqb_spec w 0); [lia|]. destruct (Nat.eqb_spec w (m + 2)); cbn [fst snd circ]; [lra|].
      assert (cos (angle (w - 1)) < cos 0).
      { apply cos_decreasing_1; try lra; try apply angle_range; try (pose proof PI_RGT_0; lra); try lia.
        rewrite <- angle_0. apply angle_lt. lia. }
      rewrite cos_0 in *. lra.
    + assert (E1 : corner_at (m + 1) = (-1, 0)).
      { unfold corner_at. destruct (Nat.eqb_spec (m + 1) 0); [lia|]. destruct (Nat.eqb_spec (m + 1) (m + 2)); [lia|].
        replace (m + 1 - 1)%nat with m by lia. unfold circ. rewrite angle_m, cos_PI, sin_PI. reflexivity. }
      rewrite E1. assert (E2 : corner_at (m + 1 + 1) = (-1, -1)).
      { unfold corner_at. destruct (Nat.eqb_spec (m + 1 + 1) 0); [lia|]. destruct (Nat.eqb_spec (m + 1 + 1) (m + 2)); [reflexivity|lia]. }
      rewrite E2. unfold crossing. cbn [fst snd].
      unfold corner_at. destruct (Nat.eqb_spec w 0); cbn [fst snd]; [lra|]. destruct (Nat.eqb_spec w (m + 2)); cbn [fst snd circ]; [lia|].
      assert (cos PI < cos (angle (w - 1))).
      { apply cos_decreasing_1; try lra; try apply angle_range; try (pose proof PI_RGT_0; lra); try lia.
        rewrite <- angle_m. apply angle_lt. lia. }
      rewrite cos_PI in *. lra.
    + assert (E1 : corner_at u = circ (angle (u - 1))).
      { unfold corner_at. destruct (Nat.eqb_spec u 0); [lia|]. destruct (Nat.eqb_spec u (m + 2)); [lia|]. reflexivity. }
      assert (E2 : corner_at (u + 1) = circ (angle u)).
      { unfold corner_at. destruct (Nat.eqb_spec (u + 1) 0); [lia|]. destruct (Nat.eqb_spec (u + 1) (m + 2)); [lia|].
        do 2 f_equal. lia. }
      rewrite E1, E2. pose proof (angle_range (u - 1) ltac:(lia)). pose proof (angle_range u ltac:(lia)).
      pose proof (angle_lt (u - 1) u ltac:(lia)).
      unfold corner_at. destruct (Nat.eqb_spec w 0); [apply crossing_right; lra|].
      destruct (Nat.eqb_spec w (m + 2)); [apply crossing_left; lra|].
      pose proof (angle_range (w - 1) ltac:(lia)). apply crossing_arc; try lra.
      destruct (Nat.lt_ge_cases w u); [left|right]; apply angle_lt; lia.
  - assert (E1 : corner_at (m + 2) = (-1, -1)).
    { unfold corner_at. destruct (Nat.eqb_spec (m + 2) 0); [lia|]. rewrite Nat.eqb_refl. reflexivity. }
    rewrite E1. unfold corner_at at 1. cbn [Nat.eqb]. unfold crossing. cbn [fst snd].
    unfold corner_at. destruct (Nat.eqb_spec w 0); [lia|]. destruct (Nat.eqb_spec w (m + 2)); [lia|].
    cbn [fst snd circ]. pose proof (Hsin (w - 1)%nat ltac:(lia)). lra.
Qed.
End Stadium.

Lemma seq_ring n u v : In (u, v) (ring_edges (seq 0 (S n))) -> v = u + 1 /\ u < n \/ u = n /\ v = 0.
Proof.
  cbn [seq]. rewrite ring_edges_combine. change (0 :: seq 1 n) with (seq 0 (S n)). intros H.
  apply In_nth_error in H as [k Hk]. rewrite combine_nth_error in Hk.
  destruct (nth_error (seq 0 (S n)) k) eqn:E1; [|discriminate].
  destruct (nth_error (seq 1 n ++ [0]) k) eqn:E2; [|discriminate]. injection Hk as -> ->.
  assert (k < S n) by (rewrite <- (seq_length (S n) 0); apply nth_error_Some; congruence).
  rewrite (nth_error_nth' _ 0) in E1 by (rewrite seq_length; lia). rewrite seq_nth in E1 by lia. injection E1 as <-.
  destruct (Nat.eq_dec k n) as [->|].
  - rewrite nth_error_app2 in E2 by (rewrite seq_length; lia). rewrite seq_length, Nat.sub_diag in E2. injection E2 as <-. auto.
  - rewrite nth_error_app1 in E2 by (rewrite seq_length; lia). rewrite (nth_error_nth' _ 0) in E2 by (rewrite seq_length; lia).
    rewrite seq_nth in E2 by lia. injection E2 as <-. left. lia.
Qed.

Section Mesh.
Variable m : nat.
Hypothesis Hm : 1 <= m.

Definition outline_row (i : nat) : list R := let '(x, y) := corner_at m i in [x; y; 0%R].
Definition outline_pt (i : nat) : R * R * R := let '(x, y) := corner_at m i in (x, y, 0%R).

Lemma last_map_seq {A} (f : nat -> A) n d : last (map f (seq 0 (S n))) d = f n.
Proof. rewrite seq_S, map_app. cbn [map]. apply last_last. Qed.

Lemma outline_rows : stadium_outline (Z.of_nat m) = Ok (map outline_row (seq 0 (m + 3))).
Proof using Hm.
  unfold stadium_outline. destruct (Z.ltb_spec (Z.of_nat m + 1) 0); [lia|].
  replace (Z.to_nat (Z.of_nat m + 1)) with (S m) by lia.
  assert (E : map (fun t => [cos t; sin t; 0%R]) (map deg2rad (linspace 0 180 (S m))) =
              map (fun k => [cos (angle m k); sin (angle m k); 0%R]) (seq 0 (S m))).
  { unfold linspace. rewrite !map_map. apply map_ext. intros k. replace (S m - 1) with m by lia.
    replace (deg2rad (0 + INR k * ((180 - 0) / INR m))) with (angle m k); [reflexivity|].
    unfold deg2rad, angle. field. pose proof (m_pos m Hm). lra. }
  cbv zeta. rewrite E. set (f := fun k => [cos (angle m k); sin (angle m k); 0%R]).
  assert (Ef : map f (seq 0 (S m)) = f 0 :: map f (seq 1 m)) by reflexivity. rewrite Ef. cbv iota beta.
  rewrite <- Ef, last_map_seq. f_equal.
  replace (m + 3) with (S (S m + 1)) by lia. change (seq 0 (S (S m + 1))) with (0 :: seq 1 (S m + 1)). rewrite (seq_app (S m) 1 1), map_cons, map_app. f_equal; [|f_equal].
  - unfold f, outline_row, corner_at. cbn [Nat.eqb map2]. rewrite angle_0, cos_0, sin_0. f_equal; [ring|]. f_equal; [ring|]. f_equal; ring.
  - rewrite <- seq_shift, map_map. apply map_ext_in. intros k Hk. apply in_seq in Hk.
    unfold outline_row, corner_at. destruct (Nat.eqb_spec (S k) 0); [lia|]. destruct (Nat.eqb_spec (S k) (m + 2)); [lia|].
    cbn [Nat.sub]. rewrite Nat.sub_0_r. reflexivity.
  - cbn [map seq]. f_equal. unfold f, outline_row, corner_at. destruct (Nat.eqb_spec (1 + S m) 0); [lia|].
    destruct (Nat.eqb_spec (1 + S m) (m + 2)); [|lia]. cbn [map2]. rewrite (angle_m m Hm), cos_PI, sin_PI.
    f_equal; [ring|]. f_equal; [ring|]. f_equal; ring.
Qed.

Lemma outline_open : open_ring (map outline_row (seq 0 (m + 3))) /\ rows_of 3 (map outline_row (seq 0 (m + 3))).
Proof using Hm.
  split.
  - replace (m + 3) with (S (m + 2)) by lia. unfold open_ring. rewrite <- cons_seq. cbn [map].
    change (outline_row 0 :: map outline_row (seq 1 (m + 2))) with (map outline_row (seq 0 (S (m + 2)))).
    rewrite last_map_seq. unfold outline_row, corner_at. cbn [Nat.eqb]. destruct (Nat.eqb_spec (m + 2) 0); [lia|].
    rewrite Nat.eqb_refl. intros [= E]. lra.
  - apply Forall_forall. intros r [i [<- _]]%in_map_iff. unfold outline_row. destruct (corner_at m i). reflexivity.
Qed.

Lemma stadium_mesh gm result : exists v faces,
  half_stadium gm result true (Z.of_nat m) = Ok v /\
  decode (uv_types v) (uv_stream v) = Some [Poly faces] /\ length faces = m + 5 /\
  length (uv_pts v) = 2 * (m + 3) /\ Forall on_stadium (uv_pts v) /\
  closed_oriented faces /\ outward (at_pts (uv_pts v)) faces.
Proof using Hm.
  unfold half_stadium. rewrite outline_rows. cbn [bind]. destruct outline_open as [Ho Hr].
  rewrite (proj1 (polygon_one_cell gm result false None "gmsh" None _ Ho (or_introl eq_refl)) Hr). cbn [snd bind].
  rewrite map_length, seq_length.
  assert (EA : array_points (Arr2 3 (map outline_row (seq 0 (m + 3)))) = map outline_pt (seq 0 (m + 3))).
  { cbn [array_points]. rewrite map_map. apply map_ext. intros i. unfold outline_row, outline_pt.
    destruct (corner_at m i). reflexivity. }
  rewrite EA. set (base := map outline_pt (seq 0 (m + 3))).
  set (sa := mkUsurf base [(POLYGON, seq 0 (m + 3))] [] [] None).
  set (sb := mkUsurf (map (fun p => Stack_model.add3 p (0, 0, 1)%R) base) [(POLYGON, seq 0 (m + 3))] [] [] None).
  assert (LB : length base = m + 3) by (unfold base; now rewrite map_length, seq_length).
  assert (AT : forall i, i < m + 3 -> at_pts base i = outline_pt i).
  { intros i Hi. unfold at_pts, base. apply nth_error_nth. rewrite nth_error_map, (nth_error_nth' _ 0) by (rewrite seq_length; lia).
    rewrite seq_nth by lia. reflexivity. }
  assert (EP : resolution_to_perc ResNone None = Ok [0; 1]%R).
  { rewrite perc_none, (to_perc_closed 1 None Constant) by constructor. change (Z.to_nat (Z.max 1 1)) with 1. cbn. replace (0 / 1)%R with 0%R by field. replace (1 / 1)%R with 1%R by field. reflexivity. }
  assert (EV : exists v : uvol unit, generate_volume_unstructured sa sb ResNone None true = Ok v).
  { apply (uvol_defined sa sb ResNone None true [0; 1]%R); auto.
    - cbn. now rewrite map_length.
    - left; reflexivity.
    - intros ct ids [E|[]]. injection E as <- <-. right. right. left. split; [reflexivity|]. rewrite seq_length. lia.
    - intros k x [].
    - intros k x [].
    - intros g. discriminate. }
  destruct EV as [v EV]. exists v. 
  pose proof (uvol_layers sa sb ResNone None true v EV) as (perc & cells & Ep & _ & Hdec & Lc & Lv & Hpts & Hcell).
  rewrite EP in Ep. apply Ok_inj in Ep. subst perc. cbn [length us_cells sa Nat.sub Nat.mul Nat.add us_pts] in Lc, Lv.
  assert (Hring : forall x, In x (seq 0 (m + 3)) -> x < length (us_pts sa)) by (intros x Hx%in_seq; cbn; lia).
  destruct (convex_outward sa sb ResNone None v (0, 0, 1)%R 0 (seq 0 (m + 3)) [0; 1]%R EV EP) as (cells' & Hdec' & HC).
  - intros i j x y Hij Hx Hy. destruct i as [|[|i]], j as [|[|j]]; cbn in Hx, Hy; try lia; try (destruct i; discriminate); try (destruct j; discriminate).
    injection Hx as <-. injection Hy as <-. lra.
  - cbn [sb sa us_pts]. apply map_ext. intros [[x y] z]. reflexivity.
  - reflexivity.
  - apply seq_NoDup.
  - rewrite seq_length. lia.
  - exact Hring.
  - intros p q r w Hp Hq Hr0 Hw. apply in_seq in Hp, Hq, Hr0, Hw. cbn [sa us_pts]. rewrite !AT by lia. unfold outline_pt.
    destruct (corner_at m p), (corner_at m q), (corner_at m r), (corner_at m w). cbn. ring.
  - exists 1%R. split; [auto|]. intros a b c Hab Hc N1 N2. apply in_seq in Hc.
    assert (Ha : In a (seq 0 (m + 3)) /\ In b (seq 0 (m + 3))) by (apply ring_edges_in; exact Hab).
    destruct Ha as [Ha%in_seq Hb%in_seq]. unfold turn. cbn [sa us_pts]. rewrite !AT by lia.
    assert (HT : (0 < crossing (corner_at m a) (corner_at m b) (corner_at m c))%R).
    { apply outline_turn; auto; try lia. replace (m + 3) with (S (m + 2)) in Hab by lia. now apply seq_ring. }
    unfold outline_pt, crossing in *. destruct (corner_at m a), (corner_at m b), (corner_at m c). cbn in *. lra.
  - rewrite Hdec in Hdec'. injection Hdec' as <-.
    destruct (HC 0 ltac:(cbn; lia)) as (faces & Hf & Hco & Hout).
    exists faces. split; [exact EV|]. cbn [us_cells sa length Nat.mul Nat.add] in Hf.
    assert (cells = [Poly faces]) as ->.
    { destruct cells as [|c [|]]; cbn in Lc; try lia. cbn in Hf. congruence. }
    split; [exact Hdec|]. split; [|split; [cbn [us_pts sa] in *; lia|split; [|auto]]].
    + destruct (Hcell 0 0 (POLYGON, seq 0 (m + 3)) ltac:(cbn; lia) eq_refl) as (cell & E1 & E2 & _).
      cbn in E1. injection E1 as <-. inversion E2; subst. cbn [length]. rewrite map_length, ring_edges_length.
      match goal with H : _ \/ _ |- _ => destruct H as [->|[_ ->]] end; rewrite ?rev_length, seq_length; lia.
    + apply Forall_forall. intros p Hp. apply In_nth_error in Hp as [k Hk].
      assert (Hk' : k < length (uv_pts v)) by (apply nth_error_Some; congruence).
      assert (exists l i t, k = l * length (us_pts sa) + i /\ i < m + 3 /\ nth_error [0; 1]%R l = Some t /\ (t = 0 \/ t = 1)%R) as (l & i & t & -> & Hi & Ht & Ht').
      { cbn [us_pts sa]. rewrite LB. destruct (Nat.lt_ge_cases k (m + 3)).
        - exists 0, k, 0%R. repeat split; auto.
        - exists 1, (k - (m + 3)), 1%R. repeat split; auto; lia. }
      assert (Hn : nth_error base i = Some (outline_pt i)).
      { rewrite <- AT by lia. apply nth_error_nth'. lia. }
      rewrite (Hpts l i t (outline_pt i) (Stack_model.add3 (outline_pt i) (0, 0, 1)%R) Ht Hn) in Hk by (cbn [sb us_pts]; now rewrite nth_error_map, Hn).
      unfold outline_pt in Hk. destruct (corner_at m i) as [x y] eqn:Ec. cbn in Hk. injection Hk as <-.
      unfold on_stadium. split; [destruct Ht' as [->| ->]; [left|right]; ring|].
      unfold corner_at in Ec. destruct (Nat.eqb_spec i 0); [injection Ec as <- <-; right; split; ring|].
      destruct (Nat.eqb_spec i (m + 2)); [injection Ec as <- <-; right; split; ring|]. injection Ec as <- <-. left.
      pose proof (sin2_cos2 (angle m (i - 1))) as Hsc. unfold Rsqr in Hsc.
      pose proof (angle_range m Hm (i - 1) ltac:(lia)).
      assert (0 <= sin (angle m (i - 1)))%R by (apply sin_ge_0; lra).
      split; [|lra]. ring_simplify. ring_simplify in Hsc. lra.
Qed.
End Mesh.

Lemma stadium_bad gm result invert r : (r < 0)%Z -> exists e, half_stadium gm result invert r = Err e /\
  (e = if (r =? -1)%Z then IndexError else ValueError).
Proof.
  intros H. unfold half_stadium, stadium_outline. destruct (Z.ltb_spec (r + 1) 0); destruct (Z.eqb_spec r (-1)); try lia.
  - eexists. split; reflexivity.
  - subst r. cbn. eexists. split; reflexivity.
Qed.

Lemma perc_default : resolution_to_perc ResNone None = Ok [0; 1]%R.
Proof.
  rewrite perc_none, (to_perc_closed 1 None Constant) by constructor. change (Z.to_nat (Z.max 1 1)) with 1. cbn.
  replace (0 / 1)%R with 0%R by field. replace (1 / 1)%R with 1%R by field. reflexivity.
Qed.

Lemma stadium_zero gm result : half_stadium gm result true 0 = Err ValueError.
Proof.
  unfold half_stadium, stadium_outline. cbn [Z.add Z.ltb Z.compare]. change (Z.to_nat 1) with 1.
  unfold linspace. cbn [seq map bind last map2 app].
  set (t := deg2rad _). set (a := [(cos t + 0)%R; (sin t + -1)%R; (0 + 0)%R]). set (b := [cos t; sin t; 0%R]).
  unfold polygon, to_points. cbn [last]. rewrite (proj2 (row_eqb_spec a a) eq_refl). cbn [length a Nat.eqb mapM bind].
  cbn [String.eqb Ascii.eqb Bool.eqb snd removelast length seq bind array_points map].
  unfold generate_volume_unstructured. cbn [us_pts us_cells length map Nat.eqb negb forallb fst snd types_close].
  change (extruded_celltype POLYGON) with (Some POLYHEDRON). cbv iota. cbn [andb negb Nat.eqb POLYGON].
  rewrite perc_default. cbn [bind length Nat.sub Nat.eqb mapM].
  unfold extrude_cell at 1. change (extruded_celltype 7) with (Some POLYHEDRON). cbv iota.
  cbn [Nat.eqb POLYHEDRON VOXEL bind]. unfold polyhedron_faces. cbn [bind]. reflexivity.
Qed.
