From Coq Require Import Reals Lra.
From Verif Require Import Prelude Grid Perc_model Perc_spec Perc_proof Surface_model Surface_spec Surface_proof Volume_model Volume_spec
  Ring_proof UVol_proof UVol2_proof UVol3_proof Polygon_model Polygon_spec Polygon4_proof Objects3_proof
  Input_model Input_spec Input2_proof Encl_spec Encl_proof Solid_model Solid_spec.
Open Scope R_scope.

Definition flat_pt (p : R * R) : R * R * R := (fst p, snd p, 0).

Lemma half_prism gm result invert r : half_stadium gm result invert r = (let! ps := stadium_outline r in polygon_prism gm result invert ps).
Proof. reflexivity. Qed.

Lemma flat_at (ps : list (R * R)) i d : (i < length ps)%nat -> at_pts (map flat_pt ps) i = flat_pt (nth i ps d).
Proof. intros H. unfold at_pts. rewrite (nth_indep _ _ (flat_pt d)) by now rewrite map_length. apply map_nth. Qed.

Lemma map_nth_seq {A} (l : list A) d : map (fun i => nth i l d) (seq 0 (length l)) = l.
Proof.
  apply nth_ext with (d := d) (d' := d); [now rewrite map_length, seq_length|]. intros i Hi. rewrite map_length, seq_length in Hi.
  rewrite (nth_indep _ d (nth 0 l d)) by now rewrite map_length, seq_length. rewrite (map_nth (fun i => nth i l d)), seq_nth by auto. reflexivity.
Qed.

Lemma flat_area ps h : area_along (at_pts (map flat_pt ps)) (0, 0, h) (seq 0 (length ps)) = h * (2 * shoelace ps).
Proof.
  destruct ps as [|d t]; [cbn; unfold shoelace; cbn; field|]. set (ps := d :: t).
  rewrite area_esum. unfold shoelace. replace (h * (2 * (_ / 2))) with (h * fold_right (fun e acc => fst (fst e) * snd (snd e) - fst (snd e) * snd (fst e) + acc) 0 (ring_edges ps)) by field.
  replace (ring_edges ps) with (ring_edges (map (fun i => nth i ps d) (seq 0 (length ps)))) by (now rewrite map_nth_seq). rewrite ring_edges_map.
  assert (K : forall es, (forall u v, In (u, v) es -> (u < length ps)%nat /\ (v < length ps)%nat) ->
    esum (fun u v => det3 (at_pts (map flat_pt ps) u) (at_pts (map flat_pt ps) v) (0, 0, h)) es =
    h * fold_right (fun e acc => fst (fst e) * snd (snd e) - fst (snd e) * snd (fst e) + acc) 0
          (map (fun e => (nth (fst e) ps d, nth (snd e) ps d)) es)).
  { unfold esum. induction es as [|[u v] es IH]; intros H; [cbn; ring|]. cbn [fold_right map fst snd].
    rewrite IH by (intros; apply H; right; auto). destruct (H u v (or_introl eq_refl)) as [Hu Hv]. rewrite (flat_at ps u d Hu), (flat_at ps v d Hv).
    unfold flat_pt. destruct (nth u ps d), (nth v ps d). cbn [det3 fst snd]. ring. }
  rewrite K.
  - reflexivity || (do 3 f_equal; apply map_ext; now intros [u v]).
  - intros u v H. apply ring_edges_in in H as [Hu%in_seq Hv%in_seq]. lia.
Qed.

Lemma prism_ok gm result p q r rest : let ps := p :: q :: r :: rest in
  p <> last ps p ->
  exists v faces, polygon_prism gm result true (flat_rows ps) = Ok v /\
    decode (uv_types v) (uv_stream v) = Some [Poly faces] /\ length faces = (length ps + 2)%nat /\
    uv_pts v = map (fun c => (fst c, snd c, 0)) ps ++ map (fun c => (fst c, snd c, 1)) ps /\
    closed_oriented faces /\
    (0 <= corner_turn p q r -> enclosed_volume (at_pts (uv_pts v)) faces = shoelace ps) /\
    (corner_turn p q r < 0 -> enclosed_volume (at_pts (uv_pts v)) faces = - shoelace ps).
Proof.
  intros ps Hopen. unfold polygon_prism.
  assert (Ho : open_ring (flat_rows ps)).
  { unfold open_ring, flat_rows, ps. cbn [map].
    assert (E : last (map (fun p => [fst p; snd p; 0]) ps) [fst p; snd p; 0] = [fst (last ps p); snd (last ps p); 0]).
    { clear. induction ps as [|a [|b l] IH]; [reflexivity|reflexivity|]. exact IH. }
    unfold ps in E at 1. cbn [map] in E. rewrite E. intros [= E1 E2]. apply Hopen. now apply injective_projections. }
  assert (Hr : rows_of 3 (flat_rows ps)) by (apply Forall_forall; intros x (y & <- & _)%in_map_iff; reflexivity).
  rewrite (proj1 (polygon_one_cell gm result false None "gmsh" None _ Ho (or_introl eq_refl)) Hr). cbn [snd bind].
  assert (EA : array_points (Arr2 3 (flat_rows ps)) = map flat_pt ps).
  { cbn [array_points]. unfold flat_rows. rewrite map_map. reflexivity. }
  rewrite EA. unfold flat_rows at 1 2. rewrite map_length.
  set (base := map flat_pt ps). set (n := length ps).
  set (sa := mkUsurf base [(POLYGON, seq 0 n)] [] [] None).
  set (sb := mkUsurf (map (fun p => Stack_model.add3 p (0, 0, 1)) base) [(POLYGON, seq 0 n)] [] [] None).
  assert (LB : length base = n) by (unfold base; now rewrite map_length).
  pose proof perc_default as EP.
  assert (EV : exists v : uvol unit, generate_volume_unstructured sa sb ResNone None true = Ok v).
  { apply (uvol_defined sa sb ResNone None true [0; 1]); auto.
    - cbn [sa sb us_pts]. now rewrite map_length.
    - left; reflexivity.
    - intros ct ids [E|[]]. injection E as <- <-. right. right. left. split; [reflexivity|]. change (3 <= length (seq 0 n))%nat. rewrite seq_length. unfold n, ps. cbn. lia.
    - intros k x [].
    - intros k x [].
    - intros g. discriminate. }
  destruct EV as [v EV]. exists v.
  pose proof (uvol_layers sa sb ResNone None true v EV) as (perc & cells & Ep & _ & Hdec & Lc & Lv & Hpts & Hcell).
  rewrite EP in Ep. apply Ok_inj in Ep. subst perc. cbn [length us_cells sa Nat.sub Nat.mul Nat.add us_pts] in Lc, Lv.
  destruct (enclosed sa sb ResNone None v (0, 0, 1) 0 0 1 2 (seq 3 (length rest)) [0; 1] EV EP) as (cells' & Hdec' & HC).
  - intros i j x y Hij Hx Hy. destruct i as [|[|i]], j as [|[|j]]; cbn in Hx, Hy; try lia; try (destruct i; discriminate); try (destruct j; discriminate).
    injection Hx as <-. injection Hy as <-. lra.
  - cbn [sb sa us_pts]. apply map_ext. intros [[x y] z]. reflexivity.
  - reflexivity.
  - apply (seq_NoDup n 0).
  - intros x Hx. change (In x (seq 0 n)) in Hx. apply in_seq in Hx. cbn [sa us_pts]. rewrite LB. lia.
  - intros i j k l Hi Hj Hk Hl. change (In i (seq 0 n)) in Hi. change (In j (seq 0 n)) in Hj. change (In k (seq 0 n)) in Hk. change (In l (seq 0 n)) in Hl.
    apply in_seq in Hi, Hj, Hk, Hl. cbn [sa us_pts]. unfold base. rewrite !(flat_at ps _ p) by (unfold n in *; lia). unfold flat_pt. cbn. ring.
  - rewrite Hdec in Hdec'. injection Hdec' as <-.
    destruct (HC 0%nat 0 1 eq_refl eq_refl) as (faces & Hf & Hco & H1 & H2).
    exists faces. split; [exact EV|]. cbn [us_cells sa length Nat.mul Nat.add] in Hf.
    assert (cells = [Poly faces]) as ->.
    { destruct cells as [|c [|]]; cbn in Lc; try lia. cbn in Hf. congruence. }
    split; [exact Hdec|]. split; [|split; [|split; [exact Hco|]]].
    + destruct (Hcell 0%nat 0%nat (POLYGON, seq 0 n) ltac:(cbn; lia) eq_refl) as (cell & E1 & E2 & _).
      cbn in E1. injection E1 as <-. inversion E2; subst. cbn [length]. rewrite map_length, ring_edges_length.
      match goal with H : _ \/ _ |- _ => destruct H as [->|[_ ->]] end; rewrite ?rev_length; pose proof (seq_length n 0) as Hs; unfold n, ps in *; cbn [length seq] in *; lia.
    + assert (LV : length (uv_pts v) = (n + n)%nat) by lia. apply nth_error_ext. intros k.
      destruct (Nat.lt_ge_cases k n) as [Hk|Hk]; [|destruct (Nat.lt_ge_cases k (n + n)) as [Hk'|Hk']].
      * rewrite nth_error_app1 by (rewrite map_length; exact Hk). rewrite nth_error_map.
        destruct (nth_error ps k) as [c|] eqn:Ec; [|apply nth_error_None in Ec; unfold n in *; lia].
        rewrite (Hpts 0%nat k 0 (flat_pt c) (vadd (flat_pt c) (0, 0, 1)) eq_refl) ||
        (replace k with (0 * length (us_pts sa) + k)%nat by lia; rewrite (Hpts 0%nat k 0 (flat_pt c) (vadd (flat_pt c) (0, 0, 1)) eq_refl)).
        -- cbn [option_map]. f_equal. unfold flat_pt. cbn [vadd]. repeat f_equal; ring.
        -- cbn [sa us_pts]. unfold base. now rewrite nth_error_map, Ec.
        -- cbn [sb us_pts]. unfold base. rewrite !nth_error_map, Ec. reflexivity.
      * rewrite nth_error_app2 by (rewrite map_length; exact Hk). rewrite nth_error_map, map_length. fold n.
        destruct (nth_error ps (k - n)) as [c|] eqn:Ec; [|apply nth_error_None in Ec; unfold n in *; lia].
        replace k with (1 * length (us_pts sa) + (k - n))%nat at 1 by (cbn [sa us_pts]; rewrite LB; lia).
        rewrite (Hpts 1%nat (k - n)%nat 1 (flat_pt c) (vadd (flat_pt c) (0, 0, 1)) eq_refl).
        -- cbn [option_map]. f_equal. unfold flat_pt. cbn [vadd]. repeat f_equal; ring.
        -- cbn [sa us_pts]. unfold base. now rewrite nth_error_map, Ec.
        -- cbn [sb us_pts]. unfold base. rewrite !nth_error_map, Ec. reflexivity.
      * rewrite !(proj2 (nth_error_None _ _)); [reflexivity| |lia]. rewrite app_length, !map_length. exact Hk'.
    + assert (ET : turn (at_pts (us_pts sa)) (0, 0, 1) 0 1 2 = corner_turn p q r).
      { unfold turn, corner_turn, at_pts, sa, base, ps. cbn. ring. }
      assert (EAr : area_along (at_pts (us_pts sa)) (0, 0, 1) (seq 0 n) = 2 * shoelace ps).
      { unfold sa, base, n. cbn [us_pts]. rewrite flat_area. ring. }
      change (0 :: 1 :: 2 :: seq 3 (length rest))%nat with (seq 0 n) in H1, H2. rewrite ET, EAr in H1, H2.
      split; intros HT; [rewrite (H1 HT)|rewrite (H2 HT)]; field.
Qed.

Definition esh (l : list ((R * R) * (R * R))) : R :=
  fold_right (fun e acc => fst (fst e) * snd (snd e) - fst (snd e) * snd (fst e) + acc) 0 l.
Lemma esh_app l m : esh (l ++ m) = esh l + esh m.
Proof. unfold esh. induction l as [|e l IH]; cbn [app fold_right]; lra. Qed.
Lemma esh_steps g s : (forall k, fst (g k) * snd (g (S k)) - fst (g (S k)) * snd (g k) = s) ->
  forall n a, esh (pairs (map g (seq a (S n)))) = INR n * s.
Proof.
  intros H. induction n as [|n IH]; intros a; [cbn; ring|]. change (seq a (S (S n))) with (a :: S a :: seq (S (S a)) n).
  cbn [map]. rewrite pairs_cons. unfold esh. cbn [fold_right fst snd]. fold (esh (pairs (g (S a) :: map g (seq (S (S a)) n)))).
  change (g (S a) :: map g (seq (S (S a)) n)) with (map g (seq (S a) (S n))). rewrite IH, H, S_INR. ring.
Qed.

Lemma stadium_corners m : (1 <= m)%nat ->
  map (corner_at m) (seq 0 (m + 3)) = (1, -1) :: map (fun k => circ (angle m k)) (seq 0 (S m)) ++ [(-1, -1)].
Proof.
  intros Hm. replace (m + 3)%nat with (S (S m + 1)) by lia. change (seq 0 (S (S m + 1))) with (0%nat :: seq 1 (S m + 1)).
  rewrite (seq_app (S m) 1 1), map_cons, map_app. f_equal. f_equal.
  - rewrite <- seq_shift, map_map. apply map_ext_in. intros k Hk. apply in_seq in Hk. unfold corner_at.
    destruct (Nat.eqb_spec (S k) 0); [lia|]. destruct (Nat.eqb_spec (S k) (m + 2)); [lia|]. cbn [Nat.sub]. now rewrite Nat.sub_0_r.
  - cbn [map seq]. unfold corner_at. destruct (Nat.eqb_spec (1 + S m) 0); [lia|]. destruct (Nat.eqb_spec (1 + S m) (m + 2)); [reflexivity|lia].
Qed.

Lemma stadium_area m : (1 <= m)%nat -> shoelace (map (corner_at m) (seq 0 (m + 3))) = 2 + INR m / 2 * sin (PI / INR m).
Proof.
  intros Hm. rewrite (stadium_corners m Hm). set (g := fun k => circ (angle m k)). unfold shoelace. fold (esh (ring_edges ((1, -1) :: map g (seq 0 (S m)) ++ [(-1, -1)]))).
  pose proof (m_pos m Hm) as Hp. cbn [ring_edges].
  assert (G0 : g 0%nat = (1, 0)) by (unfold g, circ; rewrite angle_0, cos_0, sin_0; reflexivity).
  assert (Gm : g m = (-1, 0)) by (unfold g, circ; rewrite (angle_m m Hm), cos_PI, sin_PI; reflexivity).
  replace ((map g (seq 0 (S m)) ++ [(-1, -1)]) ++ [(1, -1)]) with (g 0%nat :: map g (seq 1 m) ++ [(-1, -1); (1, -1)]) by (cbn [seq map]; rewrite <- app_assoc; reflexivity).
  rewrite pairs_cons. change (g 0%nat :: map g (seq 1 m) ++ [(-1, -1); (1, -1)]) with (map g (seq 0 (S m)) ++ [(-1, -1); (1, -1)]).
  assert (Es : map g (seq 0 (S m)) = map g (seq 0 m) ++ [g m]) by (rewrite seq_S, map_app; reflexivity).
  rewrite Es, <- app_assoc. cbn [app]. rewrite pairs_app, <- Es.
  assert (ES : esh (pairs (map g (seq 0 (S m)))) = INR m * sin (PI / INR m)).
  { apply esh_steps. intros k. unfold g, circ. cbn [fst snd]. replace (PI / INR m) with (angle m (S k) - angle m k); [rewrite sin_minus; ring|].
    unfold angle. rewrite S_INR. field. lra. }
  change ((1, -1, g 0%nat) :: pairs (map g (seq 0 (S m))) ++ pairs [g m; (-1, -1); (1, -1)])
    with ([((1, -1), g 0%nat)] ++ (pairs (map g (seq 0 (S m))) ++ pairs [g m; (-1, -1); (1, -1)])).
  rewrite !esh_app, ES, G0, Gm. unfold esh. cbn [pairs fold_right fst snd]. field.
Qed.

Lemma stadium_volume gm result m : (1 <= m)%nat -> exists v faces,
  half_stadium gm result true (Z.of_nat m) = Ok v /\ decode (uv_types v) (uv_stream v) = Some [Poly faces] /\
  enclosed_volume (at_pts (uv_pts v)) faces = 2 + INR m / 2 * sin (PI / INR m).
Proof.
  intros Hm. rewrite half_prism, (outline_rows m Hm). cbn [bind].
  assert (E : map (outline_row m) (seq 0 (m + 3)) = flat_rows (map (corner_at m) (seq 0 (m + 3)))).
  { unfold flat_rows. rewrite map_map. apply map_ext. intros i. unfold outline_row. now destruct (corner_at m i). }
  rewrite E, <- (stadium_area m Hm), (stadium_corners m Hm). destruct m as [|m]; [lia|]. cbn [seq map app].
  set (n := S m) in *. set (rest := map (fun k => circ (angle n k)) (seq 2 m) ++ [(-1, -1)]).
  destruct (prism_ok gm result (1, -1) (circ (angle n 0)) (circ (angle n 1)) rest) as (v & faces & Hv & Hd & _ & _ & _ & H1 & _).
  - unfold rest. change ((1, -1) :: circ (angle n 0) :: circ (angle n 1) :: map (fun k => circ (angle n k)) (seq 2 m) ++ [(-1, -1)])
      with (((1, -1) :: circ (angle n 0) :: circ (angle n 1) :: map (fun k => circ (angle n k)) (seq 2 m)) ++ [(-1, -1)]).
    rewrite last_last. intros [= K]. lra.
  - exists v, faces. split; [exact Hv|]. split; [exact Hd|]. apply H1. unfold corner_turn, circ. rewrite angle_0, cos_0, sin_0. cbn [fst snd].
    pose proof (COS_bound (angle n 1)). lra.
Qed.
