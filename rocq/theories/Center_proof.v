(* Cell centers: proofs. *)
From Coq Require Import Reals Lra Ascii Permutation Psatz.
From Verif Require Import Center_model Volume_spec Topo_spec Topo2_proof Center_spec.
Open Scope nat_scope.

(* ---- sums ---- *)
Lemma rsum_app l m : rsum (l ++ m) = (rsum l + rsum m)%R.
Proof. induction l as [|x l IH]; simpl; [unfold rsum; simpl; lra|]. unfold rsum in *; simpl. rewrite IH; lra. Qed.

Lemma rsum_ext {A} (f g : A -> R) l : (forall x, In x l -> f x = g x) -> rsum (map f l) = rsum (map g l).
Proof. intros H; f_equal; apply map_ext_in; auto. Qed.

Lemma rsum_plus {A} (f g : A -> R) l : rsum (map (fun x => f x + g x)%R l) = (rsum (map f l) + rsum (map g l))%R.
Proof. induction l as [|x l IH]; unfold rsum in *; simpl; [lra|]. rewrite IH; lra. Qed.

Lemma rsum_scale {A} k (f : A -> R) l : rsum (map (fun x => k * f x)%R l) = (k * rsum (map f l))%R.
Proof. induction l as [|x l IH]; unfold rsum in *; simpl; [lra|]. rewrite IH; lra. Qed.

Lemma rsum_perm l m : Permutation l m -> rsum l = rsum m.
Proof. induction 1; unfold rsum in *; simpl in *; lra. Qed.

Lemma rsum_concat ls : rsum (concat ls) = rsum (map rsum ls).
Proof. induction ls as [|l ls IH]; simpl; auto. rewrite rsum_app, IH; auto. Qed.

(* ---- antisymmetric sums over balanced edges ---- *)
Lemma balanced_sum (E : nat -> nat -> R) faces : (forall u v, E u v = - E v u)%R -> balanced faces ->
  rsum (map (fun '(u, v) => E u v) (surface_edges faces)) = 0%R.
Proof.
  intros HE Hb. set (l := surface_edges faces).
  set (sw := fun '(u, v) => (v, u) : nat * nat).
  assert (Hp : Permutation l (map sw l)).
  { apply (Permutation_count_occ edge_dec). intros [u v]. specialize (Hb u v). unfold edge_count in Hb. fold l in Hb.
    rewrite Hb. clear. induction l as [|[a b] l IH]; auto. cbn [map count_occ sw].
    destruct (edge_dec (a, b) (v, u)) as [H|H], (edge_dec (b, a) (u, v)) as [H'|H'];
      [f_equal; exact IH| | |exact IH]; exfalso; congruence. }
  assert (E1 : rsum (map (fun '(u, v) => E u v) (map sw l)) = rsum (map (fun '(u, v) => E u v) l)).
  { apply rsum_perm, Permutation_map, Permutation_sym; auto. }
  rewrite map_map in E1.
  assert (E2 : rsum (map (fun x => let '(u, v) := sw x in E u v) l) = (-1 * rsum (map (fun '(u, v) => E u v) l))%R).
  { rewrite <- rsum_scale. apply rsum_ext. intros [u v] _; simpl. rewrite HE; lra. }
  rewrite E2 in E1. lra.
Qed.

Lemma pairs_cons {A} (x y : A) l : Volume_spec.pairs (x :: y :: l) = (x, y) :: Volume_spec.pairs (y :: l).
Proof. reflexivity. Qed.

Lemma fan_sum (E : nat -> nat -> R) f : (forall u v, E u v = - E v u)%R ->
  rsum (map (fun '(u, v, w) => E u v + E v w + E w u)%R (fan_triangles f)) =
  rsum (map (fun '(u, v) => E u v) (ring_edges f)).
Proof.
  intros HE. destruct f as [|v0 f]; auto. unfold fan_triangles, ring_edges.
  assert (E00 : forall u, E u u = 0%R) by (intros u; specialize (HE u u); lra).
  destruct f as [|v1 f]; [unfold rsum; simpl; rewrite E00; lra|].
  cbn [app]. rewrite (pairs_cons v0 v1). cbn [map].
  change (rsum ((E v0 v1) :: map (fun '(u, v) => E u v) (Volume_spec.pairs (v1 :: f ++ [v0])))) with
    (E v0 v1 + rsum (map (fun '(u, v) => E u v) (Volume_spec.pairs (v1 :: f ++ [v0]))))%R.
  revert v1; induction f as [|v2 f IH]; intros v1.
  - unfold rsum; simpl. rewrite (HE v1 v0); lra.
  - rewrite pairs_cons. cbn [map app]. rewrite (pairs_cons v1 v2). cbn [map].
    specialize (IH v2). unfold rsum in *; cbn [fold_right] in *. rewrite IH.
    rewrite (HE v2 v0). lra.
Qed.

Lemma triangles_sum (E : nat -> nat -> R) faces : (forall u v, E u v = - E v u)%R ->
  rsum (map (fun '(u, v, w) => E u v + E v w + E w u)%R (triangles faces)) =
  rsum (map (fun '(u, v) => E u v) (surface_edges faces)).
Proof.
  intros HE. unfold triangles, surface_edges. induction faces as [|f faces IH]; auto.
  simpl. rewrite !map_app, !rsum_app, IH, fan_sum; auto.
Qed.

(* ---- the apex does not matter ---- *)
Definition edge_part (P : nat -> vec) (a b : vec) (u v : nat) : R :=
  det3 (vsub (P u) a) (vsub (P v) a) (vsub b a).

Lemma edge_part_anti P a b u v : (edge_part P a b u v = - edge_part P a b v u)%R.
Proof.
  unfold edge_part, det3, vsub. destruct (P u) as [[? ?] ?], (P v) as [[? ?] ?], a as [[? ?] ?], b as [[? ?] ?]. ring.
Qed.

Lemma vol_apex P a b t : (vol6 P a t = vol6 P b t +
   (let '(u, v, w) := t in edge_part P a b u v + edge_part P a b v w + edge_part P a b w u))%R.
Proof.
  destruct t as [[u v] w]. unfold vol6, edge_part, det3, vsub.
  destruct (P u) as [[? ?] ?], (P v) as [[? ?] ?], (P w) as [[? ?] ?], a as [[? ?] ?], b as [[? ?] ?]. ring.
Qed.

Definition edge_moment (k : nat) P (a b : vec) (u v : nat) : R :=
  (edge_part P a b u v * (coord k (P u) + coord k (P v) + coord k a + coord k b))%R.

Definition moment (k : nat) (P : nat -> vec) (a : vec) (t : nat * nat * nat) : R :=
  let '(u, v, w) := t in (vol6 P a t * (coord k (P u) + coord k (P v) + coord k (P w) + coord k a))%R.

Lemma moment_apex k P a b t : k < 3 -> (moment k P a t = moment k P b t +
   (let '(u, v, w) := t in edge_moment k P a b u v + edge_moment k P a b v w + edge_moment k P a b w u))%R.
Proof.
  intros Hk. destruct t as [[u v] w]. unfold moment, vol6, edge_moment, edge_part, det3, vsub, coord.
  destruct (P u) as [[? ?] ?], (P v) as [[? ?] ?], (P w) as [[? ?] ?], a as [[? ?] ?], b as [[? ?] ?].
  destruct k as [|[|[|]]]; [ring|ring|ring|lia].
Qed.

Lemma volume_apex P a b faces : balanced faces ->
  rsum (map (vol6 P a) (triangles faces)) = rsum (map (vol6 P b) (triangles faces)).
Proof.
  intros H. rewrite (rsum_ext (vol6 P a) _ _ (fun t _ => vol_apex P a b t)).
  rewrite rsum_plus. 
  rewrite (triangles_sum (edge_part P a b)), balanced_sum; auto using edge_part_anti. lra.
Qed.

Lemma moments_apex k P a b faces : k < 3 -> balanced faces ->
  rsum (map (moment k P a) (triangles faces)) = rsum (map (moment k P b) (triangles faces)).
Proof.
  intros Hk H. rewrite (rsum_ext (moment k P a) _ _ (fun t _ => moment_apex k P a b t Hk)).
  rewrite rsum_plus.
  assert (forall u v, edge_moment k P a b u v = - edge_moment k P a b v u)%R.
  { intros u v; unfold edge_moment. rewrite edge_part_anti; lra. }
  rewrite (triangles_sum (edge_moment k P a b)), balanced_sum; auto. lra.
Qed.

(* ---- the code computes these sums ---- *)
Lemma fan_is f : fan f = fan_triangles f.
Proof.
  destruct f as [|v0 r]; auto. unfold fan, fan_triangles.
  rewrite pairs_combine.
  revert v0. induction r as [|x r IH]; intros v0; auto. destruct r as [|y r]; auto.
  simpl. f_equal. specialize (IH v0). simpl in IH. exact IH.
Qed.

Lemma fans_are faces : concat (map fan faces) = triangles faces.
Proof. unfold triangles; f_equal; apply map_ext, fan_is. Qed.

Lemma coord_sum3 k l : k < 3 -> coord k (sum3 l) = rsum (map (coord k) l).
Proof.
  intros Hk. unfold sum3. induction l as [|[[x y] z] l IH].
  - destruct k as [|[|[|]]]; reflexivity || lia.
  - cbn [fold_right map]. unfold rsum in *; cbn [fold_right]. rewrite <- IH.
    destruct (fold_right (map3 Rplus) (0%R, 0%R, 0%R) l) as [[? ?] ?].
    destruct k as [|[|[|]]]; reflexivity || lia.
Qed.

Lemma coord_scale3 k c p : coord k (scale3 c p) = (c * coord k p)%R.
Proof. destruct p as [[? ?] ?], k as [|[|]]; reflexivity. Qed.

Lemma coord_ext p q : (forall k, k < 3 -> coord k p = coord k q) -> p = q.
Proof.
  destruct p as [[? ?] ?], q as [[? ?] ?]; intros H.
  pose proof (H 0 ltac:(lia)); pose proof (H 1 ltac:(lia)); pose proof (H 2 ltac:(lia)); simpl in *; congruence.
Qed.

Definition tri_points (points : list vec) (t : nat * nat * nat) : res (vec * vec * vec) :=
  let '(a, b, c) := t in
  let! p := point_at points a in let! q := point_at points b in
  let! r := point_at points c in Ok (p, q, r).

Lemma point_at_Ok points i p : point_at points i = Ok p <-> nth_error points i = Some p.
Proof. unfold point_at. destruct (nth_error points i); split; intros H; congruence. Qed.

Lemma at_pts_nth points i p : nth_error points i = Some p -> at_pts points i = p.
Proof. intros H. unfold at_pts. apply nth_error_nth; auto. Qed.

Lemma tri_points_Ok points t x : tri_points points t = Ok x ->
  x = let '(a, b, c) := t in (at_pts points a, at_pts points b, at_pts points c).
Proof.
  destruct t as [[a b] c]. unfold tri_points.
  destruct (point_at points a) eqn:Ea; [|discriminate].
  destruct (point_at points b) eqn:Eb; [|discriminate].
  destruct (point_at points c) eqn:Ec; [|discriminate].
  apply point_at_Ok in Ea, Eb, Ec. cbn [bind]. intros H%Ok_inj.
  rewrite (at_pts_nth _ _ _ Ea), (at_pts_nth _ _ _ Eb), (at_pts_nth _ _ _ Ec); auto.
Qed.

Lemma tets_Ok points tris tets : mapM (tri_points points) tris = Ok tets ->
  tets = map (fun t => let '(a, b, c) := t in (at_pts points a, at_pts points b, at_pts points c)) tris.
Proof.
  intros H. apply mapM_Ok in H. induction H as [|t x tris tets Ht H IH]; auto.
  simpl. f_equal; auto. apply tri_points_Ok; auto.
Qed.

Definition volumes points (a : vec) (tris : list (nat * nat * nat)) : list R :=
  map (fun t => (vol6 (at_pts points) a t / 6)%R) tris.

Lemma volumes_are points a tets tris :
  tets = map (fun t => let '(a, b, c) := t in (at_pts points a, at_pts points b, at_pts points c)) tris ->
  map (fun t => let '(p, q, r) := t in tet_volume a p q r) tets = volumes points a tris.
Proof.
  intros ->. rewrite map_map. apply map_ext. intros [[u v] w]. unfold tet_volume, vol6, dot3, cross3, det3, vsub, map3.
  destruct (at_pts points u) as [[? ?] ?], (at_pts points v) as [[? ?] ?], (at_pts points w) as [[? ?] ?], a as [[? ?] ?].
  f_equal. 
Qed.

Lemma weighted_are k points a tets tris : k < 3 ->
  tets = map (fun t => let '(a, b, c) := t in (at_pts points a, at_pts points b, at_pts points c)) tris ->
  coord k (sum3 (map2 scale3 (volumes points a tris) (map (fun t => let '(p, q, r) := t in tet_mean a p q r) tets))) =
  (/ 24 * rsum (map (moment k (at_pts points) a) tris))%R.
Proof.
  intros Hk ->. rewrite coord_sum3 by auto. rewrite <- rsum_scale. f_equal.
  induction tris as [|[[u v] w] tris IH]; auto. unfold volumes in *. cbn [map map2]. f_equal; auto.
  rewrite coord_scale3. unfold tet_mean. rewrite coord_scale3. unfold moment.
  assert (E : forall p q, coord k (map3 Rplus p q) = (coord k p + coord k q)%R).
  { intros [[? ?] ?] [[? ?] ?]. destruct k as [|[|]]; reflexivity. }
  rewrite !E. field.
Qed.

Lemma rsum_volumes points a tris : fold_right Rplus 0%R (volumes points a tris) = (/ 6 * rsum (map (vol6 (at_pts points) a) tris))%R.
Proof. rewrite <- rsum_scale. unfold volumes, rsum. f_equal. apply map_ext; intros; lra. Qed.

(* tetra_center by cases *)
Lemma tetra_center_eq points i0 rest a faces tets : triangles faces <> [] ->
  nth_error points i0 = Some a -> mapM (tri_points points) (triangles faces) = Ok tets ->
  let V := rsum (map (vol6 (at_pts points) a) (triangles faces)) in
  (V = 0%R -> tetra_center points (i0 :: rest) faces = Err ZeroDivisionError) /\
  (V <> 0%R -> exists c, tetra_center points (i0 :: rest) faces = Ok c /\
     forall k, k < 3 -> (4 * V * coord k c = rsum (map (moment k (at_pts points) a) (triangles faces)))%R).
Proof.
  intros Hne Ha Ht V. unfold tetra_center. rewrite fans_are.
  assert (Hp : point_at points i0 = Ok a) by (apply point_at_Ok; auto).
  pose proof (tets_Ok _ _ _ Ht) as E.
  destruct (triangles faces) as [|t0 tris] eqn:Etri; [congruence|].
  rewrite Hp; cbn [bind].
  match goal with |- context [mapM ?f ?l] => change (mapM f l) with (mapM (tri_points points) l) end.
  rewrite Ht. cbn [bind]. unfold average. rewrite (volumes_are points a tets (t0 :: tris) E).
  rewrite rsum_volumes. fold V.
  destruct (Req_EM_T (/ 6 * V) 0) as [H0|H0]; split; intros HV.
  - auto.
  - exfalso; apply HV; lra.
  - exfalso; apply H0; rewrite HV; lra.
  - eexists; split; [reflexivity|]. intros k Hk. rewrite coord_scale3.
    rewrite (weighted_are k points a tets (t0 :: tris) Hk E). field. auto.
Qed.

Theorem tetra_apex points ids ids' faces i0 i1 rest rest' :
  ids = i0 :: rest -> ids' = i1 :: rest' -> i0 < length points -> i1 < length points -> balanced faces ->
  tetra_center points ids faces = tetra_center points ids' faces.
Proof.
  intros -> -> H0 H1 Hb.
  destruct (triangles faces) as [|t tris] eqn:Et.
  { unfold tetra_center. rewrite fans_are, Et; auto. }
  assert (Hne : triangles faces <> []) by congruence.
  destruct (nth_error points i0) as [a|] eqn:Ea; [|apply nth_error_None in Ea; lia].
  destruct (nth_error points i1) as [b|] eqn:Eb; [|apply nth_error_None in Eb; lia].
  destruct (mapM (tri_points points) (triangles faces)) as [tets|e] eqn:Em.
  2:{ unfold tetra_center. rewrite fans_are, Et. rewrite <- Et.
      assert (Pa : point_at points i0 = Ok a) by (apply point_at_Ok; auto).
      assert (Pb : point_at points i1 = Ok b) by (apply point_at_Ok; auto).
      rewrite Pa, Pb; cbn [bind].
      match goal with |- context [mapM ?f ?l] => change (mapM f l) with (mapM (tri_points points) l) end.
      rewrite Em; reflexivity. }
  destruct (tetra_center_eq points i0 rest a faces tets Hne Ea Em) as [A1 A2].
  destruct (tetra_center_eq points i1 rest' b faces tets Hne Eb Em) as [B1 B2].
  pose proof (volume_apex (at_pts points) a b faces Hb) as HV. rewrite <- HV in *.
  set (V := rsum (map (vol6 (at_pts points) a) (triangles faces))) in *.
  destruct (Req_EM_T V 0) as [H|H]; [rewrite A1, B1; auto|].
  destruct (A2 H) as (c & -> & Hc). destruct (B2 H) as (d & -> & Hd).
  f_equal. apply coord_ext. intros k Hk. specialize (Hc k Hk). specialize (Hd k Hk).
  rewrite (moments_apex k _ a b faces Hk Hb) in Hc. rewrite <- Hd in Hc.
  apply Rmult_eq_reg_l with (4 * V)%R; auto.
Qed.
