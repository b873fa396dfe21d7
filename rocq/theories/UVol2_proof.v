(* Orientation, input mesh, ghosts and data of unstructured volumes (C13-C16). *)
From Verif Require Import Perc_spec Perc_proof Surface_spec Surface_proof Volume_model Volume_spec
  Ring_proof UVol_proof.
Open Scope R_scope.

Definition scal (t : R) (d : vec) : vec := let '(x, y, z) := d in (t * x, t * y, t * z).

Section Outward.
Variables (a P : nat -> vec) (D : vec) (np l : nat) (t0 t1 : R) (ring : list nat).
Hypothesis Hnd : NoDup ring.
Hypothesis Hlen : (3 <= length ring)%nat.
Hypothesis Hr : forall x, In x ring -> (x < np)%nat.
Hypothesis HP0 : forall x, In x ring -> P (x + l * np)%nat = vadd (a x) (scal t0 D).
Hypothesis HP1 : forall x, In x ring -> P (x + S l * np)%nat = vadd (a x) (scal t1 D).
Hypothesis Ht : t0 < t1.
Hypothesis Hplanar : planar_ring a ring.
Hypothesis Hconv : forall u v w, In (u, v) (ring_edges ring) -> In w ring -> w <> u -> w <> v ->
  turn a D u v w < 0.

Lemma edge_neq u v : In (u, v) (ring_edges ring) -> u <> v.
Proof. intros H ->. eapply ring_edges_asym; eauto. Qed.

Lemma third u v : exists w, In w ring /\ w <> u /\ w <> v.
Proof.
  destruct ring as [|x [|y [|z r]]]; simpl in Hlen; try lia.
  inversion Hnd as [|? ? N1 N2]; subst. inversion N2 as [|? ? N3 N4]; subst.
  simpl in N1, N3.
  destruct (Nat.eq_dec x u), (Nat.eq_dec x v), (Nat.eq_dec y u), (Nat.eq_dec y v);
    subst; try (exists x; simpl; tauto); try (exists y; simpl; tauto);
    try (exists z; simpl; intuition congruence); tauto.
Qed.

Lemma turn_le u v w : In (u, v) (ring_edges ring) -> In w ring -> turn a D u v w <= 0.
Proof.
  intros H Hw. destruct (Nat.eq_dec w u) as [->|N1].
  { right. unfold turn. destruct (a u) as [[? ?] ?], (a v) as [[? ?] ?], D as [[? ?] ?]; simpl; ring. }
  destruct (Nat.eq_dec w v) as [->|N2].
  { right. unfold turn. destruct (a u) as [[? ?] ?], (a v) as [[? ?] ?], D as [[? ?] ?]; simpl; ring. }
  left; auto.
Qed.

Definition cellids := concat (prism true np l ring).

Lemma In_cellids w : In w cellids <->
  exists x, In x ring /\ (w = x + l * np \/ w = x + S l * np)%nat.
Proof.
  unfold cellids, prism; cbn [concat]. rewrite !in_app_iff. split.
  - intros [H|[H|H]].
    + apply lift_In in H as (x & Hx & ->); eauto.
    + apply in_rev in H. apply lift_In in H as (x & Hx & ->); eauto.
    + apply in_concat in H as (f & Hf & Hw). apply in_map_iff in Hf as ((u & v) & <- & Huv).
      apply ring_edges_in in Huv as [Hu Hv].
      destruct Hw as [<-|[<-|[<-|[<-|[]]]]]; eauto.
  - intros (x & Hx & [->| ->]).
    + left. unfold lift. apply (in_map (fun v => (v + l * np)%nat)); auto.
    + right; left. apply in_rev. rewrite rev_involutive.
      unfold lift. apply (in_map (fun v => (v + S l * np)%nat)); auto.
Qed.

Ltac vecs := repeat match goal with |- context [a ?x] => is_var x; destruct (a x) as [[? ?] ?] end;
  destruct D as [[? ?] ?]; cbn [vadd vsub scal det3].

Lemma same_layer t p q r w :
  det3 (vsub (vadd (a q) (scal t D)) (vadd (a p) (scal t D)))
       (vsub (vadd (a r) (scal t D)) (vadd (a p) (scal t D)))
       (vsub (vadd (a w) (scal t D)) (vadd (a p) (scal t D))) =
  det3 (vsub (a q) (a p)) (vsub (a r) (a p)) (vsub (a w) (a p)).
Proof. vecs; ring. Qed.

Lemma other_layer t t' p q r w :
  det3 (vsub (vadd (a q) (scal t D)) (vadd (a p) (scal t D)))
       (vsub (vadd (a r) (scal t D)) (vadd (a p) (scal t D)))
       (vsub (vadd (a w) (scal t' D)) (vadd (a p) (scal t D))) =
  det3 (vsub (a q) (a p)) (vsub (a r) (a p)) (vsub (a w) (a p)) + (t' - t) * turn a D p q r.
Proof. unfold turn. vecs; ring. Qed.

(* the four corners of a side face *)
Lemma side_val t u v w :
  det3 (vsub (vadd (a v) (scal t1 D)) (vadd (a u) (scal t1 D)))
       (vsub (vadd (a v) (scal t0 D)) (vadd (a u) (scal t1 D)))
       (vsub (vadd (a w) (scal t D)) (vadd (a u) (scal t1 D))) = (t1 - t0) * turn a D u v w /\
  det3 (vsub (vadd (a v) (scal t0 D)) (vadd (a v) (scal t1 D)))
       (vsub (vadd (a u) (scal t0 D)) (vadd (a v) (scal t1 D)))
       (vsub (vadd (a w) (scal t D)) (vadd (a v) (scal t1 D))) = (t1 - t0) * turn a D u v w /\
  det3 (vsub (vadd (a u) (scal t0 D)) (vadd (a v) (scal t0 D)))
       (vsub (vadd (a u) (scal t1 D)) (vadd (a v) (scal t0 D)))
       (vsub (vadd (a w) (scal t D)) (vadd (a v) (scal t0 D))) = (t1 - t0) * turn a D u v w /\
  det3 (vsub (vadd (a u) (scal t1 D)) (vadd (a u) (scal t0 D)))
       (vsub (vadd (a v) (scal t1 D)) (vadd (a u) (scal t0 D)))
       (vsub (vadd (a w) (scal t D)) (vadd (a u) (scal t0 D))) = (t1 - t0) * turn a D u v w.
Proof. unfold turn. repeat split; vecs; ring. Qed.

Lemma corner_ring p q r : corner ring p q r ->
  In p ring /\ In q ring /\ In r ring /\ turn a D p q r < 0.
Proof.
  intros [H1 H2]. pose proof (ring_edges_in _ _ _ H1) as [Hp Hq].
  pose proof (ring_edges_in _ _ _ H2) as [_ Hr'].
  do 3 (split; [auto|]). apply Hconv; auto.
  - intros ->. eapply ring_edges_asym; eauto.
  - intros ->. eapply edge_neq; eauto.
Qed.

Lemma corner_lift k p q r : corner (lift k np ring) p q r ->
  exists p0 q0 r0, corner ring p0 q0 r0 /\
    (p = p0 + k * np /\ q = q0 + k * np /\ r = r0 + k * np)%nat.
Proof.
  intros [H1 H2]. rewrite lift_edges in H1, H2.
  apply in_map_iff in H1 as ((p0 & q0) & [= <- <-] & H1).
  apply in_map_iff in H2 as ((q1 & r0) & [= E <-] & H2).
  assert (q1 = q0) as -> by lia. exists p0, q0, r0. split; [split; auto|]; auto.
Qed.

Lemma corner_rev f p q r : corner (rev f) p q r -> corner f r q p.
Proof.
  intros [H1 H2]. 
  apply (Permutation_in _ (ring_edges_rev f)) in H1. apply (Permutation_in _ (ring_edges_rev f)) in H2.
  apply in_map_iff in H1 as ((x & y) & [= <- <-] & H1).
  apply in_map_iff in H2 as ((x' & y') & [= <- <-] & H2). split; auto.
Qed.

Lemma turn_rev p q r : turn a D r q p = - turn a D p q r.
Proof. unfold turn; vecs; ring. Qed.

Lemma prism_outward : outward P (prism true np l ring).
Proof.
  intros f p q r Hf Hc. fold cellids.
  assert (forall x, In x ring -> In (x + l * np)%nat cellids) as HI0 by (intros; apply In_cellids; eauto).
  assert (forall x, In x ring -> In (x + S l * np)%nat cellids) as HI1 by (intros; apply In_cellids; eauto).
  destruct Hf as [<-|[<-|Hf]].
  - (* bottom *)
    apply corner_lift in Hc as (p0 & q0 & r0 & Hc & -> & -> & ->).
    apply corner_ring in Hc as (Hp & Hq & Hr0 & Hlt).
    rewrite !HP0 by auto. split.
    + intros w Hw. apply In_cellids in Hw as (x & Hx & [->| ->]).
      * rewrite HP0, same_layer, Hplanar by auto; lra.
      * rewrite HP1, other_layer, Hplanar by auto. nra.
    + exists (p0 + S l * np)%nat. split; [auto|]. rewrite HP1, other_layer, Hplanar by auto. nra.
  - (* top *)
    apply corner_rev, corner_lift in Hc as (p0 & q0 & r0 & Hc & -> & -> & ->).
    apply corner_ring in Hc as (Hp & Hq & Hr0 & Hlt).
    rewrite !HP1 by auto. rewrite <- (Ropp_involutive (turn a D p0 q0 r0)), <- turn_rev in Hlt. split.
    + intros w Hw. apply In_cellids in Hw as (x & Hx & [->| ->]).
      * rewrite HP0, other_layer, Hplanar by auto. nra.
      * rewrite HP1, same_layer, Hplanar by auto; lra.
    + exists (p0 + l * np)%nat. split; [auto|]. rewrite HP0, other_layer, Hplanar by auto. nra.
  - (* sides *)
    apply in_map_iff in Hf as ((u & v) & <- & Huv).
    pose proof (edge_neq _ _ Huv) as Hne. pose proof (ring_edges_in _ _ _ Huv) as [Hu Hv].
    pose proof (Hr _ Hu) as Lu. pose proof (Hr _ Hv) as Lv.
    assert (forall p q r, corner [u + S l * np; v + S l * np; v + l * np; u + l * np]%nat p q r ->
      ((p, q, r) = (u + S l * np, v + S l * np, v + l * np) \/
       (p, q, r) = (v + S l * np, v + l * np, u + l * np) \/
       (p, q, r) = (v + l * np, u + l * np, u + S l * np) \/
       (p, q, r) = (u + l * np, u + S l * np, v + S l * np))%nat) as H4.
    { clear - Lu Lv Hne. intros p q r [H1 H2]. rewrite quad_edges in H1, H2.
      assert (u + S l * np = u + l * np + np /\ v + S l * np = v + l * np + np)%nat as [E1 E2] by (simpl; lia).
      rewrite E1, E2 in *. clear E1 E2. set (k := (l * np)%nat) in *. clearbody k.
      cbn [In] in H1, H2.
      destruct H1 as [H1|[H1|[H1|[H1|[]]]]]; apply pair_equal_spec in H1 as [<- <-];
      destruct H2 as [H2|[H2|[H2|[H2|[]]]]]; apply pair_equal_spec in H2 as [E <-]; try lia; auto. }
    assert (forall w, In w cellids -> exists x t, In x ring /\ P w = vadd (a x) (scal t D)) as Hw'.
    { intros w Hw. apply In_cellids in Hw as (x & Hx & [->| ->]); eauto. }
    assert (forall x, In x ring -> (t1 - t0) * turn a D u v x <= 0) as Hle.
    { intros x Hx. pose proof (turn_le u v x Huv Hx). nra. }
    destruct (third u v) as (w3 & Hw3 & N1 & N2).
    assert ((t1 - t0) * turn a D u v w3 < 0) as Hst by (pose proof (Hconv u v w3 Huv Hw3 N1 N2); nra).
    apply H4 in Hc. destruct Hc as [[= -> -> ->]|[[= -> -> ->]|[[= -> -> ->]|[= -> -> ->]]]];
      rewrite ?HP0, ?HP1 by auto; (split;
      [intros w Hw; destruct (Hw' w Hw) as (x & t & Hx & ->);
       destruct (side_val t u v x) as (V1 & V2 & V3 & V4)
      |exists (w3 + l * np)%nat; split; [auto|]; rewrite HP0 by auto;
       destruct (side_val t0 u v w3) as (V1 & V2 & V3 & V4)]).
    all: rewrite ?V1, ?V2, ?V3, ?V4; auto.
Qed.
End Outward.

Lemma lerp_translate t p D : lerp t p (vadd p D) = vadd p (scal t D).
Proof.
  destruct p as [[x y] z], D as [[dx dy] dz]; unfold lerp, lerp1; cbn [vadd scal].
  f_equal; [f_equal|]; ring.
Qed.

Lemma convex_outward {A} (sa sb : usurf A) r m v D c ids perc :
  generate_volume_unstructured sa sb r m true = Ok v ->
  resolution_to_perc r m = Ok perc ->
  (forall i j x y, (i < j)%nat -> nth_error perc i = Some x -> nth_error perc j = Some y -> x < y) ->
  us_pts sb = map (fun p => vadd p D) (us_pts sa) ->
  nth_error (us_cells sa) c = Some (7%nat, ids) ->
  NoDup ids -> (3 <= length ids)%nat -> (forall x, In x ids -> (x < length (us_pts sa))%nat) ->
  planar_ring (at_pts (us_pts sa)) ids -> convex_ring (at_pts (us_pts sa)) D ids ->
  exists cells, decode (uv_types v) (uv_stream v) = Some cells /\
    forall l, (l < length perc - 1)%nat ->
      exists faces, nth_error cells (l * length (us_cells sa) + c) = Some (Poly faces) /\
        closed_oriented faces /\ outward (at_pts (uv_pts v)) faces.
Proof.
  intros Hg Hperc Hinc Hsb Hc Hnd Hlen Hr Hpl (s & Hs & Hcv).
  apply uvol_cells in Hg.
  destruct Hg as (perc' & cells & Hp & Hn & Hdec & _ & Hlv & Hpts & Hcells).
  assert (perc' = perc) as -> by congruence.
  exists cells; split; [auto|]. intros l Hl.
  destruct (Hcells l c _ Hl Hc) as (cell & Hcell & Hext & _ & ring & _ & _ & H7).
  cbn [fst snd] in H7. destruct (H7 eq_refl) as [-> Hpf]. clear H7.
  set (np := length (us_pts sa)) in *.
  assert (forall k t x, nth_error perc k = Some t -> In x ids ->
            at_pts (uv_pts v) (x + k * np)%nat = vadd (at_pts (us_pts sa) x) (scal t D)) as HP.
  { intros k t x Ht Hx. apply Hr in Hx. unfold at_pts.
    assert (nth_error (us_pts sa) x = Some (nth x (us_pts sa) (0,0,0))) as Ha by (apply nth_error_nth'; auto).
    apply nth_error_nth. rewrite (Nat.add_comm x).
    etransitivity; [apply (Hpts k x t _ (vadd (nth x (us_pts sa) (0,0,0)) D) Ht Ha)|].
    - rewrite Hsb. exact (map_nth_error (fun p => vadd p D) x (us_pts sa) Ha).
    - f_equal. apply lerp_translate. }
  destruct (nth_error perc l) as [t0|] eqn:Et0; [|apply nth_error_None in Et0; lia].
  destruct (nth_error perc (S l)) as [t1|] eqn:Et1; [|apply nth_error_None in Et1; lia].
  assert (t0 < t1) as Ht by (eapply (Hinc l (S l)); eauto; lia).
  exists (prism true np l ring). split; [auto|].
  (* the orientation test *)
  assert ((ring = ids /\ s = -1 \/ ring = rev ids /\ s = 1)) as Hring.
  { destruct (nth_error perc 0) as [z0|] eqn:E0; [|apply nth_error_None in E0; lia].
    destruct (nth_error perc 1) as [z1|] eqn:E1; [|apply nth_error_None in E1; lia].
    assert (z0 < z1) as Hz by (eapply (Hinc 0%nat 1%nat); eauto; lia).
    destruct ids as [|i0 [|i1 [|i2 ids']]]; cbn [length] in Hlen; try lia.
    unfold polyhedron_faces in Hpf.
    pose proof (HP 0%nat z0 i0 E0 ltac:(simpl; auto)) as P0.
    pose proof (HP 0%nat z0 i1 E0 ltac:(simpl; auto)) as P1.
    pose proof (HP 0%nat z0 i2 E0 ltac:(simpl; auto)) as P2.
    pose proof (HP 1%nat z1 i0 E1 ltac:(simpl; auto)) as P3.
    rewrite Nat.mul_0_l, Nat.add_0_r in P0, P1, P2. rewrite Nat.mul_1_l in P3.
    unfold at_pts in P0, P1, P2, P3. change (0, 0, 0) with origin in P0, P1, P2, P3.
        rewrite P0, P1, P2, P3 in Hpf.
    assert (0 < s * turn (at_pts (us_pts sa)) D i0 i1 i2) as Hturn.
    { inversion Hnd as [|? ? N1 N2]; subst. inversion N2 as [|? ? N3 N4]; subst. simpl in N1, N3.
      apply Hcv; [left; reflexivity|simpl; auto|intuition congruence|intuition congruence]. }
    match type of Hpf with context [Rleb 0 ?e] =>
      assert (e = (z1 - z0) * turn (at_pts (us_pts sa)) D i0 i1 i2) as Ee end.
    { unfold turn, at_pts. change (0, 0, 0) with origin.
      destruct (nth i0 (us_pts sa) origin) as [[? ?] ?], (nth i1 (us_pts sa) origin) as [[? ?] ?],
        (nth i2 (us_pts sa) origin) as [[? ?] ?], D as [[? ?] ?].
      cbn [vadd vsub scal det3 dot cross sub3]. ring. }
    rewrite Ee in Hpf. clear Ee.
    destruct (Rleb_spec 0 ((z1 - z0) * turn (at_pts (us_pts sa)) D i0 i1 i2)) as [Hle|Hle];
      unfold bind in Hpf; apply Ok_inj in Hpf; injection Hpf as <- _.
    - right; split; auto. destruct Hs as [->| ->]; auto. exfalso. nra.
    - left; split; auto. destruct Hs as [->| ->]; auto. exfalso. nra. }
  assert (NoDup ring /\ (3 <= length ring)%nat /\ (forall x, In x ring -> In x ids)) as (R1 & R2 & R3).
  { destruct Hring as [[-> _]|[-> _]]; [auto|].
    split; [apply NoDup_rev; auto|]. split; [rewrite rev_length; auto|]. intros; apply in_rev; auto. }
  split; [apply prism_closed_oriented; auto|].
  apply (prism_outward (at_pts (us_pts sa)) (at_pts (uv_pts v)) D np l t0 t1 ring); auto.
  - intros p q r' w Hp' Hq Hr' Hw. apply Hpl; auto.
  - intros u v' w Huv Hw N1 N2. destruct Hring as [[-> ->]|[-> ->]].
    + specialize (Hcv u v' w Huv Hw N1 N2). lra.
    + apply (Permutation_in _ (ring_edges_rev ids)) in Huv.
      apply in_map_iff in Huv as ((x & y) & [= <- <-] & Huv).
      specialize (Hcv x y w Huv (R3 _ Hw) N2 N1).
      assert (turn (at_pts (us_pts sa)) D y x w = - turn (at_pts (us_pts sa)) D x y w) as ->; [|lra].
      unfold turn. destruct (at_pts (us_pts sa) x) as [[? ?] ?], (at_pts (us_pts sa) y) as [[? ?] ?],
        (at_pts (us_pts sa) w) as [[? ?] ?], D as [[? ?] ?]; cbn [vsub det3]; ring.
Qed.
