(* Planes added to stacks and centers of extruded items, with the vectors of Vec_spec. *)
From Verif Require Import RealAux Perc_model Surface_model Volume_model Stack_model Stack_spec Vec_spec Stack_proof Stack4_proof Stack5_proof Stack7_proof.
From Coq Require Import Lra Psatz.
Open Scope R_scope.

Lemma xyz_pget k p : xyz k p = pget k p.
Proof. reflexivity. Qed.

Lemma center_middle p ps : box_middle (p :: ps) (center (p :: ps)).
Proof.
  intros k Hk. change (xyz k (center (p :: ps))) with (pget k (center (p :: ps))). rewrite pget_center by exact Hk. unfold mid.
  destruct (rmin_le (map (pget k) (p :: ps)) (pget k p)) as [_ A].
  destruct (rmax_ge (map (pget k) (p :: ps)) (pget k p)) as [_ B].
  pose proof (rmin_in (map (pget k) (p :: ps)) (pget k p)) as A'.
  pose proof (rmax_in (map (pget k) (p :: ps)) (pget k p)) as B'.
  assert (A2 : In (rmin (map (pget k) (p :: ps)) (pget k p)) (map (pget k) (p :: ps))) by (destruct A' as [<-|A']; [now left|exact A']).
  assert (B2 : In (rmax (map (pget k) (p :: ps)) (pget k p)) (map (pget k) (p :: ps))) by (destruct B' as [<-|B']; [now left|exact B']).
  apply in_map_iff in A2 as (a & Ea & Ia). apply in_map_iff in B2 as (b & Eb & Ib).
  exists a, b. split; [exact Ia|]. split; [exact Ib|]. change xyz with pget. rewrite Ea, Eb. split; [reflexivity|].
  intros r Hr. pose proof (A (pget k r) (in_map _ _ _ Hr)). pose proof (B (pget k r) (in_map _ _ _ Hr)). lra.
Qed.

Lemma middle_unique l m m' : box_middle l m -> box_middle l m' -> m = m'.
Proof.
  intros H H'.
  assert (K : forall k, (k <= 2)%nat -> xyz k m = xyz k m').
  { intros k Hk. destruct (H k Hk) as (p & q & Hp & Hq & E & B). destruct (H' k Hk) as (p' & q' & Hp' & Hq' & E' & B').
    pose proof (B p' Hp'). pose proof (B q' Hq'). pose proof (B' p Hp). pose proof (B' q Hq). lra. }
  pose proof (K 0%nat ltac:(lia)). pose proof (K 1%nat ltac:(lia)). pose proof (K 2%nat ltac:(lia)).
  destruct m as [[? ?] ?], m' as [[? ?] ?]. cbn in *. congruence.
Qed.

Lemma extrude_add_middle ds da last vx vy vz s q c :
  last <> [] -> da = None -> box_middle last c ->
  extrude_add ds da last [vx; vy; vz] s None = Ok q ->
  box_middle q (vplus c (vx, vy, vz)) /\
  exists f, (match s with Some f' => f = f' | None => match ds with Some f' => f = f' | None => f = 1 end end) /\
    length q = length last /\
    forall k p, nth_error last k = Some p ->
      nth_error q k = Some (vplus (vplus c (vx, vy, vz)) (vtimes f (vminus p c))).
Proof.
  intros Hne Hda Hc H. destruct (extrude_add_points ds da last vx vy vz s q Hne Hda H) as (E & f & Hf & L & HP).
  destruct last as [|p0 last]; [congruence|]. destruct q as [|q0 q]; [discriminate|].
  rewrite (middle_unique _ _ _ Hc (center_middle p0 last)). split.
  - change vplus with add3. rewrite <- E. apply center_middle.
  - exists f. auto.
Qed.

(* the three axes in cyclic order *)
Lemma plane_law ax i j angles point x y z :
  In (ax, i, j) [(0, 1, 2); (1, 2, 0); (2, 0, 1)]%nat ->
  let w := sqrt (xyz i angles * xyz i angles + xyz j angles * xyz j angles) in
  (w = 0 -> plane_func ax angles point x y z = xyz ax point) /\
  w * (plane_func ax angles point x y z - xyz ax point) =
    sin (w * PI / 180) * (xyz j angles * (xyz i (x, y, z) - xyz i point) - xyz i angles * (xyz j (x, y, z) - xyz j point)).
Proof.
  intros Hin w.
  assert (Hn : Stack_model.norm (pset ax 0 angles) = w).
  { unfold w, Stack_model.norm. f_equal. destruct angles as [[a b] c].
    destruct Hin as [E|[E|[E|[]]]]; injection E as <- <- <-; cbn; ring. }
  unfold plane_func, rotvec_inv. rewrite Hn. clearbody w. destruct (Req_EM_T w 0) as [->|E].
  - split.
    + intros _. destruct angles as [[a b] c], point as [[px py] pz].
      destruct Hin as [E|[E|[E|[]]]]; injection E as <- <- <-; cbn; ring.
    + replace (0 * PI / 180) with 0 by field. rewrite sin_0. ring.
  - split; [contradiction|]. unfold unit_of. rewrite Hn. replace (w * PI / 180) with (deg2rad w) by (unfold deg2rad; field).
    set (th := deg2rad w). clearbody th. destruct angles as [[a b] c], point as [[px py] pz].
    destruct Hin as [E'|[E'|[E'|[]]]]; injection E' as <- <- <-; cbn; rewrite sin_neg, cos_neg; field; exact E.
Qed.

Lemma add_plane_slope {M B} (ops : mesh_ops M B) (Hops : lawful ops) ax i j bu interp st nd angles point ao st' ang' :
  In (ax, i, j) [(0, 1, 2); (1, 2, 0); (2, 0, 1)]%nat ->
  add_plane ops ax bu interp st nd angles point ao = Ok (st', ang') ->
  let w := sqrt (xyz i angles * xyz i angles + xyz j angles * xyz j angles) in
  exists it, st_items st' = st_items st ++ [it] /\
    length (points ops it) = length (getp ops (st_base st)) /\
    forall k p q, nth_error (getp ops (st_base st)) k = Some p -> nth_error (points ops it) k = Some q ->
      (forall l, (l <= 2)%nat -> l <> ax -> xyz l q = xyz l p) /\
      (w = 0 -> xyz ax q = xyz ax point) /\
      w * (xyz ax q - xyz ax point) =
        sin (w * PI / 180) * (xyz j angles * (xyz i p - xyz i point) - xyz i angles * (xyz j p - xyz j point)).
Proof.
  intros Hin H w. unfold add_plane in H.
  destruct (stack_add ops ax bu interp st (ArgCall (plane_func ax angles point)) ao) as [st0|] eqn:E; [|discriminate].
  cbn [bind] in H. apply Ok_inj in H. apply pair_equal_spec in H as [<- <-].
  destruct (add_fields ops Hops _ _ _ _ _ _ _ E) as (it & I1 & _ & _ & _ & _ & _ & HM).
  exists it. split; [auto|].
  assert (Hpts : points ops it = map2 (fun v p => pset ax v p)
     (map (fun '(x, y, z) => plane_func ax angles point x y z) (getp ops (st_base st))) (getp ops (st_base st))).
  { clear - E I1 Hops. destruct Hops as (L1 & _). unfold stack_add in E. cbn [bind] in E. apply Ok_inj in E. subst st0.
    cbn [st_items] in I1. apply app_inv_head in I1. injection I1 as <-.
    destruct (st_items st); unfold points; cbn [it_mesh]; rewrite L1; reflexivity. }
  split; [rewrite Hpts; apply map2_len; rewrite map_length; auto|].
  intros k p q Hk Hq. rewrite Hpts, map2_nth, nth_error_map, Hk in Hq. cbn [option_map] in Hq. injection Hq as <-.
  assert (Hax : (ax <= 2)%nat) by (destruct Hin as [E'|[E'|[E'|[]]]]; injection E' as <- <- <-; lia).
  destruct p as [[x y] z]. destruct (plane_law ax i j angles point x y z Hin) as [H1 H2]. split.
  - intros l Hl Hne. destruct ax as [|[|[|]]]; try lia; destruct l as [|[|[|]]]; try lia; reflexivity.
  - assert (Eq : forall v, xyz ax (pset ax v (x, y, z)) = v) by (intros v; destruct ax as [|[|[|]]]; try lia; reflexivity).
    rewrite Eq. split; [exact H1|exact H2].
Qed.
