From Coq Require Import Nsatz.
From Verif Require Import RealAux Perc_model Perc_spec Perc_proof Surface_model Surface_spec Surface_proof
  Volume_model Volume_spec Volume_proof Ring_proof UVol_proof UVol2_proof UVol3_proof
  SMerge_model SMerge_spec SMerge_proof Groups_model Groups_spec Groups_proof Groups2_proof
  Stack_model Stack_spec Cut_proof Gen_proof Stack_proof Stack2_proof Stack3_proof Stack4_proof.
From Coq Require Import Lra.
Open Scope R_scope.

(* ---- centers ---- *)
Lemma rmin_le l d : rmin l d <= d /\ forall x, In x l -> rmin l d <= x.
Proof.
  induction l as [|y l [IH1 IH2]]; simpl; [split; [lra|tauto]|].
  pose proof (Rmin_l y (rmin l d)). pose proof (Rmin_r y (rmin l d)).
  split; [lra|]. intros x [<-|Hx]; auto. specialize (IH2 x Hx). lra.
Qed.
Lemma rmin_in l d : In (rmin l d) (d :: l).
Proof.
  induction l as [|y l IH]; simpl; auto. unfold Rmin. destruct (Rle_dec _ _); auto.
  destruct IH as [E|E]; auto.
Qed.
Lemma rmax_ge l d : d <= rmax l d /\ forall x, In x l -> x <= rmax l d.
Proof.
  induction l as [|y l [IH1 IH2]]; simpl; [split; [lra|tauto]|].
  pose proof (Rmax_l y (rmax l d)). pose proof (Rmax_r y (rmax l d)).
  split; [lra|]. intros x [<-|Hx]; auto. specialize (IH2 x Hx). lra.
Qed.
Lemma rmax_in l d : In (rmax l d) (d :: l).
Proof.
  induction l as [|y l IH]; simpl; auto. unfold Rmax. destruct (Rle_dec _ _); auto.
  destruct IH as [E|E]; auto.
Qed.

(* least and greatest elements *)
Definition is_min (m : R) (l : list R) := In m l /\ forall x, In x l -> m <= x.
Definition is_max (m : R) (l : list R) := In m l /\ forall x, In x l -> x <= m.

Lemma mid_spec ax p ps : exists m M, mid ax (p :: ps) = (m + M) / 2 /\
  is_min m (map (pget ax) (p :: ps)) /\ is_max M (map (pget ax) (p :: ps)).
Proof.
  unfold mid. do 2 eexists. split; [reflexivity|].
  destruct (rmin_le (map (pget ax) (p :: ps)) (pget ax p)) as [_ A].
  destruct (rmax_ge (map (pget ax) (p :: ps)) (pget ax p)) as [_ B].
  pose proof (rmin_in (map (pget ax) (p :: ps)) (pget ax p)) as A'.
  pose proof (rmax_in (map (pget ax) (p :: ps)) (pget ax p)) as B'.
  split; split; auto.
  - destruct A' as [E|E]; auto. rewrite <- E. simpl; auto.
  - destruct B' as [E|E]; auto. rewrite <- E. simpl; auto.
Qed.

Lemma min_unique m m' l : is_min m l -> is_min m' l -> m = m'.
Proof. intros [A1 A2] [B1 B2]. specialize (A2 _ B1). specialize (B2 _ A1). lra. Qed.
Lemma max_unique m m' l : is_max m l -> is_max m' l -> m = m'.
Proof. intros [A1 A2] [B1 B2]. specialize (A2 _ B1). specialize (B2 _ A1). lra. Qed.

(* the middle of the image under an affine map *)
Lemma mid_affine ax ax' f ps s t : ps <> [] ->
  (forall p, In p ps -> pget ax (f p) = s * pget ax' p + t) ->
  mid ax (map f ps) = s * mid ax' ps + t.
Proof.
  destruct ps as [|p ps]; [congruence|]. intros _ Hf.
  destruct (mid_spec ax' p ps) as (m & M & -> & Hm & HM).
  rewrite map_cons. destruct (mid_spec ax (f p) (map f ps)) as (m' & M' & -> & Hm' & HM').
  rewrite <- map_cons in Hm', HM'. rewrite map_map in Hm', HM'.
  assert (Him : forall y, In y (map (fun p => pget ax (f p)) (p :: ps)) <->
                exists x, In x (map (pget ax') (p :: ps)) /\ y = s * x + t).
  { intros y. rewrite in_map_iff. split.
    - intros (q & <- & Hq). exists (pget ax' q). split; [apply in_map; auto|]. auto.
    - intros (x & Hx & ->). apply in_map_iff in Hx as (q & <- & Hq). exists q. auto. }
  destruct (Rle_lt_dec 0 s) as [Hs|Hs].
  - assert (m' = s * m + t) as ->.
    { eapply min_unique; [exact Hm'|]. split; [apply Him; exists m; split; [apply Hm|reflexivity]|].
      intros y (x & Hx & ->)%Him. pose proof (proj2 Hm x Hx). nra. }
    assert (M' = s * M + t) as ->; [|lra].
    eapply max_unique; [exact HM'|]. split; [apply Him; exists M; split; [apply HM|reflexivity]|].
    intros y (x & Hx & ->)%Him. pose proof (proj2 HM x Hx). nra.
  - assert (m' = s * M + t) as ->.
    { eapply min_unique; [exact Hm'|]. split; [apply Him; exists M; split; [apply HM|reflexivity]|].
      intros y (x & Hx & ->)%Him. pose proof (proj2 HM x Hx). nra. }
    assert (M' = s * m + t) as ->; [|lra].
    eapply max_unique; [exact HM'|]. split; [apply Him; exists m; split; [apply Hm|reflexivity]|].
    intros y (x & Hx & ->)%Him. pose proof (proj2 Hm x Hx). nra.
Qed.

Lemma pt_ext (p q : pt) : (forall a, (a <= 2)%nat -> pget a p = pget a q) -> p = q.
Proof.
  destruct p as [[x y] z], q as [[x' y'] z']. intros H.
  pose proof (H 0%nat ltac:(lia)). pose proof (H 1%nat ltac:(lia)). pose proof (H 2%nat ltac:(lia)).
  simpl in *. subst; auto.
Qed.
Lemma pget_add a p q : (a <= 2)%nat -> pget a (add3 p q) = pget a p + pget a q.
Proof. destruct p as [[x y] z], q as [[x' y'] z'], a as [|[|[|]]]; simpl; auto; lia. Qed.
Lemma pget_scale a s p : (a <= 2)%nat -> pget a (scale3 s p) = s * pget a p.
Proof. destruct p as [[x y] z], a as [|[|[|]]]; simpl; auto; lia. Qed.
Lemma pget_sub a p q : (a <= 2)%nat -> pget a (sub3 p q) = pget a p - pget a q.
Proof. destruct p as [[x y] z], q as [[x' y'] z'], a as [|[|[|]]]; simpl; auto; lia. Qed.
Lemma pget_center a ps : (a <= 2)%nat -> pget a (center ps) = mid a ps.
Proof. destruct a as [|[|[|]]]; simpl; auto; lia. Qed.

Lemma center_translate v ps : ps <> [] -> center (map (fun p => add3 p v) ps) = add3 (center ps) v.
Proof.
  intros Hne. apply pt_ext. intros a Ha. rewrite pget_center, pget_add, pget_center by auto.
  rewrite (mid_affine a a (fun p => add3 p v) ps 1 (pget a v) Hne); [lra|].
  intros p _. rewrite pget_add by auto. lra.
Qed.
Lemma center_scale s ps : ps <> [] ->
  center (map (fun p => add3 (scale3 s (sub3 p (center ps))) (center ps)) ps) = center ps.
Proof.
  intros Hne. apply pt_ext. intros a Ha. rewrite !pget_center by auto.
  rewrite (mid_affine a a _ ps s (mid a ps - s * mid a ps) Hne); [lra|].
  intros p _. rewrite pget_add, pget_scale, pget_sub, pget_center by auto. lra.
Qed.

(* C76 *)
Lemma extrude_add_points ds da last vx vy vz s q : last <> [] -> da = None ->
  extrude_add ds da last [vx; vy; vz] s None = Ok q ->
  center q = add3 (center last) (vx, vy, vz) /\
  exists f, (match s with Some f' => f = f' | None => match ds with Some f' => f = f' | None => f = 1 end end) /\
    length q = length last /\
    forall k p, nth_error last k = Some p ->
      nth_error q k = Some (add3 (add3 (center last) (vx, vy, vz)) (scale3 f (sub3 p (center last)))).
Proof.
  intros Hne -> H. unfold extrude_add in H. apply Ok_inj in H.
  set (v := (vx, vy, vz)) in *.
  set (sc := match s with Some s0 => Some s0 | None => ds end) in *.
  set (q1 := map (fun p => add3 p v) last) in *.
  assert (Hc1 : center q1 = add3 (center last) v) by (apply center_translate; auto).
  assert (Hq1 : q1 <> []) by (destruct last; [congruence|discriminate]).
  assert (Hq : q = match sc with Some s0 => map (fun p => add3 (scale3 s0 (sub3 p (center q1))) (center q1)) q1
                   | None => q1 end).
  { rewrite <- H. destruct sc; reflexivity. }
  clear H. split.
  - rewrite Hq. destruct sc; [rewrite center_scale by auto; auto|auto].
  - exists (match sc with Some s0 => s0 | None => 1 end). split.
    { unfold sc. destruct s, ds; reflexivity. }
    split. { rewrite Hq. unfold q1. destruct sc; rewrite ?map_length; auto. }
    intros k p Hk. rewrite Hq, Hc1. unfold q1.
    destruct sc as [f|]; rewrite ?nth_error_map, Hk; cbn [option_map]; f_equal;
      apply pt_ext; intros a Ha; repeat rewrite ?pget_add, ?pget_scale, ?pget_sub by auto; ring.
Qed.

(* ---- rotations ---- *)

Lemma norm_sq p : norm p * norm p = dot p p.
Proof.
  unfold norm. apply sqrt_sqrt. destruct p as [[x y] z]. unfold dot.
  pose proof (Rle_0_sqr x). pose proof (Rle_0_sqr y). pose proof (Rle_0_sqr z). unfold Rsqr in *. lra.
Qed.

Lemma unit_dot v : v <> (0, 0, 0) -> dot (unit_of v) (unit_of v) = 1.
Proof.
  intros Hv. pose proof (norm_sq v) as Hn.
  assert (Hz : norm v <> 0).
  { intros E. rewrite E in Hn. apply Hv. destruct v as [[x y] z]. unfold dot in Hn.
    pose proof (Rle_0_sqr x). pose proof (Rle_0_sqr y). pose proof (Rle_0_sqr z). unfold Rsqr in *.
    assert (x * x = 0) by lra. assert (y * y = 0) by lra. assert (z * z = 0) by lra.
    repeat f_equal; apply Rmult_integral in H2 as [|], H3 as [|], H4 as [|]; auto. }
  unfold unit_of. destruct v as [[x y] z]. unfold scale3, dot in *.
  set (n := norm _) in *. apply Rmult_eq_reg_l with (n * n); [|nra].
  field_simplify; [|auto]. nra.
Qed.

Lemma rodrigues_dot k th p : dot k k = 1 -> dot (rodrigues k th p) (rodrigues k th p) = dot p p.
Proof.
  intros Hk. pose proof (sin2_cos2 th) as Hsc. unfold Rsqr in Hsc.
  unfold rodrigues. destruct k as [[a b] c], p as [[x y] z].
  unfold add3, scale3, cross, dot in *.
  set (s := sin th) in *. set (co := cos th) in *.
  assert (E : s * s = 1 - co * co) by lra.
  nsatz.
Qed.

Lemma rodrigues_sub k th p q : sub3 (rodrigues k th p) (rodrigues k th q) = rodrigues k th (sub3 p q).
Proof.
  apply pt_ext. intros ax Ha. rewrite pget_sub by auto.
  destruct k as [[a b] c], p as [[x y] z], q as [[x' y'] z'].
  unfold rodrigues, add3, scale3, cross, dot, sub3. destruct ax as [|[|[|]]]; simpl; try lia; ring.
Qed.

Lemma dist2_dot p q : dist2 p q = dot (sub3 p q) (sub3 p q).
Proof. destruct p as [[? ?] ?], q as [[? ?] ?]. reflexivity. Qed.

Lemma rotate_vector_sub v a c p q : v <> (0, 0, 0) ->
  dist2 (rotate_vector v a c p) (rotate_vector v a c q) = dist2 p q.
Proof.
  intros Hv. rewrite !dist2_dot. unfold rotate_vector.
  assert (E : sub3 (add3 (rodrigues (unit_of v) (deg2rad a) (sub3 p c)) c)
                (add3 (rodrigues (unit_of v) (deg2rad a) (sub3 q c)) c) =
              rodrigues (unit_of v) (deg2rad a) (sub3 p q)).
  { transitivity (sub3 (rodrigues (unit_of v) (deg2rad a) (sub3 p c)) (rodrigues (unit_of v) (deg2rad a) (sub3 q c))).
    - apply pt_ext. intros ax Ha. repeat rewrite ?pget_sub, ?pget_add by auto. ring.
    - rewrite rodrigues_sub. f_equal. apply pt_ext. intros ax Ha. rewrite !pget_sub by auto. ring. }
  rewrite E, rodrigues_dot; auto. apply unit_dot; auto.
Qed.

Lemma dist2_scale f c p q :
  dist2 (add3 c (scale3 f (sub3 p c))) (add3 c (scale3 f (sub3 q c))) = f * f * dist2 p q.
Proof.
  unfold dist2. destruct c as [[? ?] ?], p as [[? ?] ?], q as [[? ?] ?].
  unfold add3, scale3, sub3, dot. ring.
Qed.

(* extrusion items are similar to each other, the ratio being the scale *)
Lemma extrude_add_similar ds da last vx vy vz s a q : last <> [] -> (vx, vy, vz) <> (0, 0, 0) ->
  extrude_add ds da last [vx; vy; vz] s a = Ok q ->
  exists f, (match s with Some f' => f = f' | None => match ds with Some f' => f = f' | None => f = 1 end end) /\
    length q = length last /\
    forall i j p p' r r', nth_error last i = Some p -> nth_error last j = Some p' ->
      nth_error q i = Some r -> nth_error q j = Some r' -> dist2 r r' = f * f * dist2 p p'.
Proof.
  intros Hne Hv H. unfold extrude_add in H. apply Ok_inj in H.
  set (v := (vx, vy, vz)) in *.
  set (sc := match s with Some s0 => Some s0 | None => ds end) in *.
  set (an := match a with Some s0 => Some s0 | None => da end) in *.
  set (q1 := map (fun p => add3 p v) last) in *.
  set (q2 := match sc with Some s0 => map (fun p => add3 (scale3 s0 (sub3 p (center q1))) (center q1)) q1
                   | None => q1 end).
  assert (Hq : q = match an with Some a0 => map (rotate_vector v a0 (center q2)) q2 | None => q2 end).
  { rewrite <- H. unfold q2. destruct sc, an; reflexivity. }
  clear H. exists (match sc with Some s0 => s0 | None => 1 end). split.
  { unfold sc. destruct s, ds; reflexivity. }
  assert (L2 : length q2 = length last) by (unfold q2, q1; destruct sc; rewrite ?map_length; auto).
  split. { rewrite Hq. destruct an; rewrite ?map_length; auto. }
  assert (D2 : forall i j p p' r r', nth_error last i = Some p -> nth_error last j = Some p' ->
      nth_error q2 i = Some r -> nth_error q2 j = Some r' ->
      dist2 r r' = (match sc with Some s0 => s0 | None => 1 end) * (match sc with Some s0 => s0 | None => 1 end) * dist2 p p').
  { intros i j p p' r r' Hi Hj. unfold q2, q1.
    destruct sc as [f|]; rewrite !nth_error_map, ?Hi, ?Hj; cbn [option_map]; intros [= <-] [= <-];
      unfold dist2; destruct (center _) as [[? ?] ?], p as [[? ?] ?], p' as [[? ?] ?]; unfold v, add3, scale3, sub3, dot; ring. }
  intros i j p p' r r' Hi Hj. rewrite Hq. destruct an as [a0|]; [|apply D2; auto].
  rewrite !nth_error_map.
  destruct (nth_error q2 i) as [r0|] eqn:E0; [|discriminate].
  destruct (nth_error q2 j) as [r1|] eqn:E1; [|discriminate]. cbn [option_map].
  intros [= <-] [= <-]. rewrite rotate_vector_sub by auto. eauto.
Qed.

(* ---- planes (C75, C81) ---- *)
Lemma rotvec_linear w : exists a b c a' b' c' a'' b'' c'', forall x y z,
  rotvec_inv w (x, y, z) = (a * x + b * y + c * z, a' * x + b' * y + c' * z, a'' * x + b'' * y + c'' * z).
Proof.
  unfold rotvec_inv. destruct (Req_EM_T (norm w) 0).
  - exists 1, 0, 0, 0, 1, 0, 0, 0, 1. intros. repeat f_equal; ring.
  - destruct (unit_of w) as [[a b] c]. set (s := sin (- deg2rad (norm w))). set (co := cos (- deg2rad (norm w))).
    exists (co + a * a * (1 - co)), (- s * c + a * b * (1 - co)), (s * b + a * c * (1 - co)),
      (s * c + b * a * (1 - co)), (co + b * b * (1 - co)), (- s * a + b * c * (1 - co)),
      (- s * b + c * a * (1 - co)), (s * a + c * b * (1 - co)), (co + c * c * (1 - co)).
    intros x y z. unfold rodrigues, add3, scale3, cross, dot. fold s co.
    f_equal; [f_equal|]; ring.
Qed.

Lemma plane_affine ax angles point : (ax <= 2)%nat ->
  plane_func ax angles point (pget 0 point) (pget 1 point) (pget 2 point) = pget ax point /\
  exists a b c d, (match ax with 0%nat => a | 1%nat => b | _ => c end) = 0 /\
    forall x y z, plane_func ax angles point x y z = a * x + b * y + c * z + d.
Proof.
  intros Hax. unfold plane_func.
  destruct (rotvec_linear (pset ax 0 angles)) as (a & b & c & a' & b' & c' & a'' & b'' & c'' & H).
  destruct point as [[px py] pz]. cbn [pget sub3].
  destruct ax as [|[|[|]]]; try lia; cbn [pset]; split; try (rewrite H; cbn [pget]; ring).
  - exists 0, b, c, (px - b * py - c * pz). split; auto. intros. rewrite H. cbn [pget]. ring.
  - exists a', 0, c', (py - a' * px - c' * pz). split; auto. intros. rewrite H. cbn [pget]. ring.
  - exists a'', b'', 0, (pz - a'' * px - b'' * py). split; auto. intros. rewrite H. cbn [pget]. ring.
Qed.

Lemma plane_slope th px py pz x y z :
  plane_func 2 (th, 0, 0) (px, py, pz) x y z = pz - (y - py) * sin (deg2rad th).
Proof.
  unfold plane_func. cbn [pset sub3]. unfold rotvec_inv, unit_of.
  assert (Hn : norm (th, 0, 0) = Rabs th).
  { unfold norm, dot. replace (th * th + 0 * 0 + 0 * 0) with (Rsqr th) by (unfold Rsqr; ring).
    apply sqrt_Rsqr_abs. }
  rewrite Hn. destruct (Req_EM_T (Rabs th) 0) as [E|E].
  - assert (th = 0) as ->.
    { destruct (Req_dec th 0) as [|Hne]; auto. apply Rabs_no_R0 in Hne. contradiction. }
    unfold deg2rad. rewrite Rmult_0_l, sin_0.
    cbn [pget]. ring.
  - unfold scale3, rodrigues, add3, cross, dot. cbn [pget].
    assert (Ht : sin (- deg2rad (Rabs th)) * (/ Rabs th * th) = - sin (deg2rad th)).
    { rewrite sin_neg. unfold Rabs in *. destruct (Rcase_abs th).
      - replace (deg2rad (- th)) with (- deg2rad th) by (unfold deg2rad; lra).
        rewrite sin_neg. field. lra.
      - field. lra. }
    transitivity (pz + (sin (- deg2rad (Rabs th)) * (/ Rabs th * th)) * (y - py)); [unfold scale3; cbn [pget]; ring|].
    rewrite Ht. ring.
Qed.
