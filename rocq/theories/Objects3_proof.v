From Coq Require Import Reals Lra.
From Verif Require Import Prelude Perc_model Perc_spec Perc_proof Grid Surface_model Surface_spec Surface_proof
  Volume_model Objects_model Objects_spec.
Open Scope R_scope.

(* ---------- vectors ---------- *)

Ltac vec := repeat match goal with p : pt |- _ => destruct p as ((? & ?) & ?) end;
  unfold dot, scale, add3, sub3, inner, times, moved in *; cbn in *.

Lemma dot_inner p q : dot p q = inner p q.
Proof. vec. ring. Qed.
Lemma dot_sym p q : dot p q = dot q p.
Proof. vec. ring. Qed.
Lemma dot_scale_l a p q : dot (scale a p) q = a * dot p q.
Proof. vec. ring. Qed.
Lemma dot_scale_r a p q : dot p (scale a q) = a * dot p q.
Proof. vec. ring. Qed.
Lemma dot_add_l p q r : dot (add3 p q) r = dot p r + dot q r.
Proof. vec. ring. Qed.
Lemma dot_add_r p q r : dot r (add3 p q) = dot r p + dot r q.
Proof. vec. ring. Qed.
Lemma scale_scale a b p : scale a (scale b p) = scale (a * b) p.
Proof. vec. f_equal; [f_equal|]; ring. Qed.
Lemma scale_1 p : scale 1 p = p.
Proof. vec. f_equal; [f_equal|]; ring. Qed.
Lemma dot_nonneg p : 0 <= dot p p.
Proof. vec. pose proof (Rle_0_sqr r). pose proof (Rle_0_sqr r1). pose proof (Rle_0_sqr r0). unfold Rsqr in *. lra. Qed.
Lemma norm_pos p : p <> (0, 0, 0) -> 0 < norm p.
Proof.
  intros H. unfold norm. apply sqrt_lt_R0. destruct (Rle_lt_or_eq_dec _ _ (dot_nonneg p)) as [|E]; [assumption|].
  exfalso. apply H. vec. pose proof (Rle_0_sqr r). pose proof (Rle_0_sqr r1). pose proof (Rle_0_sqr r0). unfold Rsqr in *.
  assert (r * r = 0) by lra. assert (r1 * r1 = 0) by lra. assert (r0 * r0 = 0) by lra.
  f_equal; [f_equal|]; nra.
Qed.
Lemma norm_sqr p : norm p * norm p = dot p p.
Proof. unfold norm. apply sqrt_sqrt, dot_nonneg. Qed.
Lemma unit_dot p : p <> (0, 0, 0) -> dot (scale (/ norm p) p) (scale (/ norm p) p) = 1.
Proof.
  intros H. rewrite dot_scale_l, dot_scale_r, <- norm_sqr. pose proof (norm_pos p H). field. lra.
Qed.
Lemma cauchy p q : dot p p = 1 -> dot q q = 1 -> -1 <= dot p q <= 1.
Proof.
  intros Hp Hq. pose proof (dot_nonneg (add3 p q)) as H. pose proof (dot_nonneg (add3 p (scale (-1) q))) as H'.
  rewrite !dot_add_l, !dot_add_r in *. rewrite ?dot_scale_l, ?dot_scale_r, ?dot_scale_l in *. rewrite (dot_sym q p) in *. lra.
Qed.
Lemma norm_unit p : dot p p = 1 -> norm p = 1.
Proof. intros H. unfold norm. rewrite H. apply sqrt_1. Qed.
Lemma norm_scale a p : 0 <= a -> dot p p = 1 -> norm (scale a p) = a.
Proof.
  intros Ha Hp. unfold norm. rewrite dot_scale_l, dot_scale_r, Hp. replace (a * (a * 1)) with (a * a) by ring.
  now apply sqrt_square.
Qed.

(* ---------- slerp ---------- *)

Lemma comb_sum k a1 b1 a2 b2 s e :
  scale (/ 2) (add3 (scale k (add3 (scale a1 s) (scale b1 e))) (scale k (add3 (scale a2 s) (scale b2 e))))
  = scale (/ 2 * k) (add3 (scale (a1 + a2) s) (scale (b1 + b2) e)).
Proof. vec. f_equal; [f_equal|]; ring. Qed.
Lemma comb_scale k c x y s e :
  scale (/ 2 * k) (add3 (scale (2 * c * x) s) (scale (2 * c * y) e)) = scale c (scale k (add3 (scale x s) (scale y e))).
Proof. vec. f_equal; [f_equal|]; field. Qed.

Section Slerp.
Variables (s e : pt) (theta : R).
Hypothesis Us : dot s s = 1.
Hypothesis Ue : dot e e = 1.
Hypothesis Ht : 0 < theta < PI.
Hypothesis Hc : dot s e = cos theta.

Let Hs : 0 < sin theta.
Proof. apply sin_gt_0; lra. Qed.

Lemma slerp_start t : dot (slerp theta s e t) s = cos (t * theta).
Proof.
  unfold slerp. rewrite dot_scale_l, dot_add_l, !dot_scale_l, Us, (dot_sym e s), Hc.
  replace ((1 - t) * theta) with (theta - t * theta) by ring. rewrite sin_minus. field. lra.
Qed.
Lemma slerp_end t : dot (slerp theta s e t) e = cos ((1 - t) * theta).
Proof.
  unfold slerp. rewrite dot_scale_l, dot_add_l, !dot_scale_l, Ue, Hc.
  replace ((1 - t) * theta) with (theta - t * theta) by ring. rewrite sin_minus, cos_minus.
  pose proof (sin2_cos2 theta) as E. unfold Rsqr in E.
  apply Rmult_eq_reg_l with (sin theta); [|lra]. rewrite <- Rmult_assoc, Rinv_r, Rmult_1_l by lra.
  transitivity (sin theta * cos theta * cos (t * theta) + (1 - cos theta * cos theta) * sin (t * theta)); [ring|].
  replace (1 - cos theta * cos theta) with (sin theta * sin theta) by lra. ring.
Qed.
Lemma slerp_unit t : dot (slerp theta s e t) (slerp theta s e t) = 1.
Proof.
  unfold slerp at 2. rewrite dot_scale_r, dot_add_r, !dot_scale_r, slerp_start, slerp_end.
  replace (sin ((1 - t) * theta) * cos (t * theta) + sin (t * theta) * cos ((1 - t) * theta)) with (sin theta).
  { field. lra. }
  replace theta with ((1 - t) * theta + t * theta) at 1 by ring. rewrite sin_plus. ring.
Qed.
Lemma slerp_mean a b :
  scale (/ 2) (add3 (slerp theta s e a) (slerp theta s e b))
  = scale (cos ((b - a) / 2 * theta)) (slerp theta s e ((a + b) / 2)).
Proof.
  set (m := (a + b) / 2). set (h := (b - a) / 2).
  assert (S1 : sin ((1 - a) * theta) + sin ((1 - b) * theta) = 2 * cos (h * theta) * sin ((1 - m) * theta)).
  { replace ((1 - a) * theta) with ((1 - m) * theta + h * theta) by (unfold m, h; field).
    replace ((1 - b) * theta) with ((1 - m) * theta - h * theta) by (unfold m, h; field).
    rewrite sin_plus, sin_minus. ring. }
  assert (S2 : sin (a * theta) + sin (b * theta) = 2 * cos (h * theta) * sin (m * theta)).
  { replace (a * theta) with (m * theta - h * theta) by (unfold m, h; field).
    replace (b * theta) with (m * theta + h * theta) by (unfold m, h; field).
    rewrite sin_plus, sin_minus. ring. }
  unfold slerp. clearbody m h.
  rewrite comb_sum, S1, S2. apply comb_scale.
Qed.
Lemma slerp_step a b : 0 <= (b - a) / 2 * theta < PI / 2 ->
  let v := scale (/ 2) (add3 (slerp theta s e a) (slerp theta s e b)) in
  scale (/ norm v) v = slerp theta s e ((a + b) / 2).
Proof.
  intros H v. unfold v. rewrite slerp_mean.
  assert (0 < cos ((b - a) / 2 * theta)) by (apply cos_gt_0; lra).
  rewrite norm_scale; [|lra|now apply slerp_unit]. rewrite scale_scale, Rinv_l by lra. apply scale_1.
Qed.
End Slerp.

(* ---------- CurvedLine ---------- *)

(* the k-th step of [walk] *)
Lemma walk_nth dl (f : nat -> pt) : forall n m o,
  length (walk dl o (map f (seq m (S n)))) = n /\
  forall k P, (k < n)%nat -> nth_error (o :: walk dl o (map f (seq m (S n)))) k = Some P ->
    let v := scale (/ 2) (add3 (f (m + k)%nat) (f (m + k + 1)%nat)) in
    nth_error (o :: walk dl o (map f (seq m (S n)))) (S k) = Some (add3 P (scale dl (scale (/ norm v) v))).
Proof.
  induction n as [|n IH]; intros m o.
  - split; [reflexivity|]. intros. lia.
  - set (p := add3 o (scale dl (scale (/ norm (scale (/ 2) (add3 (f m) (f (S m))))) (scale (/ 2) (add3 (f m) (f (S m))))))).
    assert (E : walk dl o (map f (seq m (S (S n)))) = p :: walk dl p (map f (seq (S m) (S n)))) by reflexivity.
    rewrite E. destruct (IH (S m) p) as (L & N). split; [cbn [length]; now rewrite L|].
    intros [|k] P Hk HP.
    + cbn in HP. injection HP as <-. rewrite Nat.add_0_r. replace (m + 1)%nat with (S m) by lia. reflexivity.
    + specialize (N k P ltac:(lia)). cbn [nth_error] in HP |- *. specialize (N HP). cbn zeta in N.
      replace (S m + k)%nat with (m + S k)%nat in N by lia. exact N.
Qed.

Lemma norm_dist p q : norm (sub3 q p) = dist3 p q.
Proof. vec. unfold norm, dist3, dot, sub3. reflexivity. Qed.
Lemma norm_dist0 p : norm p = dist3 (0, 0, 0) p.
Proof. vec. unfold norm, dist3, dot. now rewrite !Rminus_0_r. Qed.

Lemma curved_ok orig len start end_ n theta :
  (0 < n)%nat -> start <> (0, 0, 0) -> end_ <> (0, 0, 0) ->
  0 <= theta < PI -> inner (unit_of start) (unit_of end_) = cos theta ->
  exists pts, CurvedLine orig len start (Some end_) (Z.of_nat n) = Ok pts /\
    length pts = S n /\ nth_error pts 0 = Some orig /\
    forall k P, (k < n)%nat -> nth_error pts k = Some P ->
      exists d, nth_error pts (S k) = Some (moved P (times (len / INR n) d)) /\
        inner d d = 1 /\
        inner d (unit_of start) = cos ((INR k + / 2) / INR n * theta) /\
        inner d (unit_of end_) = cos (theta - (INR k + / 2) / INR n * theta).
Proof.
  intros Hn Hs He Ht Hc. unfold CurvedLine.
  assert (Es : scale (/ norm start) start = unit_of start).
  { unfold unit_of. now rewrite norm_dist0. }
  assert (Ee : scale (/ norm end_) end_ = unit_of end_).
  { unfold unit_of. now rewrite norm_dist0. }
  pose proof (unit_dot start Hs) as Us. pose proof (unit_dot end_ He) as Ue. rewrite Es in *. rewrite Ee in *.
  set (s := unit_of start) in *. set (e := unit_of end_) in *. clearbody s e. clear Es Ee.
  rewrite <- dot_inner in Hc.
  assert (Eth : acos (clip1 (dot s e)) = theta).
  { pose proof (cauchy s e Us Ue). unfold clip1. rewrite Rmin_left, Rmax_right by lra. rewrite Hc. apply acos_cos. lra. }
  rewrite Eth. destruct (Z.ltb_spec (Z.of_nat n) 0); [lia|]. rewrite Nat2Z.id. destruct (Nat.eqb_spec n 0); [lia|].
  set (f := fun k : nat => if Req_EM_T theta 0 then s else slerp theta s e (INR k / INR n)).
  assert (Ed : (if Req_EM_T theta 0 then repeat s (n + 1) else map (slerp theta s e) (linspace 0 1 (n + 1)))
               = map f (seq 0 (S n))).
  { unfold f. replace (n + 1)%nat with (S n) by lia. destruct (Req_EM_T theta 0).
    - apply nth_error_ext. intros k.
      rewrite nth_error_map, nth_error_seq. destruct (Nat.ltb_spec k (S n)); [now apply repeat_nth_error|].
      cbn [option_map]. apply nth_error_None. rewrite repeat_length. lia.
    - unfold linspace. rewrite map_map. apply map_ext. intros k. f_equal. replace (S n - 1)%nat with n by lia. unfold Rdiv. ring. }
  rewrite Ed. destruct (walk_nth (len / INR n) f n 0 orig) as (L & N).
  set (w := walk _ _ _) in *. clearbody w. assert (E2 : multiple_lines (orig :: w) = Ok (orig :: w)).
  { apply multiple_lines_two. change (2 <= S (length w))%nat. lia. }
  exists (orig :: w). split; [exact E2|]. split; [cbn; now rewrite L|]. split; [reflexivity|].
  assert (In0 : 0 < INR n) by (apply lt_0_INR; lia).
  intros k P Hk HP. specialize (N k P Hk HP). cbn zeta in N. cbn [Nat.add] in N. rewrite N. clear N HP.
  eexists. split.
  { assert (forall p q, add3 p q = moved p q) as -> by (intros; vec; reflexivity). reflexivity. }
  rewrite <- !dot_inner. unfold f. destruct (Req_EM_T theta 0) as [Z|NZ].
  - rewrite Z in *. rewrite cos_0 in Hc.
    assert (forall v, v = scale (/ 2) (add3 s s) -> scale (/ norm v) v = s) as K.
    { intros v Ev. assert (v = s) as ->. { rewrite Ev. vec. f_equal; [f_equal|]; field. }
      rewrite (norm_unit s Us), Rinv_1. apply scale_1. }
    rewrite (K _ eq_refl), Rmult_0_r, Rminus_0_r, cos_0. split; [exact Us|]. split; [exact Us|exact Hc].
  - assert (Ht' : 0 < theta < PI) by lra.
    assert (Em : (INR k / INR n + INR (k + 1) / INR n) / 2 = (INR k + / 2) / INR n).
    { rewrite plus_INR. cbn [INR]. field. lra. }
    rewrite (slerp_step s e theta Us Ue Ht' Hc), Em.
    + split; [now apply slerp_unit|]. split; [now apply slerp_start|]. rewrite slerp_end by assumption. f_equal. ring.
    + assert (E1 : (INR (k + 1) / INR n - INR k / INR n) / 2 * theta = / INR n * (theta / 2)).
      { rewrite plus_INR. cbn [INR]. field. lra. }
      rewrite E1.
      assert (1 <= INR n) by (apply (le_INR 1); lia).
      assert (0 < / INR n <= 1). { split; [now apply Rinv_0_lt_compat|]. rewrite <- Rinv_1. apply Rinv_le_contravar; lra. }
      split; [apply Rmult_le_pos; lra|]. nra.
Qed.

(* each segment has the same length *)
Lemma step_length P k d : inner d d = 1 -> dist3 P (moved P (times k d)) = Rabs k.
Proof.
  intros H. destruct P as ((x, y), z), d as ((a, b), c). unfold inner in H. unfold dist3, moved, times.
  replace (_ + _) with (k * k * (a * a + b * b + c * c)) by ring. rewrite H, Rmult_1_r. fold (Rsqr k). apply sqrt_Rsqr_abs.
Qed.

Lemma polyline_const c : forall n l, length l = S n ->
  (forall k P Q, nth_error l k = Some P -> nth_error l (S k) = Some Q -> dist3 P Q = c) ->
  polyline_length l = INR n * c.
Proof.
  induction n as [|n IH]; intros [|p [|q l]] L H; try discriminate L.
  - cbn. ring.
  - change (polyline_length (p :: q :: l)) with (dist3 p q + polyline_length (q :: l)). rewrite (H 0%nat p q eq_refl eq_refl), (IH (q :: l)).
    + rewrite S_INR. ring.
    + cbn in *. lia.
    + intros k P Q HP HQ. exact (H (S k) P Q HP HQ).
Qed.

Lemma curved_length orig len start end_ n theta :
  (0 < n)%nat -> start <> (0, 0, 0) -> end_ <> (0, 0, 0) ->
  0 <= theta < PI -> inner (unit_of start) (unit_of end_) = cos theta ->
  exists pts, CurvedLine orig len start (Some end_) (Z.of_nat n) = Ok pts /\ polyline_length pts = Rabs len.
Proof.
  intros Hn Hs He Ht Hc. destruct (curved_ok orig len start end_ n theta Hn Hs He Ht Hc) as (pts & E & L & _ & N).
  exists pts. split; [exact E|]. rewrite (polyline_const (Rabs (len / INR n)) n pts L).
  - assert (0 < INR n) by (apply lt_0_INR; lia).
    rewrite <- (Rabs_pos_eq (INR n)) at 1 by lra. rewrite <- Rabs_mult. f_equal. field. lra.
  - intros k P Q HP HQ. destruct (Nat.lt_ge_cases k n) as [Hk|Hk].
    + destruct (N k P Hk HP) as (d & Hd & U & _). rewrite HQ in Hd. injection Hd as ->. now apply step_length.
    + assert (S k < length pts)%nat by (apply nth_error_Some; congruence). lia.
Qed.

(* one direction: a straight line *)
Lemma curved_straight orig len start n : (0 < n)%nat -> start <> (0, 0, 0) ->
  exists pts, CurvedLine orig len start None (Z.of_nat n) = Ok pts /\ length pts = S n /\
    forall k, (k <= n)%nat -> nth_error pts k = Some (moved orig (times (INR k / INR n * len) (unit_of start))).
Proof.
  intros Hn Hs.
  assert (E0 : CurvedLine orig len start None (Z.of_nat n) = CurvedLine orig len start (Some start) (Z.of_nat n)) by reflexivity.
  rewrite E0. pose proof (unit_dot start Hs) as Us.
  assert (Es : scale (/ norm start) start = unit_of start) by (unfold unit_of; now rewrite norm_dist0).
  rewrite Es in Us.
  destruct (curved_ok orig len start start n 0 Hn Hs Hs) as (pts & E & L & N0 & N).
  { pose proof PI_RGT_0. lra. } { rewrite cos_0, <- dot_inner. exact Us. }
  exists pts. split; [exact E|]. split; [exact L|].
  assert (0 < INR n) by (apply lt_0_INR; lia).
  induction k as [|k IH]; intros Hk.
  - rewrite N0. f_equal. cbn [INR]. destruct (unit_of start) as ((a, b), c), orig as ((x, y), z). unfold moved, times.
    f_equal; [f_equal|]; field; lra.
  - destruct (N k _ ltac:(lia) (IH ltac:(lia))) as (d & Hd & U & Hin & _). rewrite Rmult_0_r, cos_0 in Hin.
    assert (d = unit_of start) as ->.
    { rewrite <- !dot_inner in *.
      assert (Z : dot (add3 d (scale (-1) (unit_of start))) (add3 d (scale (-1) (unit_of start))) = 0).
      { rewrite !dot_add_l, !dot_add_r, ?dot_scale_l, ?dot_scale_r, (dot_sym (unit_of start) d), U, Us, Hin. ring. }
      destruct (unit_of start) as ((a, b), c), d as ((x, y), z). unfold dot, add3, scale in Z.
      pose proof (Rle_0_sqr (x + -1 * a)). pose proof (Rle_0_sqr (y + -1 * b)). pose proof (Rle_0_sqr (z + -1 * c)). unfold Rsqr in *.
      assert (x + -1 * a = 0) by nra. assert (y + -1 * b = 0) by nra. assert (z + -1 * c = 0) by nra.
      f_equal; [f_equal|]; lra. }
    rewrite Hd. f_equal. rewrite S_INR. destruct (unit_of start) as ((a, b), c), orig as ((x, y), z). unfold moved, times.
    f_equal; [f_equal|]; field; lra.
Qed.

Lemma curved_bad orig len start end_ z : (z <= 0)%Z ->
  CurvedLine orig len start end_ z = Err (if (z =? 0)%Z then ZeroDivisionError else ValueError).
Proof.
  intros H. unfold CurvedLine. destruct (Z.eqb_spec z 0); [subst; reflexivity|].
  destruct (Z.ltb_spec z 0); [reflexivity|lia].
Qed.

(* ---------- RegularLine ---------- *)

Definition xpos (d : R) (l : list pt) : list R := d :: cumsum d (steps l).

Lemma xpos_cons d p q l : xpos d (p :: q :: l) = d :: xpos (d + dist3 p q) (q :: l).
Proof. unfold xpos. cbn [steps cumsum]. now rewrite norm_dist. Qed.

Lemma xpos_length : forall l d p, length (xpos d (p :: l)) = length (p :: l).
Proof. induction l as [|q l IH]; intros d p; [reflexivity|]. rewrite xpos_cons. cbn [length]. rewrite IH. reflexivity. Qed.

Lemma dist3_nonneg p q : 0 <= dist3 p q.
Proof. vec. apply sqrt_pos. Qed.

Lemma polyline_nonneg : forall l, 0 <= polyline_length l.
Proof. induction l as [|p [|q l] IH]; cbn in *; try lra. pose proof (dist3_nonneg p q). cbn in *. lra. Qed.

Lemma xpos_nondecreasing : forall l d p, nondecreasing (xpos d (p :: l)) = true.
Proof.
  induction l as [|q l IH]; intros d p; [reflexivity|]. rewrite xpos_cons. specialize (IH (d + dist3 p q) q).
  unfold xpos in *. cbn [nondecreasing] in *. rewrite IH. destruct (Rleb_spec d (d + dist3 p q)); [reflexivity|].
  pose proof (dist3_nonneg p q). lra.
Qed.

Lemma xpos_max : forall l d p, 0 <= d -> max_of (xpos d (p :: l)) = d + polyline_length (p :: l).
Proof.
  induction l as [|q l IH]; intros d p Hd.
  - cbn. rewrite Rmax_left by lra. ring.
  - rewrite xpos_cons. pose proof (dist3_nonneg p q). pose proof (polyline_nonneg (q :: l)).
    change (max_of (d :: xpos (d + dist3 p q) (q :: l))) with (Rmax d (max_of (xpos (d + dist3 p q) (q :: l)))).
    rewrite IH by lra. change (polyline_length (p :: q :: l)) with (dist3 p q + polyline_length (q :: l)).
    rewrite Rmax_right by lra. ring.
Qed.

Lemma interp_along : forall l d p x, d <= x <= d + polyline_length (p :: l) ->
  exists P, along (p :: l) (x - d) P /\
    forall k, (k <= 2)%nat -> interp_at (xpos d (p :: l)) (map (coord k) (p :: l)) x = coord k P.
Proof.
  induction l as [|q l IH]; intros d p x Hx.
  - cbn in Hx. exists p. split; [replace (x - d) with 0 by lra; constructor|]. reflexivity.
  - rewrite xpos_cons. change (polyline_length (p :: q :: l)) with (dist3 p q + polyline_length (q :: l)) in Hx.
    pose proof (dist3_nonneg p q) as Hn.
    assert (E : forall k, interp_at (d :: xpos (d + dist3 p q) (q :: l)) (map (coord k) (p :: q :: l)) x
      = if Rlt_dec x (d + dist3 p q)
        then if Rle_dec x d then coord k p else coord k p + (x - d) * ((coord k q - coord k p) / (d + dist3 p q - d))
        else interp_at (xpos (d + dist3 p q) (q :: l)) (map (coord k) (q :: l)) x) by reflexivity.
    destruct (Rlt_dec x (d + dist3 p q)) as [H|H].
    + destruct (Rle_dec x d) as [H0|H0].
      * exists (on_segment 0 p q). split; [replace (x - d) with (0 * dist3 p q) by lra; constructor; lra|].
        intros k Hk. rewrite E. vec. destruct k as [|[|[|k]]]; try lia; cbn; unfold between; ring.
      * exists (on_segment ((x - d) / dist3 p q) p q). assert (0 < dist3 p q) by lra. split.
        { replace (x - d) with ((x - d) / dist3 p q * dist3 p q) at 1 by (field; lra). constructor.
          split; [apply Rmult_le_pos; [lra|apply Rlt_le, Rinv_0_lt_compat; lra]|].
          apply Rmult_le_reg_r with (dist3 p q); [lra|]. unfold Rdiv. rewrite Rmult_assoc, Rinv_l by lra. lra. }
        intros k Hk. rewrite E. replace (d + dist3 p q - d) with (dist3 p q) by ring. set (D := dist3 p q) in *. clearbody D.
        vec. destruct k as [|[|[|k]]]; try lia; cbn; unfold between; field; lra.
    + destruct (IH (d + dist3 p q) q x ltac:(lra)) as (P & HP & N). exists P. split.
      * replace (x - d) with (dist3 p q + (x - (d + dist3 p q))) by ring. now constructor.
      * intros k Hk. rewrite E. now apply N.
Qed.

Lemma linspace_nth a b m k : nth_error (linspace a b (S m)) k
  = if (k <? S m)%nat then Some (a + INR k * ((b - a) / INR m)) else None.
Proof.
  unfold linspace. rewrite nth_error_map, nth_error_seq. destruct (Nat.ltb_spec k (S m)); [|reflexivity].
  cbn [option_map]. f_equal. replace (S m - 1)%nat with m by lia. cbn [Nat.add]. unfold Rdiv. ring.
Qed.

Lemma combine_nth_error {A B} : forall (l : list A) (m : list B) k, nth_error (combine l m) k =
  match nth_error l k, nth_error m k with Some a, Some b => Some (a, b) | _, _ => None end.
Proof.
  induction l as [|a l IH]; intros [|b m] [|k]; cbn; try reflexivity; [now destruct (nth_error l k)|apply IH].
Qed.

Lemma regular_ok other points resolution n :
  points <> [] -> regular_count points resolution = Z.of_nat (S n) ->
  exists pts, RegularLine other points resolution = Ok pts /\ length pts = S (S n) /\
    forall k P, nth_error pts k = Some P -> along points (INR k / INR (S n) * polyline_length points) P.
Proof.
  intros Hp Hn. destruct points as [|p l]; [congruence|]. unfold RegularLine. fold (regular_count (p :: l) resolution). rewrite Hn.
  cbn [length Nat.eqb]. destruct (Z.ltb_spec (Z.of_nat (S n) + 1) 0); [lia|].
  replace (Z.to_nat (Z.of_nat (S n) + 1)) with (S (S n)) by lia.
  assert (Ex : cumsum 0 (0 :: steps (p :: l)) = xpos 0 (p :: l)). { unfold xpos. cbn [cumsum]. now rewrite Rplus_0_l. }
  rewrite Ex, xpos_max, Rplus_0_l by lra. set (L := polyline_length (p :: l)).
  unfold np_interp. pose proof (xpos_length l 0 p) as EL. rewrite !map_length, EL, Nat.eqb_refl, xpos_nondecreasing.
  cbn [length Nat.eqb negb bind].
  set (xs := linspace 0 L (S (S n))).
  assert (LX : length xs = S (S n)) by (unfold xs, linspace; now rewrite map_length, seq_length).
  set (out := map2 _ _ _).
  assert (LO : length out = S (S n)).
  { unfold out. rewrite map2_length, combine_length, !map_length, LX. lia. }
  assert (E2 : multiple_lines out = Ok out). { unfold multiple_lines. now rewrite LO. }
  exists out. split; [exact E2|]. split; [exact LO|]. intros k P HP.
  assert (Hk : (k < S (S n))%nat) by (rewrite <- LO; apply nth_error_Some; congruence).
  assert (Hx : nth_error xs k = Some (INR k / INR (S n) * L)).
  { unfold xs. rewrite linspace_nth. destruct (Nat.ltb_spec k (S (S n))); [|lia]. f_equal. unfold Rdiv. ring. }
  set (x := INR k / INR (S n) * L) in *.
  assert (Bx : 0 <= x <= 0 + L).
  { pose proof (polyline_nonneg (p :: l)) as HL. fold L in HL.
    assert (0 < INR (S n)) by (apply lt_0_INR; lia). assert (INR k <= INR (S n)) by (apply le_INR; lia). pose proof (pos_INR k).
    assert (0 <= INR k / INR (S n) <= 1).
    { split; [apply Rmult_le_pos; [lra|apply Rlt_le, Rinv_0_lt_compat; lra]|].
      apply Rmult_le_reg_r with (INR (S n)); [lra|]. unfold Rdiv. rewrite Rmult_assoc, Rinv_l; lra. }
    unfold x. split; nra. }
  destruct (interp_along l 0 p x Bx) as (Q & HQ & N). rewrite Rminus_0_r in HQ.
  enough (P = Q) by (subst; exact HQ).
  unfold out in HP. rewrite map2_nth_error, combine_nth_error, !nth_error_map, Hx in HP. cbn [option_map] in HP.
  rewrite !N in HP by lia. injection HP as <-. cbn [fst snd]. destruct Q as ((a, b), c). reflexivity.
Qed.

Lemma regular_bad other points resolution :
  points = [] \/ (regular_count points resolution < 0)%Z -> RegularLine other points resolution = Err ValueError.
Proof.
  intros H. destruct points as [|p l]; [reflexivity|]. destruct H as [H|H]; [discriminate|].
  unfold RegularLine. fold (regular_count (p :: l) resolution). cbn [length Nat.eqb].
  destruct (Z.ltb_spec (regular_count (p :: l) resolution + 1) 0); [reflexivity|].
  replace (Z.to_nat (regular_count (p :: l) resolution + 1)) with 0%nat by lia.
  unfold np_interp. assert (Ex : cumsum 0 (0 :: steps (p :: l)) = xpos 0 (p :: l)). { unfold xpos. cbn [cumsum]. now rewrite Rplus_0_l. }
  rewrite Ex. pose proof (xpos_length l 0 p) as EL. rewrite !map_length, EL, Nat.eqb_refl, xpos_nondecreasing. reflexivity.
Qed.

(* a position is met at one point *)
Lemma dist3_zero p q : dist3 p q = 0 -> p = q.
Proof.
  destruct p as ((x, y), z), q as ((a, b), c). unfold dist3. intros H.
  pose proof (Rle_0_sqr (a - x)) as H1. pose proof (Rle_0_sqr (b - y)) as H2. pose proof (Rle_0_sqr (c - z)) as H3.
  unfold Rsqr in *. apply sqrt_eq_0 in H; [|lra].
  assert (K : forall r, r * r = 0 -> r = 0) by (intros r Hr; destruct (Rmult_integral _ _ Hr); assumption).
  assert (a - x = 0) by (apply K; lra). assert (b - y = 0) by (apply K; lra). assert (c - z = 0) by (apply K; lra).
  f_equal; [f_equal|]; lra.
Qed.
Lemma seg_same t p : on_segment t p p = p.
Proof. vec. unfold between. f_equal; [f_equal|]; ring. Qed.
Lemma seg_1 p q : on_segment 1 p q = q.
Proof. vec. unfold between. f_equal; [f_equal|]; ring. Qed.
Lemma seg_0 p q : on_segment 0 p q = p.
Proof. vec. unfold between. f_equal; [f_equal|]; ring. Qed.
Lemma along_range l d P : along l d P -> 0 <= d <= polyline_length l.
Proof.
  induction 1 as [p|p q l t Ht|p q l d P H IH].
  - cbn. lra.
  - change (polyline_length (p :: q :: l)) with (dist3 p q + polyline_length (q :: l)).
    pose proof (dist3_nonneg p q). pose proof (polyline_nonneg (q :: l)). nra.
  - change (polyline_length (p :: q :: l)) with (dist3 p q + polyline_length (q :: l)).
    pose proof (dist3_nonneg p q). lra.
Qed.
Lemma along_zero l d P : along l d P -> d = 0 -> hd_error l = Some P.
Proof.
  induction 1 as [p|p q l t Ht|p q l d P H IH]; intros E; [reflexivity| |].
  - cbn. f_equal. destruct (Req_dec (dist3 p q) 0) as [Z|Z].
    + apply dist3_zero in Z as <-. now rewrite seg_same.
    + assert (t = 0) as -> by nra. now rewrite seg_0.
  - pose proof (along_range _ _ _ H). pose proof (dist3_nonneg p q). assert (Z : dist3 p q = 0) by lra.
    apply dist3_zero in Z as <-. apply IH. lra.
Qed.
Lemma along_fun l d P : along l d P -> forall d' Q, along l d' Q -> d = d' -> P = Q.
Proof.
  induction 1 as [p|p q l t Ht|p q l d P H IH]; intros d' Q HQ E.
  - inversion HQ. reflexivity.
  - inversion HQ as [| a b c t' Ht' |a b c e Q' HQ']; subst.
    + destruct (Req_dec (dist3 p q) 0) as [Z|Z].
      * apply dist3_zero in Z as <-. now rewrite !seg_same.
      * assert (t = t') as -> by nra. reflexivity.
    + pose proof (along_range _ _ _ HQ'). pose proof (dist3_nonneg p q).
      assert (e = 0) as He by nra. pose proof (along_zero _ _ _ HQ' He) as Z. cbn in Z. injection Z as <-.
      destruct (Req_dec (dist3 p q) 0) as [Z|Z].
      * apply dist3_zero in Z as <-. apply seg_same.
      * assert (t = 1) as -> by nra. apply seg_1.
  - inversion HQ as [| a b c t' Ht' |a b c e Q' HQ']; subst.
    + pose proof (along_range _ _ _ H). pose proof (dist3_nonneg p q).
      assert (d = 0) as Hd by nra. pose proof (along_zero _ _ _ H Hd) as Z. cbn in Z. injection Z as <-.
      destruct (Req_dec (dist3 p q) 0) as [Z|Z].
      * apply dist3_zero in Z as <-. symmetry. apply seg_same.
      * assert (t' = 1) as -> by nra. symmetry. apply seg_1.
    + eapply IH; [exact HQ'|lra].
Qed.
Lemma along_total : forall l p, along (p :: l) (polyline_length (p :: l)) (last (p :: l) p).
Proof.
  induction l as [|q l IH]; intros p; [constructor|].
  change (polyline_length (p :: q :: l)) with (dist3 p q + polyline_length (q :: l)). constructor.
  replace (last (p :: q :: l) p) with (last (q :: l) q); [apply IH|].
  change (last (p :: q :: l) p) with (last (q :: l) p).
  clear. revert q p. induction l as [|r l IH]; intros; [reflexivity|]. exact (eq_trans (eq_sym (IH r q)) (IH r p)).
Qed.

Lemma regular_ends other points resolution n p l :
  points = p :: l -> regular_count points resolution = Z.of_nat (S n) ->
  exists pts, RegularLine other points resolution = Ok pts /\
    nth_error pts 0 = Some p /\ nth_error pts (S n) = Some (last points p).
Proof.
  intros -> Hn. destruct (regular_ok other (p :: l) resolution n ltac:(discriminate) Hn) as (pts & E & L & N).
  exists pts. split; [exact E|]. split.
  - destruct (nth_error pts 0) as [P|] eqn:EP; [|apply nth_error_None in EP; lia].
    apply N in EP. cbn [INR] in EP. apply along_zero in EP; [cbn in EP; now injection EP as <-|unfold Rdiv; ring].
  - destruct (nth_error pts (S n)) as [P|] eqn:EP; [|apply nth_error_None in EP; lia].
    apply N in EP. f_equal. eapply along_fun; [exact EP|apply along_total|].
    assert (0 < INR (S n)) by (apply lt_0_INR; lia). field. lra.
Qed.
