From Coq Require Import Reals Lra.
From Verif Require Import Prelude RealAux Perc_model Perc_spec Perc_proof Grid Surface_model Surface_spec
  Objects_model Objects_spec Objects1_proof Objects2_proof Objects3_proof Objects4_proof Objects5_proof Tile_spec.
Open Scope R_scope.

(* ---------- sums ---------- *)
Lemma sum_ext n f g : (forall i, (i < n)%nat -> f i = g i) -> sum_to n f = sum_to n g.
Proof. induction n; intros H; cbn [sum_to]; [auto|]. rewrite IHn by (intros; apply H; lia). rewrite H by lia. auto. Qed.
Lemma sum_scal n k f : sum_to n (fun i => k * f i) = k * sum_to n f.
Proof. induction n; cbn [sum_to]; [ring|]. rewrite IHn. ring. Qed.
Lemma sum_tel n (F : nat -> R) : sum_to n (fun i => F (S i) - F i) = F n - F 0%nat.
Proof. induction n; cbn [sum_to]; [ring|]. rewrite IHn. ring. Qed.
Lemma sum_const n k : sum_to n (fun _ => k) = INR n * k.
Proof. induction n; cbn [sum_to]; [cbn; ring|]. rewrite IHn, S_INR. ring. Qed.
Lemma sum_plus n f g : sum_to n (fun i => f i + g i) = sum_to n f + sum_to n g.
Proof. induction n; cbn [sum_to]; [ring|]. rewrite IHn. ring. Qed.

(* ---------- positions ---------- *)
Lemma equally_at s n : equally s n -> exists p, subdivides s p /\ subdivides (mkSub (sb_res s) None) p /\ length p = S n /\
  (forall i, (i <= n)%nat -> nth_error p i = Some (INR i / INR n)).
Proof.
  intros (Hn & E & M). exists (map (pfun Constant n) (seq 0 (S n))).
  assert (H : forall m, names_method m Constant -> resolution_to_perc (ResInt (Z.of_nat n)) m = Ok (map (pfun Constant n) (seq 0 (S n)))).
  { intros m Hm. rewrite (to_perc_closed _ _ _ Hm). replace (Z.to_nat (Z.max 1 (Z.of_nat n))) with n by lia. auto. }
  split; [unfold subdivides; rewrite E; auto|]. split; [unfold subdivides; cbn [sb_res sb_method]; rewrite E; apply H; constructor|].
  split; [rewrite map_length, seq_length; auto|]. intros i Hi. rewrite nth_pfun by auto. reflexivity.
Qed.

Lemma proper_at n p i : proper_subdivision n p -> (i <= n)%nat -> nth_error p i = Some (nth i p 0).
Proof. intros (L & _) H. apply nth_error_nth'. lia. Qed.
Lemma proper_0 n p : proper_subdivision n p -> nth 0 p 0 = 0.
Proof. intros (_ & H & _). apply nth_error_nth. auto. Qed.
Lemma proper_n n p : proper_subdivision n p -> nth n p 0 = 1.
Proof. intros (_ & _ & H & _). apply nth_error_nth. auto. Qed.
Lemma proper_step n p i : proper_subdivision n p -> (i < n)%nat -> nth i p 0 < nth (S i) p 0.
Proof. intros H Hi. pose proof H as (_ & _ & _ & HI). apply (HI i (S i)); [lia| |]; apply (proper_at n); auto; lia. Qed.
Lemma proper_mono n p i j : proper_subdivision n p -> (i <= j <= n)%nat -> nth i p 0 <= nth j p 0.
Proof.
  intros H Hi. destruct (Nat.eq_dec i j) as [->|N]; [lra|]. pose proof H as (_ & _ & _ & HI). left.
  apply (HI i j); [lia| |]; apply (proper_at n); auto; lia.
Qed.
Lemma proper_range n p i : proper_subdivision n p -> (i <= n)%nat -> 0 <= nth i p 0 <= 1.
Proof.
  intros H Hi. rewrite <- (proper_0 n p H), <- (proper_n n p H) at 1. split; apply (proper_mono n); auto; lia.
Qed.
Lemma proper_length n p : proper_subdivision n p -> length p = S n.
Proof. now intros (L & _). Qed.

(* ---------- rectangles ---------- *)
Lemma rectangle_area areas dx dy xs ys nx ny px py center c :
  subdivides xs px -> subdivides ys py -> proper_subdivision nx px -> proper_subdivision ny py -> (0 < nx)%nat -> offset center c ->
  exists g, Rectangle areas dx dy xs ys center = Ok g /\ mesh_area g = Rabs (dx * dy).
Proof.
  intros Sx Sy Px Py Hn O. destruct c as [[x0 y0] z0]. pose proof (proper_length _ _ Px) as Lx. pose proof (proper_length _ _ Py) as Ly.
  destruct (rectangle_ok areas dx dy xs ys px py center x0 y0 z0 Sx ltac:(lia) Sy O) as (g & E & Dm & N).
  exists g. split; [exact E|]. unfold mesh_area. rewrite Dm, Lx, Ly. cbn [Nat.sub]. rewrite !Nat.sub_0_r.
  set (P := fun i => nth i px 0). set (Q := fun j => nth j py 0).
  transitivity (sum_to nx (fun i => Rabs (dx * dy) * (P (S i) - P i))).
  { apply sum_ext. intros i Hi.
    transitivity (sum_to ny (fun j => (Rabs (dx * dy) * (P (S i) - P i)) * (Q (S j) - Q j))).
    - apply sum_ext. intros j Hj. unfold cell_area.
      rewrite (N i j (P i) (Q j)), (N (S i) j (P (S i)) (Q j)), (N (S i) (S j) (P (S i)) (Q (S j))), (N i (S j) (P i) (Q (S j)))
        by solve [apply (proper_at nx); auto; lia | apply (proper_at ny); auto; lia].
      unfold twice_area4, twice_area3.
      match goal with |- Rabs ?X / 2 = _ => replace X with (2 * (dx * dy) * ((P (S i) - P i) * (Q (S j) - Q j))) by ring end.
      pose proof (proper_step _ _ i Px Hi) as H1. pose proof (proper_step _ _ j Py Hj) as H2. fold (P i) (P (S i)) in H1. fold (Q j) (Q (S j)) in H2.
      rewrite !Rabs_mult, (Rabs_right 2), (Rabs_right (P (S i) - P i)), (Rabs_right (Q (S j) - Q j)) by lra. field.
    - rewrite sum_scal, sum_tel. unfold Q at 1 2. rewrite (proper_0 ny), (proper_n ny) by auto. ring. }
  rewrite sum_scal, sum_tel. unfold P. rewrite (proper_0 nx), (proper_n nx) by auto. ring.
Qed.

(* ---------- rings ---------- *)
Lemma ring_cell c r r' a a' : twice_area4 (polar c r a) (polar c r a') (polar c r' a') (polar c r' a) = - ((r' * r' - r * r) * sin (degrees (a' - a))).
Proof.
  destruct c as [[x y] z]. unfold polar, twice_area4, twice_area3.
  replace (degrees (a' - a)) with (degrees a' - degrees a) by (unfold degrees, Rdiv; ring). rewrite sin_minus. ring.
Qed.

Lemma annular_area areas inner outer tmin tmax rs ts nr nt pr pt_ center c :
  0 <= inner < outer -> subdivides rs pr -> subdivides ts pt_ -> proper_subdivision nr pr -> proper_subdivision nt pt_ -> (0 < nt)%nat ->
  offset center c ->
  exists g, AnnularSector areas inner outer tmin tmax rs ts center = Ok g /\
    mesh_area g = (outer * outer - inner * inner) / 2 * sum_to nt (fun i => Rabs (sin (degrees ((nth (S i) pt_ 0 - nth i pt_ 0) * (tmax - tmin))))).
Proof.
  intros Hr Sr St Pr Pt Hn O. pose proof (proper_length _ _ Pr) as Lr. pose proof (proper_length _ _ Pt) as Lt.
  destruct (annular_ok areas inner outer tmin tmax rs ts pr pt_ center c Hr Sr St ltac:(lia) O) as (g & E & Dm & _ & _ & _ & _ & N).
  exists g. split; [exact E|]. unfold mesh_area. rewrite Dm, Lr, Lt. cbn [Nat.sub]. rewrite !Nat.sub_0_r. rewrite <- sum_scal.
  apply sum_ext. intros i Hi. set (P := fun i => nth i pt_ 0). set (Q := fun j => between (nth j pr 0) inner outer).
  set (A := Rabs (sin (degrees ((nth (S i) pt_ 0 - nth i pt_ 0) * (tmax - tmin))))).
  transitivity (sum_to nr (fun j => (A / 2) * (Q (S j) * Q (S j) - Q j * Q j))).
  - apply sum_ext. intros j Hj. unfold cell_area.
    rewrite (N i j (P i) (nth j pr 0)), (N (S i) j (P (S i)) (nth j pr 0)), (N (S i) (S j) (P (S i)) (nth (S j) pr 0)), (N i (S j) (P i) (nth (S j) pr 0))
      by solve [apply (proper_at nt); auto; lia | apply (proper_at nr); auto; lia].
    fold (Q j) (Q (S j)). rewrite ring_cell.
    replace (between (P (S i)) tmin tmax - between (P i) tmin tmax) with ((nth (S i) pt_ 0 - nth i pt_ 0) * (tmax - tmin)) by (unfold between, P; ring).
    pose proof (proper_step _ _ j Pr Hj) as H1. pose proof (proper_range _ _ j Pr ltac:(lia)) as H2.
    assert (Q0 : 0 <= Q j) by (unfold Q, between; nra). assert (Q1 : Q j < Q (S j)) by (unfold Q, between; nra).
    rewrite Rabs_Ropp, Rabs_mult, (Rabs_right (Q (S j) * Q (S j) - Q j * Q j)) by nra. unfold A. field.
  - rewrite sum_scal, (sum_tel nr (fun j => Q j * Q j)). unfold Q. rewrite (proper_0 nr), (proper_n nr) by auto. unfold between, A. field.
Qed.

Lemma annular_equal areas inner outer tmin tmax rs ts nr nt pr center c :
  0 <= inner < outer -> subdivides rs pr -> proper_subdivision nr pr -> equally ts nt -> offset center c ->
  exists g, AnnularSector areas inner outer tmin tmax rs ts center = Ok g /\
    mesh_area g = (outer * outer - inner * inner) / 2 * (INR nt * Rabs (sin (degrees ((tmax - tmin) / INR nt)))).
Proof.
  intros Hr Sr Pr Ht O. destruct (equally_at _ _ Ht) as (p & Sp & _ & Lp & Np). pose proof Ht as (Hn & Hres & M).
  assert (HN : 0 < INR nt) by (apply lt_0_INR; lia).
  assert (Pt : proper_subdivision nt p).
  { split; [auto|]. split; [rewrite Np by lia; f_equal; cbn; field; lra|]. split; [rewrite Np by lia; f_equal; field; lra|].
    intros i j x y Hij Hx Hy. assert (j < length p)%nat by (apply nth_error_Some; congruence).
    rewrite Np in Hx, Hy by lia. injection Hx as <-. injection Hy as <-. apply Rmult_lt_compat_r; [now apply Rinv_0_lt_compat|apply lt_INR; auto]. }
  destruct (annular_area areas inner outer tmin tmax rs ts nr nt pr p center c) as (g & E & A); auto.
  exists g. split; [exact E|]. rewrite A. f_equal.
  rewrite <- sum_const. apply sum_ext. intros i Hi. do 3 f_equal.
  erewrite !nth_error_nth by (apply Np; lia). rewrite S_INR. field. lra.
Qed.

Lemma equally_proper s n : equally s n -> exists p, subdivides s p /\ subdivides (mkSub (sb_res s) None) p /\ proper_subdivision n p /\
  (forall i, (i <= n)%nat -> nth_error p i = Some (INR i / INR n)).
Proof.
  intros H. destruct (equally_at _ _ H) as (p & Sp & Sq & Lp & Np). pose proof H as (Hn & _).
  assert (HN : 0 < INR n) by (apply lt_0_INR; lia). exists p. split; [auto|]. split; [auto|]. split; [|auto].
  split; [auto|]. split; [rewrite Np by lia; f_equal; cbn; field; lra|]. split; [rewrite Np by lia; f_equal; field; lra|].
  intros i j x y Hij Hx Hy. assert (j < length p)%nat by (apply nth_error_Some; congruence).
  rewrite Np in Hx, Hy by lia. injection Hx as <-. injection Hy as <-. apply Rmult_lt_compat_r; [now apply Rinv_0_lt_compat|apply lt_INR; auto].
Qed.

(* ---------- fans ---------- *)
Lemma fan_cell c r a a' : twice_area3 c (polar c r a) (polar c r a') = r * r * sin (degrees (a' - a)).
Proof.
  destruct c as [[x y] z]. unfold polar, twice_area3.
  replace (degrees (a' - a)) with (degrees a' - degrees a) by (unfold degrees, Rdiv; ring). rewrite sin_minus. ring.
Qed.

Lemma sector_area radius tmin tmax s n p center c : 0 < radius -> subdivides s p -> proper_subdivision n p -> (0 < n)%nat -> offset center c ->
  exists m, Sector radius tmin tmax s center = Ok m /\
    fan_area m = radius * radius / 2 * sum_to n (fun i => Rabs (sin (degrees ((nth (S i) p 0 - nth i p 0) * (tmax - tmin))))).
Proof.
  intros Hr Sp Pp Hn O. pose proof (proper_length _ _ Pp) as L.
  destruct (sector_ok radius tmin tmax s p center c Hr Sp ltac:(lia) O) as (m & E & Lp & P0 & PN & Lc & NC).
  exists m. split; [exact E|]. unfold fan_area. rewrite Lc, L. cbn [Nat.sub]. rewrite Nat.sub_0_r, <- sum_scal.
  apply sum_ext. intros k Hk. unfold triangle_area. rewrite NC by lia.
  rewrite P0, (PN k (nth k p 0)), (PN (S k) (nth (S k) p 0)) by (apply (proper_at n); auto; lia).
  rewrite fan_cell. replace (between (nth (S k) p 0) tmin tmax - between (nth k p 0) tmin tmax) with ((nth (S k) p 0 - nth k p 0) * (tmax - tmin)) by (unfold between; ring).
  rewrite Rabs_mult, (Rabs_right (radius * radius)) by nra. field.
Qed.

Lemma sector_equal radius tmin tmax s n center c : 0 < radius -> equally s n -> offset center c ->
  exists m, Sector radius tmin tmax s center = Ok m /\
    fan_area m = radius * radius / 2 * (INR n * Rabs (sin (degrees ((tmax - tmin) / INR n)))).
Proof.
  intros Hr Hs O. destruct (equally_proper _ _ Hs) as (p & Sp & _ & Pp & Np). pose proof Hs as (Hn & _).
  assert (HN : 0 < INR n) by (apply lt_0_INR; lia).
  destruct (sector_area radius tmin tmax s n p center c) as (m & E & A); auto.
  exists m. split; [exact E|]. rewrite A. f_equal. rewrite <- sum_const. apply sum_ext. intros i Hi. do 3 f_equal.
  erewrite !nth_error_nth by (apply Np; lia). rewrite S_INR. field. lra.
Qed.

(* ---------- sectors in rectangles ---------- *)
Definition cross (p q : R * R) : R := fst p * snd q - snd p * fst q.
Definition quad2 (a b c d : R * R) : R :=
  (fst b - fst a) * (snd c - snd a) - (snd b - snd a) * (fst c - fst a) +
  ((fst c - fst a) * (snd d - snd a) - (snd c - snd a) * (fst d - fst a)).
Definition seg2 (s : R) (a b : R * R) : R * R := (between s (fst a) (fst b), between s (snd a) (snd b)).
Definition swap (p : R * R) : R * R := (snd p, fst p).
(* the ends of the line of block g at position t *)
Definition arc (r t : R) : R * R := (r * cos (degrees (45 * (1 - t))), r * sin (degrees (45 * (1 - t)))).
Definition side (dx dy t : R) : R * R := (dx, dy * (1 - t)).

Lemma strip_cell A0 A1 B0 B1 s s' :
  quad2 (seg2 s A0 B0) (seg2 s A1 B1) (seg2 s' A1 B1) (seg2 s' A0 B0) =
  (s' - s) * ((2 - s - s') / 2 * cross (fst A1 - fst A0, snd A1 - snd A0) (fst B0 - fst A0 + (fst B1 - fst A1), snd B0 - snd A0 + (snd B1 - snd A1)) +
              (s + s') / 2 * cross (fst B1 - fst B0, snd B1 - snd B0) (fst B0 - fst A0 + (fst B1 - fst A1), snd B0 - snd A0 + (snd B1 - snd A1))).
Proof.
  destruct A0 as [a0 b0], A1 as [a1 b1], B0 as [c0 d0], B1 as [c1 d1]. unfold quad2, seg2, cross, between. cbn [fst snd]. field.
Qed.

Lemma msin m : 0 <= m <= PI / 4 -> 1 <= cos m + m * sin m.
Proof.
  intros Hm. pose proof PI_RGT_0. set (x := m / 2). assert (Hx : 0 <= x <= PI / 8) by (unfold x; lra).
  replace m with (2 * x) by (unfold x; field). rewrite cos_2a_sin, sin_2a.
  assert (Hs : 0 <= sin x) by (apply sin_ge_0; lra).
  assert (Hle : sin x <= x).
  { destruct (Req_dec x 0) as [->|N]; [rewrite sin_0; lra|]. left. apply sin_lt_x. lra. }
  assert (Hc : / 2 <= cos x).
  { replace (/ 2) with (cos (PI / 3)) by (rewrite cos_PI3; lra). apply cos_decr_1; lra. }
  assert (A1 : sin x * sin x <= x * sin x) by (apply Rmult_le_compat_r; lra).
  assert (A2 : x * sin x * / 2 <= x * sin x * cos x) by (apply Rmult_le_compat_l; [apply Rmult_le_pos; lra|lra]).
  lra.
Qed.

Lemma arc_sign r dx dy t0 t1 : 0 < r < Rmin dx dy -> 0 <= t0 < t1 -> t1 <= 1 ->
  let D := (dx - fst (arc r t0) + (dx - fst (arc r t1)), dy * (1 - t0) - snd (arc r t0) + (dy * (1 - t1) - snd (arc r t1))) in
  0 < cross (fst (arc r t1) - fst (arc r t0), snd (arc r t1) - snd (arc r t0)) D /\
  0 < cross (dx - dx, dy * (1 - t1) - dy * (1 - t0)) D.
Proof.
  intros Hr Ht H1. assert (Hx : r < dx) by (pose proof (Rmin_l dx dy); lra). assert (Hy : r < dy) by (pose proof (Rmin_r dx dy); lra).
  pose proof PI_RGT_0. pose proof PI_4.
  set (m := PI / 8 * (2 - t0 - t1)). set (h := PI / 8 * (t1 - t0)).
  assert (E0 : degrees (45 * (1 - t0)) = m + h) by (unfold degrees, m, h; field).
  assert (E1 : degrees (45 * (1 - t1)) = m - h) by (unfold degrees, m, h; field).
  unfold arc, cross. cbn [fst snd]. rewrite E0, E1, cos_plus, cos_minus, sin_plus, sin_minus.
  assert (Hh : 0 < h <= PI / 8) by (unfold h; split; nra).
  assert (Hm : 0 <= m <= PI / 4) by (unfold m; split; nra).
  assert (Sh : 0 < sin h) by (apply sin_gt_0; lra).
  assert (Sm : 0 <= sin m) by (apply sin_ge_0; lra).
  assert (Cm : 0 < cos m) by (apply cos_gt_0; lra).
  pose proof (COS_bound h) as [_ Ch]. pose proof (msin m Hm) as Hms.
  assert (P1 : sin m * sin m + cos m * cos m = 1) by (pose proof (sin2_cos2 m) as Q; unfold Rsqr in Q; lra).
  split.
  - match goal with |- 0 < ?X => replace X with (2 * r * sin h * (dy * (2 - t0 - t1) * sin m + 2 * dx * cos m - 2 * r * cos h * (sin m * sin m + cos m * cos m))) by ring end.
    rewrite P1. apply Rmult_lt_0_compat; [nra|].
    assert (W : m <= 2 - t0 - t1 - (2 - t0 - t1) / 2) by (unfold m; nra).
    assert (A1' : m * sin m <= (2 - t0 - t1) / 2 * sin m) by (apply Rmult_le_compat_r; lra).
    assert (A2 : r * ((2 - t0 - t1) / 2 * sin m) <= dy * ((2 - t0 - t1) / 2 * sin m)).
    { apply Rmult_le_compat_r; [|lra]. apply Rmult_le_pos; lra. }
    assert (A3 : r * cos m < dx * cos m) by (apply Rmult_lt_compat_r; lra).
    assert (A4 : r * 1 <= r * (cos m + (2 - t0 - t1) / 2 * sin m)) by (apply Rmult_le_compat_l; lra).
    assert (A5 : r * cos h <= r * 1) by (apply Rmult_le_compat_l; lra).
    lra.
  - match goal with |- 0 < ?X => replace X with (dy * (t1 - t0) * (2 * (dx - r * cos m * cos h))) by ring end.
    apply Rmult_lt_0_compat; [apply Rmult_lt_0_compat; lra|].
    assert (cos m * cos h <= 1).
    { pose proof (COS_bound m). assert (0 < cos h) by (apply cos_gt_0; lra). nra. }
    assert (r * (cos m * cos h) <= r * 1) by (apply Rmult_le_compat_l; lra). lra.
Qed.

Lemma quad2_swap a b c d : quad2 (swap a) (swap b) (swap c) (swap d) = - quad2 a b c d.
Proof. unfold quad2, swap. cbn [fst snd]. ring. Qed.

Definition line_at r dx dy t s := seg2 s (arc r t) (side dx dy t).
Lemma cell_sign r dx dy t0 t1 s s' : 0 < r < Rmin dx dy -> 0 <= t0 < t1 -> t1 <= 1 -> 0 <= s < s' -> s' <= 1 ->
  0 < quad2 (line_at r dx dy t0 s) (line_at r dx dy t1 s) (line_at r dx dy t1 s') (line_at r dx dy t0 s').
Proof.
  intros Hr Ht H1 Hs Hs1. unfold line_at. rewrite strip_cell. destruct (arc_sign r dx dy t0 t1 Hr Ht H1) as [P Q]. cbn [side fst snd] in *.
  apply Rmult_lt_0_compat; [lra|].
  match goal with |- 0 < _ * ?X + _ * ?Y => change (0 < X) in P; change (0 < Y) in Q end.
  assert (0 < (s + s') / 2) by lra. assert (0 < (2 - s - s') / 2) by lra. nra.
Qed.

Lemma strip_sum r dx dy t0 t1 n p : proper_subdivision n p ->
  sum_to n (fun j => quad2 (line_at r dx dy t0 (nth j p 0)) (line_at r dx dy t1 (nth j p 0)) (line_at r dx dy t1 (nth (S j) p 0)) (line_at r dx dy t0 (nth (S j) p 0))) =
  quad2 (arc r t0) (arc r t1) (side dx dy t1) (side dx dy t0).
Proof.
  intros Pp. unfold line_at.
  set (X := cross (fst (arc r t1) - fst (arc r t0), snd (arc r t1) - snd (arc r t0))
    (fst (side dx dy t0) - fst (arc r t0) + (fst (side dx dy t1) - fst (arc r t1)), snd (side dx dy t0) - snd (arc r t0) + (snd (side dx dy t1) - snd (arc r t1)))).
  set (Y := cross (fst (side dx dy t1) - fst (side dx dy t0), snd (side dx dy t1) - snd (side dx dy t0))
    (fst (side dx dy t0) - fst (arc r t0) + (fst (side dx dy t1) - fst (arc r t1)), snd (side dx dy t0) - snd (arc r t0) + (snd (side dx dy t1) - snd (arc r t1)))).
  set (F := fun j => let s := nth j p 0 in (s - s * s / 2) * X + s * s / 2 * Y).
  transitivity (sum_to n (fun j => F (S j) - F j)).
  - apply sum_ext. intros j _. rewrite strip_cell. fold X Y. unfold F. cbn zeta. field.
  - rewrite sum_tel. unfold F. rewrite (proper_0 n), (proper_n n) by auto. cbn zeta.
    unfold X, Y, cross, quad2, arc, side. cbn [fst snd]. field.
Qed.

(* sum of the strips of one block *)
Lemma block_sum r dx dy n : (0 < n)%nat ->
  sum_to n (fun i => quad2 (arc r (INR i / INR n)) (arc r (INR (S i) / INR n)) (side dx dy (INR (S i) / INR n)) (side dx dy (INR i / INR n))) =
  dx * dy - INR n * (r * r * sin (degrees (45 / INR n))) - cross (arc r 0) (dx, dy).
Proof.
  intros Hn. assert (HN : 0 < INR n) by (apply lt_0_INR; auto).
  set (F := fun i => cross (arc r (INR i / INR n)) (side dx dy (INR i / INR n))).
  transitivity (sum_to n (fun i => (F (S i) - F i) + (dx * dy / INR n - r * r * sin (degrees (45 / INR n))))).
  - apply sum_ext. intros i _.
    replace (degrees (45 / INR n)) with (degrees (45 * (1 - INR i / INR n)) - degrees (45 * (1 - INR (S i) / INR n)))
      by (unfold degrees; rewrite S_INR; field; lra).
    rewrite sin_minus. unfold F, quad2, cross, arc, side. cbn [fst snd]. rewrite S_INR. field. lra.
  - rewrite sum_plus, sum_tel, sum_const. unfold F. cbn [INR].
    replace (INR n / INR n) with 1 by (field; lra). replace (0 / INR n) with 0 by (field; lra).
    unfold cross, side, arc. cbn [fst snd]. replace (45 * (1 - 1)) with 0 by ring.
    replace (degrees 0) with 0 by (unfold degrees; field). rewrite sin_0, cos_0. field. lra.
Qed.

Lemma block_sign r dx dy n m p i j : 0 < r < Rmin dx dy -> proper_subdivision m p -> (i < n)%nat -> (j < m)%nat ->
  0 < quad2 (line_at r dx dy (INR i / INR n) (nth j p 0)) (line_at r dx dy (INR (S i) / INR n) (nth j p 0))
            (line_at r dx dy (INR (S i) / INR n) (nth (S j) p 0)) (line_at r dx dy (INR i / INR n) (nth (S j) p 0)).
Proof.
  intros Hr Pp Hi Hj. assert (HN : 0 < INR n) by (apply lt_0_INR; lia).
  pose proof (proper_step _ _ j Pp Hj). pose proof (proper_range _ _ j Pp ltac:(lia)). pose proof (proper_range _ _ (S j) Pp ltac:(lia)).
  assert (INR (S i) <= INR n) by (apply le_INR; lia). pose proof (pos_INR i). pose proof (S_INR i).
  assert (HI : 0 < / INR n) by (apply Rinv_0_lt_compat; auto).
  apply cell_sign; auto; try lra.
  - split; [apply Rmult_le_pos; lra|]. apply Rmult_lt_compat_r; lra.
  - apply (Rmult_le_reg_r (INR n)); [auto|]. unfold Rdiv. rewrite Rmult_assoc, Rinv_l by lra. lra.
Qed.

Definition up (o : pt) (p : R * R) : pt := let '(x, y, z) := o in (fst p + x, snd p + y, z).
Lemma quad2_up o a b c d : twice_area4 (up o a) (up o b) (up o c) (up o d) = quad2 a b c d.
Proof. destruct o as [[x y] z]. unfold up, twice_area4, twice_area3, quad2. ring. Qed.

(* the nodes of both blocks, for equal subdivisions *)
Lemma block_nodes areas radius dx dy rs ts pr nr n center o :
  0 < radius < Rmin dx dy -> subdivides rs pr -> proper_subdivision nr pr -> equally ts n -> offset center o ->
  exists g h, SectorRectangle areas radius dx dy rs ts center = Ok (g, h) /\
    sg_dims g = (S n, S nr, 1%nat) /\ sg_dims h = (S n, S nr, 1%nat) /\
    forall i j, (i <= n)%nat -> (j <= nr)%nat ->
      node g i j = Some (up o (line_at radius dx dy (INR i / INR n) (nth j pr 0))) /\
      node h i j = Some (up o (swap (line_at radius dy dx (INR i / INR n) (nth j pr 0)))).
Proof.
  intros Hr Sr Pr Ht O. destruct (equally_proper _ _ Ht) as (p & Sp & Sq & Pp & Np). pose proof Ht as (Hn & _).
  pose proof (proper_length _ _ Pr) as Lr. pose proof (proper_length _ _ Pp) as Lp.
  destruct (sector_rectangle_ok areas radius dx dy rs ts pr p p center o Hr Sr Sp Sq ltac:(lia) O) as (g & h & E & D1 & D2 & N).
  exists g, h. split; [exact E|]. rewrite Lr, Lp in *. split; [auto|]. split; [auto|]. intros i j Hi Hj.
  destruct (N i j _ _ _ (Np i Hi) (Np i Hi) (proper_at _ _ j Pr Hj)) as [-> ->]. set (t := INR i / INR n). set (s := nth j pr 0).
  destruct o as [[x y] z]. unfold moved, up, swap, on_segment, line_at, seg2, polar, arc, side, between. cbn [fst snd].
  assert (A1 : degrees ((1 - t) * 45 + t * 0) = degrees (45 * (1 - t))) by (unfold degrees; field).
  assert (A2 : degrees ((1 - t) * 45 + t * 90) = PI / 2 - degrees (45 * (1 - t))) by (unfold degrees; field).
  rewrite A1, A2, cos_shift, sin_shift. split; do 2 f_equal; try ring; f_equal; ring.
Qed.

Lemma sector_rectangle_area areas radius dx dy rs ts pr nr n center o :
  0 < radius < Rmin dx dy -> subdivides rs pr -> proper_subdivision nr pr -> equally ts n -> offset center o ->
  exists g h, SectorRectangle areas radius dx dy rs ts center = Ok (g, h) /\
    (forall i j, (i < n)%nat -> (j < nr)%nat ->
       (exists a b c d, quad g i j a b c d /\ 0 < twice_area4 a b c d) /\
       (exists a b c d, quad h i j a b c d /\ twice_area4 a b c d < 0)) /\
    mesh_area g + mesh_area h = dx * dy - INR n * (radius * radius * sin (degrees (45 / INR n))).
Proof.
  intros Hr Sr Pr Ht O. pose proof Ht as (Hn & _).
  destruct (block_nodes areas radius dx dy rs ts pr nr n center o Hr Sr Pr Ht O) as (g & h & E & D1 & D2 & N).
  assert (Hr' : 0 < radius < Rmin dy dx) by (rewrite Rmin_comm; auto).
  exists g, h. split; [exact E|].
  assert (NG : forall i j, (i <= n)%nat -> (j <= nr)%nat -> node g i j = Some (up o (line_at radius dx dy (INR i / INR n) (nth j pr 0)))) by (intros; now apply N).
  assert (NH : forall i j, (i <= n)%nat -> (j <= nr)%nat -> node h i j = Some (up o (swap (line_at radius dy dx (INR i / INR n) (nth j pr 0))))) by (intros; now apply N).
  split.
  { intros i j Hi Hj. split.
    - exists (up o (line_at radius dx dy (INR i / INR n) (nth j pr 0))), (up o (line_at radius dx dy (INR (S i) / INR n) (nth j pr 0))),
        (up o (line_at radius dx dy (INR (S i) / INR n) (nth (S j) pr 0))), (up o (line_at radius dx dy (INR i / INR n) (nth (S j) pr 0))).
      split; [repeat split; apply NG; lia|]. rewrite quad2_up. eapply block_sign; eauto.
    - exists (up o (swap (line_at radius dy dx (INR i / INR n) (nth j pr 0)))), (up o (swap (line_at radius dy dx (INR (S i) / INR n) (nth j pr 0)))),
        (up o (swap (line_at radius dy dx (INR (S i) / INR n) (nth (S j) pr 0)))), (up o (swap (line_at radius dy dx (INR i / INR n) (nth (S j) pr 0)))).
      split; [repeat split; apply NH; lia|]. rewrite quad2_up, quad2_swap. pose proof (block_sign radius dy dx n nr pr i j Hr' Pr Hi Hj). lra. }
  assert (MG : mesh_area g = / 2 * (dx * dy - INR n * (radius * radius * sin (degrees (45 / INR n))) - cross (arc radius 0) (dx, dy))).
  { unfold mesh_area. rewrite D1. cbn [Nat.sub]. rewrite !Nat.sub_0_r, <- block_sum, <- sum_scal by auto. apply sum_ext. intros i Hi.
    rewrite <- (strip_sum radius dx dy _ _ nr pr Pr), <- sum_scal. apply sum_ext. intros j Hj. unfold cell_area.
    rewrite !NG by lia. rewrite quad2_up, Rabs_right by (left; eapply block_sign; eauto). field. }
  assert (MH : mesh_area h = / 2 * (dy * dx - INR n * (radius * radius * sin (degrees (45 / INR n))) - cross (arc radius 0) (dy, dx))).
  { unfold mesh_area. rewrite D2. cbn [Nat.sub]. rewrite !Nat.sub_0_r, <- block_sum, <- sum_scal by auto. apply sum_ext. intros i Hi.
    rewrite <- (strip_sum radius dy dx _ _ nr pr Pr), <- sum_scal. apply sum_ext. intros j Hj. unfold cell_area.
    rewrite !NH by lia. rewrite quad2_up, quad2_swap, Rabs_Ropp, Rabs_right by (left; eapply block_sign; eauto). field. }
  rewrite MG, MH. unfold cross, arc. cbn [fst snd].
  replace (degrees (45 * (1 - 0))) with (PI / 4) by (unfold degrees; field). rewrite cos_PI4, sin_PI4. field. apply sqrt2_neq_0.
Qed.

(* ---------- a disc quarter and its frame fill the rectangle ---------- *)
Lemma filled areas radius dx dy rs ts ts2 nr pr n center o :
  0 < radius < Rmin dx dy -> subdivides rs pr -> proper_subdivision nr pr -> equally ts n -> equally ts2 (2 * n) -> offset center o ->
  exists m g h, Sector radius 0 90 ts2 center = Ok m /\ SectorRectangle areas radius dx dy rs ts center = Ok (g, h) /\
    fan_area m + mesh_area g + mesh_area h = dx * dy.
Proof.
  intros Hr Sr Pr Ht Ht2 O. pose proof Ht as (Hn & _).
  destruct (sector_rectangle_area areas radius dx dy rs ts pr nr n center o Hr Sr Pr Ht O) as (g & h & E & _ & A).
  destruct (sector_equal radius 0 90 ts2 (2 * n) center o ltac:(lra) Ht2 O) as (m & E' & A').
  exists m, g, h. split; [auto|]. split; [auto|]. rewrite Rplus_assoc, A, A'. rewrite mult_INR. cbn [INR].
  assert (HN : 1 <= INR n) by (change 1 with (INR 1); apply le_INR; lia).
  replace (degrees ((90 - 0) / ((1 + 1) * INR n))) with (degrees (45 / INR n)) by (unfold degrees; field; lra).
  rewrite Rabs_right; [field|].
  pose proof PI_RGT_0. assert (0 < / INR n <= 1).
  { split; [apply Rinv_0_lt_compat; lra|]. rewrite <- Rinv_1. apply Rinv_le_contravar; lra. }
  apply Rle_ge, sin_ge_0; unfold degrees, Rdiv; nra.
Qed.

(* ---------- objects that fit together ---------- *)
Lemma some3 (x y z a b c : R) : x = a -> y = b -> z = c -> Some (x, y, z) = Some (a, b, c).
Proof. now intros -> -> ->. Qed.
Lemma annular_rings areas r0 r1 r2 tmin tmax rs rs' ts nr nr' nt pr pr' pt_ center c :
  0 <= r0 < r1 -> r1 < r2 -> subdivides rs pr -> proper_subdivision nr pr -> subdivides rs' pr' -> proper_subdivision nr' pr' ->
  subdivides ts pt_ -> length pt_ = S nt -> (0 < nt)%nat -> offset center c ->
  exists g h, AnnularSector areas r0 r1 tmin tmax rs ts center = Ok g /\ AnnularSector areas r1 r2 tmin tmax rs' ts center = Ok h /\
    forall i, (i <= nt)%nat -> node g i nr <> None /\ node g i nr = node h i 0.
Proof.
  intros H0 H1 Sr Pr Sr' Pr' St Lt Hn O.
  destruct (annular_ok areas r0 r1 tmin tmax rs ts pr pt_ center c H0 Sr St ltac:(lia) O) as (g & E & _ & _ & _ & _ & _ & N).
  destruct (annular_ok areas r1 r2 tmin tmax rs' ts pr' pt_ center c ltac:(lra) Sr' St ltac:(lia) O) as (h & E' & _ & _ & _ & _ & _ & N').
  exists g, h. split; [auto|]. split; [auto|]. intros i Hi. destruct (nth_error pt_ i) as [t|] eqn:Et; [|apply nth_error_None in Et; lia].
  destruct Pr as (_ & _ & P1 & _). destruct Pr' as (_ & P0 & _).
  rewrite (N i nr t 1 Et P1), (N' i 0%nat t 0 Et P0). split; [discriminate|]. unfold between. do 2 f_equal. ring.
Qed.

Lemma fan_ring areas r0 r1 tmin tmax rs ts nr nt pr pt_ center c :
  0 < r0 < r1 -> subdivides rs pr -> proper_subdivision nr pr -> subdivides ts pt_ -> length pt_ = S nt -> (0 < nt)%nat -> offset center c ->
  exists m g, Sector r0 tmin tmax ts center = Ok m /\ AnnularSector areas r0 r1 tmin tmax rs ts center = Ok g /\
    forall i, (i <= nt)%nat -> node g i 0 <> None /\ nth_error (t_pts m) (S i) = node g i 0.
Proof.
  intros H0 Sr Pr St Lt Hn O.
  destruct (sector_ok r0 tmin tmax ts pt_ center c ltac:(lra) St ltac:(lia) O) as (m & E & _ & _ & PN & _).
  destruct (annular_ok areas r0 r1 tmin tmax rs ts pr pt_ center c ltac:(lra) Sr St ltac:(lia) O) as (g & E' & _ & _ & _ & _ & _ & N).
  exists m, g. split; [auto|]. split; [auto|]. intros i Hi. destruct (nth_error pt_ i) as [t|] eqn:Et; [|apply nth_error_None in Et; lia].
  destruct Pr as (_ & P0 & _). rewrite (N i 0%nat t 0 Et P0), (PN i t Et). split; [discriminate|]. unfold between. do 2 f_equal. ring.
Qed.

Lemma ring_frame areas r0 radius dx dy rs rs' ts ts2 nr nr' pr pr' n center o :
  0 <= r0 < radius -> radius < Rmin dx dy -> subdivides rs pr -> proper_subdivision nr pr -> subdivides rs' pr' -> proper_subdivision nr' pr' ->
  equally ts2 (2 * n) -> equally ts n -> offset center o ->
  exists a g h, AnnularSector areas r0 radius 0 90 rs ts2 center = Ok a /\ SectorRectangle areas radius dx dy rs' ts center = Ok (g, h) /\
    forall i, (i <= n)%nat ->
      node a i nr <> None /\ node a i nr = node g (n - i) 0 /\ node a (n + i) nr <> None /\ node a (n + i) nr = node h i 0.
Proof.
  intros H0 H1 Sr Pr Sr' Pr' Ht2 Ht O. pose proof Ht as (Hn & _).
  destruct (equally_proper _ _ Ht2) as (p2 & Sp2 & _ & Pp2 & Np2).
  destruct (annular_ok areas r0 radius 0 90 rs ts2 pr p2 center o ltac:(lra) Sr Sp2 ltac:(rewrite (proper_length _ _ Pp2); lia) O) as (a & E & _ & _ & _ & _ & _ & N).
  destruct (block_nodes areas radius dx dy rs' ts pr' nr' n center o ltac:(lra) Sr' Pr' Ht O) as (g & h & E' & _ & _ & N').
  exists a, g, h. split; [auto|]. split; [auto|]. intros i Hi.
  destruct Pr as (_ & _ & P1 & _). pose proof (proper_0 _ _ Pr') as Z.
  assert (HN : 1 <= INR n) by (change 1 with (INR 1); apply le_INR; lia).
  rewrite (N i nr _ 1 (Np2 i ltac:(lia)) P1), (N (n + i)%nat nr _ 1 (Np2 (n + i)%nat ltac:(lia)) P1).
  destruct (N' (n - i)%nat 0%nat ltac:(lia) ltac:(lia)) as [-> _]. destruct (N' i 0%nat ltac:(lia) ltac:(lia)) as [_ ->].
  rewrite Z, minus_INR, plus_INR, mult_INR by lia. cbn [INR].
  destruct o as [[x y] z]. unfold polar, up, swap, line_at, seg2, arc, side, between. cbn [fst snd].
  assert (A1 : degrees ((1 - INR i / ((1 + 1) * INR n)) * 0 + INR i / ((1 + 1) * INR n) * 90) = degrees (45 * (1 - (INR n - INR i) / INR n)))
    by (unfold degrees; field; lra).
  assert (A2 : degrees ((1 - (INR n + INR i) / ((1 + 1) * INR n)) * 0 + (INR n + INR i) / ((1 + 1) * INR n) * 90) = PI / 2 - degrees (45 * (1 - INR i / INR n)))
    by (unfold degrees; field; lra).
  rewrite A1, A2, cos_shift, sin_shift.
  split; [discriminate|]. split; [apply some3; ring|]. split; [discriminate|]. apply some3; ring.
Qed.

Lemma frame_rectangles areas radius dx dy ex ey rs ts xs ys nr pr px py n center o right top :
  0 < radius < Rmin dx dy -> subdivides rs pr -> proper_subdivision nr pr -> equally ts n -> offset center o ->
  subdivides xs px -> (exists nx, proper_subdivision nx px /\ (0 < nx)%nat) -> subdivides ys py -> (exists ny, proper_subdivision ny py) ->
  offset right (moved (dx, 0, 0) o) -> offset top (moved (0, dy, 0) o) ->
  exists g h a b, SectorRectangle areas radius dx dy rs ts center = Ok (g, h) /\
    Rectangle areas ex dy xs ts right = Ok a /\ Rectangle areas dx ey ts ys top = Ok b /\
    forall k, (k <= n)%nat ->
      node a 0 k <> None /\ node a 0 k = node g (n - k) nr /\ node b k 0 <> None /\ node b k 0 = node h (n - k) nr.
Proof.
  intros Hr Sr Pr Ht O Sx (nx & Px & Hnx) Sy (ny & Py) Or Ot. pose proof Ht as (Hn & _).
  destruct (block_nodes areas radius dx dy rs ts pr nr n center o Hr Sr Pr Ht O) as (g & h & E & _ & _ & N).
  destruct (equally_proper _ _ Ht) as (p & Sp & _ & Pp & Np). destruct o as [[x y] z]. cbn [moved] in Or, Ot.
  destruct (rectangle_ok areas ex dy xs ts px p right _ _ _ Sx ltac:(rewrite (proper_length _ _ Px); lia) Sp Or) as (a & Ea & _ & Na).
  destruct (rectangle_ok areas dx ey ts ys p py top _ _ _ Sp ltac:(rewrite (proper_length _ _ Pp); lia) Sy Ot) as (b & Eb & _ & Nb).
  exists g, h, a, b. split; [auto|]. split; [auto|]. split; [auto|]. intros k Hk.
  assert (HN : 1 <= INR n) by (change 1 with (INR 1); apply le_INR; lia).
  destruct Px as (_ & P0 & _). destruct Py as (_ & Q0 & _).
  rewrite (Na 0%nat k _ _ P0 (Np k Hk)), (Nb k 0%nat _ _ (Np k Hk) Q0).
  destruct (N (n - k)%nat nr ltac:(lia) ltac:(lia)) as [-> ->]. rewrite (proper_n _ _ Pr), minus_INR by lia.
  unfold up, swap, line_at, seg2, arc, side, between. cbn [fst snd].
  split; [discriminate|]. split; [apply some3; try field; lra|]. split; [discriminate|]. apply some3; try field; lra.
Qed.
