From Coq Require Import Reals Lra.
From Verif Require Import Prelude Perc_model Perc_spec Perc_proof Grid Surface_model Surface_spec Surface_proof
  Volume_model Objects_model Objects_spec Objects1_proof Objects2_proof Objects3_proof.
Open Scope R_scope.

Lemma sub_none : subdivides default_sub [0; 1].
Proof.
  unfold subdivides, default_sub. cbn [sb_res sb_method]. rewrite perc_none.
  destruct (perc_proper 1 None Constant ltac:(constructor)) as (p & -> & L & H0 & H1 & _). f_equal.
  change (Z.to_nat (Z.max 1 1)) with 1%nat in *. destruct p as [|a [|b [|c p]]]; try discriminate.
  cbn in H0, H1. congruence.
Qed.

Section Obj5.
Variable areas : shape3 -> list pt -> list R.
Variable volumes : shape3 -> list pt -> list R.

(* ---------- radii ---------- *)

Lemma radii inner outer radius dx dy tmin tmax rs ts xs ys pr pt_ px py center c :
  subdivides rs pr -> subdivides ts pt_ -> subdivides xs px -> subdivides ys py ->
  (2 <= length pt_)%nat -> (2 <= length px)%nat -> (2 <= length py)%nat -> offset center c ->
  ((exists g, AnnularSector areas inner outer tmin tmax rs ts center = Ok g) <-> 0 <= inner < outer) /\
  ((exists g, Annulus areas inner outer rs ts center = Ok g) <-> 0 <= inner < outer) /\
  ((exists m, Sector radius tmin tmax ts center = Ok m) <-> 0 < radius) /\
  ((exists m, Circle radius ts center = Ok m) <-> 0 < radius) /\
  (0 < dx /\ 0 < dy ->
     ((exists q, subdivides (mkSub (sb_res ts) None) q) ->
      (exists gh, SectorRectangle areas radius dx dy rs ts center = Ok gh) <-> 0 < radius /\ radius < dx /\ radius < dy) /\
     (0 < radius ->
      (exists gh, RectangleSector areas dx dy radius xs ys rs center = Ok gh) <-> dx * dx + dy * dy <= radius * radius)).
Proof.
  intros Sr St Sx Sy Lt Lx Ly O.
  assert (K : forall t0 t1, (exists g, AnnularSector areas inner outer t0 t1 rs ts center = Ok g) <-> 0 <= inner < outer).
  { intros t0 t1. split.
    - intros (g & E). destruct (Rle_dec 0 inner) as [H|H]; [destruct (Rlt_dec inner outer) as [H'|H']; [lra|]|];
        rewrite annular_bad in E by lra; discriminate.
    - intros H. destruct (annular_ok areas inner outer t0 t1 rs ts pr pt_ center c H Sr St Lt O) as (g & E & _). eauto. }
  assert (K2 : forall t0 t1, (exists m, Sector radius t0 t1 ts center = Ok m) <-> 0 < radius).
  { intros t0 t1. split.
    - intros (m & E). destruct (Rlt_dec 0 radius); [assumption|]. rewrite sector_bad in E by lra. discriminate.
    - intros H. destruct (sector_ok radius t0 t1 ts pt_ center c H St Lt O) as (m & E & _). eauto. }
  split; [apply K|]. split; [apply K|]. split; [apply K2|]. split; [apply K2|]. intros (Hx & Hy). split.
  - intros (q & Sq). split.
    + intros (gh & E). destruct (Rlt_dec 0 radius) as [H1|H1]; [destruct (Rlt_dec radius (Rmin dx dy)) as [H2|H2]|].
      * pose proof (Rmin_l dx dy). pose proof (Rmin_r dx dy). lra.
      * rewrite sector_rectangle_bad in E by lra. discriminate.
      * rewrite sector_rectangle_bad in E by lra. discriminate.
    + intros (H1 & H2 & H3).
      assert (H4 : 0 < radius < Rmin dx dy). { split; [lra|]. now apply Rmin_glb_lt. }
      destruct (sector_rectangle_ok areas radius dx dy rs ts pr pt_ q center c H4 Sr St Sq Lt O) as (g & h & E & _). eauto.
  - intros Hr. pose proof (Rle_0_sqr dx) as Q1. pose proof (Rle_0_sqr dy) as Q2. unfold Rsqr in Q1, Q2.
    assert (D : radius < sqrt (dx * dx + dy * dy) <-> radius * radius < dx * dx + dy * dy).
    { rewrite <- (sqrt_square radius) at 1 by lra. split; intros H.
      - apply sqrt_lt_0_alt in H. exact H.
      - apply sqrt_lt_1_alt. split; [nra|exact H]. }
    split.
    + intros (gh & E). destruct (Rle_dec (dx * dx + dy * dy) (radius * radius)) as [H|H]; [exact H|].
      rewrite rectangle_sector_bad in E; [discriminate|]. split; [lra|]. apply D. lra.
    + intros H. assert (H' : ~ 0 < radius < sqrt (dx * dx + dy * dy)). { intros (_ & H0). apply D in H0. lra. }
      destruct (rectangle_sector_ok areas dx dy radius xs ys rs px py pr center c H' Sr Sx Sy Lx Ly O) as (g & h & E & _). eauto.
Qed.

Lemma radius_not_positive : exists radius gh, radius <= 0 /\
  RectangleSector areas 1 1 radius default_sub default_sub default_sub None = Ok gh.
Proof.
  assert (H : ~ 0 < -1 < sqrt (1 * 1 + 1 * 1)) by lra.
  destruct (rectangle_sector_ok areas 1 1 (-1) default_sub default_sub default_sub _ _ _ None _ H sub_none sub_none sub_none
              ltac:(cbn; lia) ltac:(cbn; lia) off_none) as (g & h & E & _).
  exists (-1), (g, h). split; [lra|exact E].
Qed.

(* ---------- the argument center of a rectangle ---------- *)

Lemma rectangle_center_wrong : exists g a b, Rectangle areas 1 1 default_sub default_sub (Some [0; 0]) = Ok g /\
  node g 0 0 = Some a /\ node g 1 1 = Some b /\ on_segment (/ 2) a b <> (0, 0, 0).
Proof.
  destruct (rectangle_ok areas 1 1 default_sub default_sub _ _ (Some [0; 0]) 0 0 0 sub_none ltac:(cbn; lia) sub_none (off_two 0 0))
    as (g & E & D & N). exists g. do 2 eexists. split; [exact E|].
  split; [apply (N 0%nat 0%nat 0 0); reflexivity|]. split; [apply (N 1%nat 1%nat 1 1); reflexivity|].
  unfold on_segment, between. intros H. injection H as H _. lra.
Qed.

(* ---------- centers of two coordinates ---------- *)

Lemma two_coordinates : 
  (exists g, AnnularSector areas 1 2 0 90 default_sub default_sub (Some [0; 0]) = Ok g) /\
  CylindricalShellSector areas volumes 1 2 0 90 1 default_sub default_sub default_sub (Some [0; 0]) = Err IndexError.
Proof.
  split; [|reflexivity].
  destruct (annular_ok areas 1 2 0 90 default_sub default_sub _ _ (Some [0; 0]) _ ltac:(lra) sub_none sub_none ltac:(cbn; lia) (off_two 0 0))
    as (g & E & _). eauto.
Qed.

(* ---------- blocks ---------- *)

Lemma blocks_conform_sr radius dx dy rs ts pr p q center o g h :
  0 < radius < Rmin dx dy -> subdivides rs pr -> subdivides ts p -> subdivides (mkSub (sb_res ts) None) q ->
  (2 <= length p)%nat -> offset center o -> nth_error p 0 = Some 0 -> nth_error q 0 = Some 0 ->
  SectorRectangle areas radius dx dy rs ts center = Ok (g, h) ->
  forall j s, nth_error pr j = Some s ->
    node g 0 j = Some (moved (on_segment s (polar (0, 0, 0) radius 45) (dx, dy, 0)) o) /\ node h 0 j = node g 0 j.
Proof.
  intros Hr Sr St Sq L O P0 Q0 E j s Hs.
  destruct (sector_rectangle_ok areas radius dx dy rs ts pr p q center o Hr Sr St Sq L O) as (g' & h' & E' & _ & _ & N).
  rewrite E in E'. injection E' as <- <-. destruct (N 0%nat j 0 0 s P0 Q0 Hs) as (-> & ->).
  rewrite !between_0. split; reflexivity.
Qed.

Lemma blocks_conform_rs dx dy radius xs ys rs px py pr center o g h :
  ~ 0 < radius < sqrt (dx * dx + dy * dy) -> subdivides rs pr -> subdivides xs px -> subdivides ys py ->
  (2 <= length px)%nat -> (2 <= length py)%nat -> offset center o -> nth_error px 0 = Some 0 -> nth_error py 0 = Some 0 ->
  RectangleSector areas dx dy radius xs ys rs center = Ok (g, h) ->
  forall j s, nth_error pr j = Some s ->
    node g 0 j = Some (moved (on_segment s (dx, dy, 0) (polar (0, 0, 0) radius 45)) o) /\ node h 0 j = node g 0 j.
Proof.
  intros Hr Sr Sx Sy Lx Ly O P0 Q0 E j s Hs.
  destruct (rectangle_sector_ok areas dx dy radius xs ys rs px py pr center o Hr Sr Sx Sy Lx Ly O) as (g' & h' & E' & _ & _ & Ng & Nh).
  rewrite E in E'. injection E' as <- <-. rewrite (Ng 0%nat j 0 s Q0 Hs), (Nh 0%nat j 0 s P0 Hs), !between_0. split; reflexivity.
Qed.

(* theta_method does not reach the arc *)
Lemma theta_method_ignored : exists radius dx dy rs ts p g h t,
  subdivides ts p /\ nth_error p 1 = Some t /\
  SectorRectangle areas radius dx dy rs ts None = Ok (g, h) /\
  node g 1 0 <> Some (polar (0, 0, 0) radius (between t 45 0)).
Proof.
  set (ts := mkSub (ResInt 2) (Some "log"%string)).
  destruct (perc_proper 2 (Some "log"%string) Log ltac:(constructor)) as (p & Hp & Lp & P0 & P2 & Pm).
  change (Z.to_nat (Z.max 1 2)) with 2%nat in *.
  destruct (perc_proper 2 None Constant ltac:(constructor)) as (q & Hq & Lq & Q0 & Q2 & Qm).
  change (Z.to_nat (Z.max 1 2)) with 2%nat in *.
  destruct p as [|p0 [|t [|p2 [|? ?]]]]; try discriminate Lp. destruct q as [|q0 [|u [|q2 [|? ?]]]]; try discriminate Lq.
  cbn in P0, P2, Q0, Q2. injection P0 as ->. injection P2 as ->. injection Q0 as ->. injection Q2 as ->.
  assert (Hu : u = 1 / 2).
  { pose proof (constant_gaps 2 None [0; u; 1] 0 (u - 0) ltac:(constructor) Hq) as G. unfold gap in G.
    assert (G' := G ltac:(exists 0, u; repeat split; reflexivity)). cbn in G'. lra. }
  assert (Ht : t <> 1 / 2).
  { pose proof (log_gaps_increase 2 (Some "log"%string) [0; t; 1] 0 1 (t - 0) (1 - t) ltac:(constructor) Hp) as G.
    assert (G' := G ltac:(lia) ltac:(exists 0, t; repeat split; reflexivity) ltac:(exists t, 1; repeat split; reflexivity)). lra. }
  assert (Bt : 0 < t < 1).
  { split; [apply (Pm 0 1)%nat; [lia|reflexivity|reflexivity]|apply (Pm 1 2)%nat; [lia|reflexivity|reflexivity]]. }
  assert (Hr : 0 < / 2 < Rmin 1 1). { rewrite Rmin_left; lra. }
  destruct (sector_rectangle_ok areas (/ 2) 1 1 default_sub ts [0; 1] [0; t; 1] [0; u; 1] None _ Hr sub_none Hp Hq ltac:(cbn; lia) off_none)
    as (g & h & E & _ & _ & N).
  exists (/ 2), 1, 1, default_sub, ts, [0; t; 1], g, h, t. split; [exact Hp|]. split; [reflexivity|]. split; [exact E|].
  destruct (N 1%nat 0%nat t u 0 eq_refl eq_refl eq_refl) as (-> & _).
  intros H. unfold moved, on_segment, polar in H. injection H as _ H. unfold between in H.
  assert (S : sin (degrees ((1 - u) * 45 + u * 0)) = sin (degrees ((1 - t) * 45 + t * 0))) by lra.
  assert (B : forall v, 0 <= v <= 1 -> - (PI / 2) <= degrees ((1 - v) * 45 + v * 0) <= PI / 2).
  { intros v Hv. pose proof PI_RGT_0. unfold degrees. split; nra. }
  destruct (B u ltac:(lra)), (B t ltac:(lra)).
  pose proof PI_RGT_0 as Hpi.
  destruct (Rtotal_order u t) as [L|[->|L]]; [| lra |].
  - assert (sin (degrees ((1 - t) * 45 + t * 0)) < sin (degrees ((1 - u) * 45 + u * 0))); [|lra].
    apply sin_increasing_1; try assumption. unfold degrees. nra.
  - assert (sin (degrees ((1 - u) * 45 + u * 0)) < sin (degrees ((1 - t) * 45 + t * 0))); [|lra].
    apply sin_increasing_1; try assumption. unfold degrees. nra.
Qed.

(* ---------- orientation ---------- *)

Lemma polar_quad c r r' a b : twice_area4 (polar c r a) (polar c r b) (polar c r' b) (polar c r' a)
  = - ((r' * r' - r * r) * sin (degrees (b - a))).
Proof.
  destruct c as ((x, y), z). unfold twice_area4, twice_area3, polar.
  replace (degrees (b - a)) with (degrees b - degrees a) by (unfold degrees; field). rewrite sin_minus. ring.
Qed.

Lemma rectangle_upward dx dy xs ys px py center c : 0 < dx -> 0 < dy -> increasing px -> increasing py ->
  subdivides xs px -> (2 <= length px)%nat -> subdivides ys py -> offset center c ->
  exists g, Rectangle areas dx dy xs ys center = Ok g /\ sg_dims g = (length px, length py, 1%nat) /\
    forall i j, (S i < length px)%nat -> (S j < length py)%nat ->
      exists a b d e, quad g i j a b d e /\ 0 < twice_area4 a b d e.
Proof.
  intros Hx Hy Ix Iy Sx Lx Sy O. destruct c as ((x0, y0), z0).
  destruct (rectangle_ok areas dx dy xs ys px py center x0 y0 z0 Sx Lx Sy O) as (g & E & D & N).
  exists g. split; [exact E|]. split; [exact D|]. intros i j Hi Hj.
  assert (K : forall p k, increasing p -> (S k < length p)%nat -> exists t t', nth_error p k = Some t /\ nth_error p (S k) = Some t' /\ t < t').
  { clear. intros p k I. revert k. induction I as [|x|x y l H I IH]; intros k L; try (cbn in L; lia).
    destruct k as [|k]; [exists x, y; repeat split; assumption|]. apply IH. cbn in *. lia. }
  destruct (K px i Ix Hi) as (t & t' & Ht & Ht' & Lt). destruct (K py j Iy Hj) as (s & s' & Hs & Hs' & Ls).
  do 4 eexists. split.
  - split; [apply N; eassumption|]. split; [apply N; eassumption|]. split; apply N; eassumption.
  - rewrite rectangle_area. apply Rmult_lt_0_compat; [|apply Rmult_lt_0_compat; lra].
    apply Rmult_lt_0_compat; [lra|]. apply Rmult_lt_0_compat; lra.
Qed.

Lemma sector_upward radius tmin tmax s p center c : 0 < radius -> increasing p -> 
  (forall k t t', nth_error p k = Some t -> nth_error p (S k) = Some t' -> 0 < (t' - t) * (tmax - tmin) < 180) ->
  subdivides s p -> (2 <= length p)%nat -> offset center c ->
  exists m, Sector radius tmin tmax s center = Ok m /\ length (t_cells m) = (length p - 1)%nat /\
    forall k cell, nth_error (t_cells m) k = Some cell -> exists i j a b,
      cell = [0; i; j]%nat /\ nth_error (t_pts m) 0 = Some c /\ nth_error (t_pts m) i = Some a /\
      nth_error (t_pts m) j = Some b /\ 0 < twice_area3 c a b.
Proof.
  intros Hr I Hd Sp L O. destruct (sector_ok radius tmin tmax s p center c Hr Sp L O) as (m & E & Lp & P0 & N & Lc & Nc).
  exists m. split; [exact E|]. split; [exact Lc|]. intros k cell Hk.
  assert (k < length p - 1)%nat by (rewrite <- Lc; apply nth_error_Some; congruence).
  rewrite (Nc k H) in Hk. injection Hk as <-.
  destruct (nth_error p k) as [t|] eqn:Ht; [|apply nth_error_None in Ht; lia].
  destruct (nth_error p (S k)) as [t'|] eqn:Ht'; [|apply nth_error_None in Ht'; lia].
  do 4 eexists. split; [reflexivity|]. split; [exact P0|]. split; [apply (N k t Ht)|]. split; [apply (N (S k) t' Ht')|].
  rewrite polar_area. specialize (Hd k t t' Ht Ht'). apply Rmult_lt_0_compat; [nra|].
  pose proof PI_RGT_0. apply sin_gt_0; unfold degrees, between.
  - apply Rmult_lt_0_compat; [|lra]. apply Rmult_lt_0_compat; nra.
  - replace (((1 - t') * tmin + t' * tmax - ((1 - t) * tmin + t * tmax)) * PI / 180) with ((t' - t) * (tmax - tmin) / 180 * PI) by field.
    nra.
Qed.

(* annular sectors of increasing angle turn the other way *)
Lemma annular_downward : exists g a b c d, AnnularSector areas 1 2 0 90 default_sub default_sub None = Ok g /\
  quad g 0 0 a b c d /\ twice_area4 a b c d < 0.
Proof.
  destruct (annular_ok areas 1 2 0 90 default_sub default_sub _ _ None _ ltac:(lra) sub_none sub_none ltac:(cbn; lia) off_none)
    as (g & E & D & _ & _ & _ & _ & N). exists g. do 4 eexists. split; [exact E|]. split.
  - split; [apply (N 0%nat 0%nat 0 0); reflexivity|]. split; [apply (N 1%nat 0%nat 1 0); reflexivity|].
    split; [apply (N 1%nat 1%nat 1 1); reflexivity|apply (N 0%nat 1%nat 0 1); reflexivity].
  - rewrite polar_quad, !between_0, !between_1. replace (degrees (90 - 0)) with (PI / 2) by (unfold degrees; field).
    rewrite sin_PI2. lra.
Qed.

(* and the blocks of one mesh turn in opposite ways *)
Lemma blocks_opposite : exists g h a b c d a' b' c' d',
  SectorRectangle areas (/ 2) 1 1 default_sub default_sub None = Ok (g, h) /\
  quad g 0 0 a b c d /\ 0 < twice_area4 a b c d /\ quad h 0 0 a' b' c' d' /\ twice_area4 a' b' c' d' < 0.
Proof.
  assert (Hr : 0 < / 2 < Rmin 1 1). { rewrite Rmin_left; lra. }
  destruct (sector_rectangle_ok areas (/ 2) 1 1 default_sub default_sub [0; 1] [0; 1] [0; 1] None _ Hr sub_none sub_none sub_none
              ltac:(cbn; lia) off_none) as (g & h & E & _ & _ & N).
  assert (Q : forall i j t s, nth_error [0; 1] i = Some t -> nth_error [0; 1] j = Some s -> _) by
    exact (fun i j t s Ht Hs => N i j t t s Ht Ht Hs).
  exists g, h. do 8 eexists. split; [exact E|].
  assert (C45 : cos (degrees 45) = / sqrt 2 /\ sin (degrees 45) = / sqrt 2).
  { replace (degrees 45) with (PI / 4) by (unfold degrees; field). rewrite cos_PI4, sin_PI4. lra. }
  assert (C0 : cos (degrees 0) = 1 /\ sin (degrees 0) = 0).
  { replace (degrees 0) with 0 by (unfold degrees; field). rewrite cos_0, sin_0. lra. }
  assert (C90 : cos (degrees 90) = 0 /\ sin (degrees 90) = 1).
  { replace (degrees 90) with (PI / 2) by (unfold degrees; field). rewrite cos_PI2, sin_PI2. lra. }
  assert (S2 : 0 < / sqrt 2 < 1).
  { assert (1 < sqrt 2). { rewrite <- sqrt_1. apply sqrt_lt_1_alt. lra. }
    split; [apply Rinv_0_lt_compat; lra|]. rewrite <- Rinv_1. apply Rinv_lt_contravar; lra. }
  destruct C45 as (Ca & Cb), C0 as (Cc & Cd), C90 as (Ce & Cf).
  split; [|split; [|split]].
  - split; [apply (Q 0%nat 0%nat 0 0); reflexivity|]. split; [apply (Q 1%nat 0%nat 1 0); reflexivity|].
    split; [apply (Q 1%nat 1%nat 1 1); reflexivity|apply (Q 0%nat 1%nat 0 1); reflexivity].
  - rewrite !between_0, !between_1. unfold polar, on_segment, moved. rewrite !between_0, !between_1, Ca, Cb, Cc, Cd.
    unfold twice_area4, twice_area3. nra.
  - split; [apply (Q 0%nat 0%nat 0 0); reflexivity|]. split; [apply (Q 1%nat 0%nat 1 0); reflexivity|].
    split; [apply (Q 1%nat 1%nat 1 1); reflexivity|apply (Q 0%nat 1%nat 0 1); reflexivity].
  - rewrite !between_0, !between_1. unfold polar, on_segment, moved. rewrite !between_0, !between_1, Ca, Cb, Ce, Cf.
    unfold twice_area4, twice_area3. nra.
Qed.

(* ---------- shells ---------- *)

Lemma shell_closed inner outer height rs ts zs pr pz z m gr center x0 y0 z0 : sb_res ts = ResInt z -> sb_method ts = m ->
  names_method m gr -> 0 <= inner < outer -> subdivides rs pr -> subdivides zs pz ->
  (2 <= length pr)%nat -> (2 <= length pz)%nat ->
  (center = None /\ (x0, y0, z0) = (0, 0, 0) \/ center = Some [x0; y0; z0]) ->
  exists g, CylindricalShell areas volumes inner outer height rs ts zs center = Ok g /\
    sg_dims g = (S (Z.to_nat (Z.max 1 z)), length pr, length pz) /\
    forall j k, (j < length pr)%nat -> (k < length pz)%nat ->
      exists P, at_coord (sg_dims g) (sg_pts g) (0%nat, j, k) = Some P /\
                at_coord (sg_dims g) (sg_pts g) (Z.to_nat (Z.max 1 z), j, k) = Some P.
Proof.
  intros E1 E2 M Hr Sr Sz Lr Lz Hc. destruct (perc_proper z m gr M) as (p & Hp & Lp & H0 & H1 & _).
  assert (St : subdivides ts p) by (unfold subdivides; congruence).
  destruct (shell_ok areas volumes inner outer 0 360 height rs ts zs pr p pz center x0 y0 z0 Hr Sr St Sz Lr ltac:(lia) Lz Hc)
    as (g & E & D & N).
  exists g. split; [exact E|]. split; [congruence|]. intros j k Hj Hk.
  destruct (nth_error pr j) as [s|] eqn:Hs; [|apply nth_error_None in Hs; lia].
  destruct (nth_error pz k) as [u|] eqn:Hu; [|apply nth_error_None in Hu; lia].
  eexists. split; [apply (N 0%nat j k 0 s u H0 Hs Hu)|]. rewrite (N _ j k 1 s u H1 Hs Hu), between_0, between_1. f_equal. apply polar_full.
Qed.

(* ---------- centers ---------- *)

Lemma centers inner outer radius dx dy tmin tmax rs ts xs ys pr pt_ px py center :
  0 <= inner < outer -> 0 < radius -> subdivides rs pr -> subdivides ts pt_ -> subdivides xs px -> subdivides ys py ->
  (2 <= length pt_)%nat -> (2 <= length px)%nat ->
  ((exists c, offset center c) -> (exists g, AnnularSector areas inner outer tmin tmax rs ts center = Ok g) /\
     (exists m, Sector radius tmin tmax ts center = Ok m) /\ (exists g, Rectangle areas dx dy xs ys center = Ok g)) /\
  (~ (exists c, offset center c) -> AnnularSector areas inner outer tmin tmax rs ts center = Err ValueError /\
     Sector radius tmin tmax ts center = Err ValueError /\ Rectangle areas dx dy xs ys center = Err ValueError).
Proof.
  intros Hr Hrad Sr St Sx Sy Lt Lx. split.
  - intros (((x0, y0), z0) & O). split; [|split].
    + destruct (annular_ok areas inner outer tmin tmax rs ts pr pt_ center _ Hr Sr St Lt O) as (g & E & _). eauto.
    + destruct (sector_ok radius tmin tmax ts pt_ center _ Hrad St Lt O) as (g & E & _). eauto.
    + destruct (rectangle_ok areas dx dy xs ys px py center x0 y0 z0 Sx Lx Sy O) as (g & E & _). eauto.
  - intros H. assert (H' : forall c, ~ offset center c) by (intros c Hc; apply H; eauto). split; [|split].
    + unfold AnnularSector. destruct (Rleb_spec 0 inner), (Rltb_spec inner outer); cbn [andb negb]; try lra.
      destruct (polar_arc inner tmin tmax ts pt_ St Lt) as (a & -> & La & _).
      destruct (polar_arc outer tmin tmax ts pt_ St Lt) as (b & -> & Lb & _). cbn [bind].
      destruct (surface_ok areas a b rs pr ltac:(congruence) Sr) as (g & -> & _). cbn [bind]. now apply sg_translate_bad.
    + unfold Sector. destruct (Rleb_spec radius 0); [lra|]. destruct (polar_arc radius tmin tmax ts pt_ St Lt) as (a & -> & La & _).
      cbn [bind]. now rewrite translate_bad.
    + unfold Rectangle, Quadrilateral.
      destruct (line_pts_ok [0; 0] [dx; 0] xs px _ _ (row_two _ _) (row_two _ _) eq_refl Sx Lx) as (la & -> & Ll & Na).
      destruct (line_pts_ok [0; dy] [dx; dy] xs px _ _ (row_two _ _) (row_two _ _) eq_refl Sx Lx) as (lb & -> & Lb & Nb). cbn [bind].
      destruct (surface_ok areas la lb ys py ltac:(congruence) Sy) as (g & -> & _). cbn [bind]. now apply sg_translate_bad.
Qed.

(* ---------- theta_method = constant ---------- *)

Lemma theta_constant radius dx dy rs ts pr p center o z : sb_res ts = ResInt z -> names_method (sb_method ts) Constant ->
  0 < radius < Rmin dx dy -> subdivides rs pr -> nth_error pr 0 = Some 0 -> subdivides ts p -> offset center o ->
  exists g h, SectorRectangle areas radius dx dy rs ts center = Ok (g, h) /\
    forall i t, nth_error p i = Some t ->
      node g i 0 = Some (moved (polar (0, 0, 0) radius (between t 45 0)) o) /\
      node h i 0 = Some (moved (polar (0, 0, 0) radius (between t 45 90)) o).
Proof.
  intros Ez M Hr Sr R0 St O.
  assert (Sq : subdivides (mkSub (sb_res ts) None) p).
  { unfold subdivides in *. cbn [sb_res sb_method]. rewrite Ez in *. rewrite <- St.
    rewrite (to_perc_closed z _ _ M). apply (to_perc_closed z None Constant). constructor. }
  assert (L : (2 <= length p)%nat).
  { destruct (perc_proper z (sb_method ts) Constant M) as (p' & Hp & Lp & _). unfold subdivides in St. rewrite Ez, Hp in St.
    injection St as <-. rewrite Lp. lia. }
  destruct (sector_rectangle_ok areas radius dx dy rs ts pr p p center o Hr Sr St Sq L O) as (g & h & E & _ & _ & N).
  exists g, h. split; [exact E|]. intros i t Ht. destruct (N i 0%nat t t 0 Ht Ht R0) as (-> & ->).
  assert (S0 : forall P Q, on_segment 0 P Q = P) by (intros P Q; apply seg_0). now rewrite !S0.
Qed.
End Obj5.
