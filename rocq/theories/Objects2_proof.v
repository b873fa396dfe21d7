From Coq Require Import Reals Lra.
From Verif Require Import Prelude Perc_model Perc_spec Perc_proof Grid Surface_model Surface_spec Surface_proof
  Volume_model Volume_proof Objects_model Objects_spec Objects1_proof.
Open Scope R_scope.

Lemma lerp_seg t p q : lerp t p q = on_segment t p q.
Proof.
  destruct p as ((x, y), z), q as ((a, b), c). unfold lerp, lerp1, on_segment, between. f_equal; [f_equal|]; ring.
Qed.

Lemma add3_moved p c : add3 p c = moved p c.
Proof. now destruct p as ((x, y), z), c as ((a, b), e). Qed.

Lemma to_pt_ok a b r m l A B : row a A -> row b B -> length a = length b ->
  generate_line_from_two_points a b r m = Ok l -> forall p, resolution_to_perc r m = Ok p ->
  exists pts, mapM to_pt l = Ok pts /\ length pts = length p /\
    forall k t, nth_error p k = Some t -> nth_error pts k = Some (on_segment t A B).
Proof.
  intros RA RB L H p Hp. apply line_points in H as (_ & p' & Hp' & F). rewrite Hp in Hp'. injection Hp' as <-.
  clear Hp. induction F as [|t row_ p l (L3 & S & Z) F IH].
  - exists []. cbn. split; [reflexivity|]. split; [reflexivity|]. intros [|k]; discriminate.
  - destruct IH as (pts & E & Lp & N).
    assert (E0 : to_pt row_ = Ok (on_segment t A B)).
    { destruct row_ as [|x [|y [|z [|w r']]]]; try (cbn in L3; lia).
      destruct RA as [ax ay|ax ay az], RB as [bx by_|bx by_ bz]; try (cbn in L; lia);
        pose proof (S 0%nat _ _ eq_refl eq_refl) as H0; pose proof (S 1%nat _ _ eq_refl eq_refl) as H1.
      - pose proof (Z 2%nat ltac:(cbn; lia)) as H2. cbn in H0, H1, H2.
        injection H0 as ->. injection H1 as ->. injection H2 as ->. unfold to_pt, on_segment, between. f_equal.
        f_equal; [f_equal|]; ring.
      - pose proof (S 2%nat _ _ eq_refl eq_refl) as H2. cbn in H0, H1, H2.
        injection H0 as ->. injection H1 as ->. injection H2 as ->. unfold to_pt, on_segment, between. f_equal.
        f_equal; [f_equal|]; ring. }
    cbn [mapM]. rewrite E0, E. cbn [bind]. eexists. split; [reflexivity|]. split; [cbn; congruence|].
    intros [|k] s Hs; cbn in Hs |- *; [injection Hs as <-; reflexivity|now apply N].
Qed.

Lemma row_len a A : row a A -> (length a = 2 \/ length a = 3)%nat.
Proof. intros []; cbn; auto. Qed.

Lemma line_pts_ok a b s p A B : row a A -> row b B -> length a = length b -> subdivides s p -> (2 <= length p)%nat ->
  exists pts, line_pts a b (sb_res s) (sb_method s) = Ok pts /\ length pts = length p /\
    forall k t, nth_error p k = Some t -> nth_error pts k = Some (on_segment t A B).
Proof.
  intros RA RB L Hp H2. unfold line_pts.
  destruct (proj2 (line_defined a b _ _ p Hp L (row_len _ _ RA)) H2) as (l & E). rewrite E. cbn [bind].
  eapply to_pt_ok; eauto.
Qed.

Section Obj2.
Variable areas : shape3 -> list pt -> list R.
Variable volumes : shape3 -> list pt -> list R.

Lemma quad_ok points a b c d A B C D0 rest xs ys px py center o :
  points = Some (a :: b :: c :: d :: rest) ->
  row a A -> row b B -> row c C -> row d D0 -> length a = length b -> length c = length d ->
  subdivides xs px -> (2 <= length px)%nat -> subdivides ys py -> offset center o ->
  exists g, Quadrilateral areas points xs ys center = Ok g /\
    sg_dims g = (length px, length py, 1%nat) /\
    forall i j t s, nth_error px i = Some t -> nth_error py j = Some s ->
      node g i j = Some (moved (bilinear A B C D0 t s) o).
Proof.
  intros -> RA RB RC RD L1 L2 Sx Lx Sy O. unfold Quadrilateral.
  destruct (line_pts_ok a b xs px A B RA RB L1 Sx Lx) as (la & -> & Ll & Na). cbn [bind].
  destruct (line_pts_ok d c xs px D0 C RD RC (eq_sym L2) Sx Lx) as (lb & -> & Lb & Nb). cbn [bind].
  destruct (surface_ok areas la lb ys py ltac:(congruence) Sy) as (g & -> & Dg & Lg & _ & _ & _ & Ng). cbn [bind].
  destruct (sg_translate_ok g center o O) as (g' & -> & D' & L' & N' & _).
  exists g'. split; [reflexivity|]. split; [congruence|].
  intros i j t s Ht Hs. rewrite (node_translate _ _ _ D' N'), (Ng i j _ _ s (Na i t Ht) (Nb i t Ht) Hs).
  cbn [option_map]. rewrite add3_moved, lerp_seg. do 2 f_equal.
  destruct A as ((ax, ay), az), B as ((bx, by_), bz), C as ((cx, cy), cz), D0 as ((dx, dy), dz).
  unfold on_segment, bilinear, between. f_equal; [f_equal|]; ring.
Qed.

Lemma rectangle_ok dx dy xs ys px py center x0 y0 z0 :
  subdivides xs px -> (2 <= length px)%nat -> subdivides ys py -> offset center (x0, y0, z0) ->
  exists g, Rectangle areas dx dy xs ys center = Ok g /\
    sg_dims g = (length px, length py, 1%nat) /\
    forall i j t s, nth_error px i = Some t -> nth_error py j = Some s ->
      node g i j = Some (x0 + t * dx, y0 + s * dy, z0).
Proof.
  intros Sx Lx Sy O. unfold Rectangle.
  destruct (quad_ok _ [0; 0] [dx; 0] [dx; dy] [0; dy] _ _ _ _ [] xs ys px py center _ eq_refl
              (row_two 0 0) (row_two dx 0) (row_two dx dy) (row_two 0 dy) eq_refl eq_refl Sx Lx Sy O) as (g & E & D & N).
  exists g. split; [exact E|]. split; [exact D|]. intros i j t s Ht Hs. rewrite (N i j t s Ht Hs).
  unfold moved, bilinear. do 2 f_equal; [f_equal|]; ring.
Qed.

(* cells of a rectangle *)
Lemma rectangle_area x0 y0 z0 dx dy t t' s s' :
  twice_area4 (x0 + t * dx, y0 + s * dy, z0) (x0 + t' * dx, y0 + s * dy, z0)
              (x0 + t' * dx, y0 + s' * dy, z0) (x0 + t * dx, y0 + s' * dy, z0)
  = 2 * (dx * (t' - t)) * (dy * (s' - s)).
Proof. unfold twice_area4, twice_area3. ring. Qed.

(* ---------- two blocks ---------- *)

Lemma perc_same_length r m m' p q : resolution_to_perc r m = Ok p -> resolution_to_perc r m' = Ok q -> length p = length q.
Proof.
  assert (K : forall r m p, resolution_to_perc r m = Ok p ->
    length p = match r with ResNone => 2%nat | ResInt z => S (Z.to_nat (Z.max 1 z)) | ResArr l => length l | ResOther => length p end).
  { intros r0 m0 p0 H. destruct r0 as [|z|l|]; [| | |reflexivity].
    - unfold resolution_to_perc in H. cbn [Z.max Z.compare Z.to_nat Pos.to_nat Pos.iter_op] in H. revert H. unfold bind.
      destruct (String.eqb _ "constant"); [|destruct (_ || _)%bool; [|discriminate]];
        intros H%Ok_inj; subst p0; rewrite <- (Permutation_length (np_sort_perm _));
        destruct (negb _); rewrite ?map_length; unfold linspace; rewrite ?map_length, ?seq_length; reflexivity.
    - unfold resolution_to_perc in H. revert H. unfold bind.
      destruct (String.eqb _ "constant"); [|destruct (_ || _)%bool; [|discriminate]];
        intros H%Ok_inj; subst p0; rewrite <- (Permutation_length (np_sort_perm _));
        destruct (negb _); rewrite ?map_length; unfold linspace; rewrite ?map_length, ?seq_length; lia.
    - unfold resolution_to_perc in H. apply Ok_inj in H. subst p0. now rewrite <- (Permutation_length (np_sort_perm _)). }
  intros Hp Hq. rewrite (K _ _ _ Hp), (K _ _ _ Hq). destruct r; try reflexivity. discriminate Hp.
Qed.

Lemma two_blocks a b c d s p center o :
  length a = length b -> length c = length d -> subdivides s p -> offset center o ->
  exists g h, (let! y45 := StructuredSurface areas (Some a) (Some b) "xy" s in
               let! x90 := StructuredSurface areas (Some c) (Some d) "xy" s in
               sg_translate2 (y45, x90) center) = Ok (g, h) /\
    sg_dims g = (length a, length p, 1%nat) /\ sg_dims h = (length c, length p, 1%nat) /\
    (forall i j P Q t, nth_error a i = Some P -> nth_error b i = Some Q -> nth_error p j = Some t ->
       node g i j = Some (moved (on_segment t P Q) o)) /\
    (forall i j P Q t, nth_error c i = Some P -> nth_error d i = Some Q -> nth_error p j = Some t ->
       node h i j = Some (moved (on_segment t P Q) o)).
Proof.
  intros L1 L2 S O.
  destruct (surface_ok areas a b s p L1 S) as (g & -> & Dg & Lg & _ & _ & _ & Ng). cbn [bind].
  destruct (surface_ok areas c d s p L2 S) as (h & -> & Dh & Lh & _ & _ & _ & Nh). cbn [bind].
  unfold sg_translate2. cbn [fst snd].
  destruct (sg_translate_ok g center o O) as (g' & -> & D1 & _ & N1 & _).
  destruct (sg_translate_ok h center o O) as (h' & -> & D2 & _ & N2 & _). cbn [bind].
  exists g', h'. split; [reflexivity|]. split; [congruence|]. split; [congruence|]. split.
  - intros i j P Q t HP HQ Ht. rewrite (node_translate _ _ _ D1 N1), (Ng i j P Q t HP HQ Ht). cbn. now rewrite add3_moved, lerp_seg.
  - intros i j P Q t HP HQ Ht. rewrite (node_translate _ _ _ D2 N2), (Nh i j P Q t HP HQ Ht). cbn. now rewrite add3_moved, lerp_seg.
Qed.

Lemma sector_rectangle_ok radius dx dy rs ts pr p q center o :
  0 < radius < Rmin dx dy -> subdivides rs pr -> subdivides ts p ->
  subdivides (mkSub (sb_res ts) None) q -> (2 <= length p)%nat -> offset center o ->
  exists g h, SectorRectangle areas radius dx dy rs ts center = Ok (g, h) /\
    sg_dims g = (length p, length pr, 1%nat) /\ sg_dims h = (length p, length pr, 1%nat) /\
    (forall i j t u s, nth_error p i = Some t -> nth_error q i = Some u -> nth_error pr j = Some s ->
       node g i j = Some (moved (on_segment s (polar (0, 0, 0) radius (between u 45 0)) (dx, between t dy 0, 0)) o) /\
       node h i j = Some (moved (on_segment s (polar (0, 0, 0) radius (between u 45 90)) (between t dx 0, dy, 0)) o)).
Proof.
  intros Hr Sr St Sq L O. unfold SectorRectangle.
  pose proof (perc_same_length _ _ _ _ _ St Sq) as Lq.
  destruct (Rltb_spec 0 radius); [|lra]. destruct (Rltb_spec radius (Rmin dx dy)); [|lra]. cbn [andb negb].
  destruct (line_pts_ok [dx; dy] [0; dy] ts p _ _ (row_two _ _) (row_two _ _) eq_refl St L) as (lx & -> & Lx & Nx).
  destruct (line_pts_ok [dx; dy] [dx; 0] ts p _ _ (row_two _ _) (row_two _ _) eq_refl St L) as (ly & -> & Ly & Ny). cbn [bind].
  destruct (polar_arc radius 45 0 _ q Sq ltac:(congruence)) as (a45 & E45 & L45 & N45). cbn [sb_res sb_method] in E45. rewrite E45.
  destruct (polar_arc radius 45 90 _ q Sq ltac:(congruence)) as (a90 & E90 & L90 & N90). cbn [sb_res sb_method] in E90. rewrite E90.
  cbn [bind].
  destruct (two_blocks a45 ly a90 lx rs pr center o ltac:(congruence) ltac:(congruence) Sr O) as (g & h & E & Dg & Dh & Ng & Nh).
  exists g, h. split; [exact E|]. split; [congruence|]. split; [congruence|].
  intros i j t u s Ht Hu Hs. rewrite (Ng i j _ _ s (N45 i u Hu) (Ny i t Ht) Hs), (Nh i j _ _ s (N90 i u Hu) (Nx i t Ht) Hs).
  replace (45 + u * (0 - 45)) with (between u 45 0) by (unfold between; ring).
  replace (45 + u * (90 - 45)) with (between u 45 90) by (unfold between; ring).
  split; do 3 f_equal; unfold on_segment, between; f_equal; try f_equal; ring.
Qed.

Lemma sector_rectangle_bad radius dx dy rs ts center :
  ~ 0 < radius < Rmin dx dy -> SectorRectangle areas radius dx dy rs ts center = Err ValueError.
Proof.
  intros H. unfold SectorRectangle. destruct (Rltb_spec 0 radius), (Rltb_spec radius (Rmin dx dy)); cbn; try reflexivity. lra.
Qed.

Lemma rectangle_sector_ok dx dy radius xs ys rs px py pr center o :
  ~ 0 < radius < sqrt (dx * dx + dy * dy) -> subdivides rs pr -> subdivides xs px -> subdivides ys py ->
  (2 <= length px)%nat -> (2 <= length py)%nat -> offset center o ->
  exists g h, RectangleSector areas dx dy radius xs ys rs center = Ok (g, h) /\
    sg_dims g = (length py, length pr, 1%nat) /\ sg_dims h = (length px, length pr, 1%nat) /\
    (forall i j t s, nth_error py i = Some t -> nth_error pr j = Some s ->
       node g i j = Some (moved (on_segment s (dx, between t dy 0, 0) (polar (0, 0, 0) radius (between t 45 0))) o)) /\
    (forall i j t s, nth_error px i = Some t -> nth_error pr j = Some s ->
       node h i j = Some (moved (on_segment s (between t dx 0, dy, 0) (polar (0, 0, 0) radius (between t 45 90))) o)).
Proof.
  intros Hr Sr Sx Sy Lx Ly O. unfold RectangleSector.
  assert (B : (Rltb 0 radius && Rltb radius (sqrt (dx * dx + dy * dy)))%bool = false).
  { destruct (Rltb_spec 0 radius), (Rltb_spec radius (sqrt (dx * dx + dy * dy))); try reflexivity. exfalso. lra. }
  rewrite B.
  destruct (line_pts_ok [dx; dy] [0; dy] xs px _ _ (row_two _ _) (row_two _ _) eq_refl Sx Lx) as (lx & -> & Ll & Nx).
  destruct (line_pts_ok [dx; dy] [dx; 0] ys py _ _ (row_two _ _) (row_two _ _) eq_refl Sy Ly) as (ly & -> & Lly & Ny). cbn [bind].
  destruct (polar_arc radius 45 0 _ py Sy Ly) as (a45 & -> & L45 & N45).
  destruct (polar_arc radius 45 90 _ px Sx Lx) as (a90 & -> & L90 & N90). cbn [bind].
  destruct (two_blocks ly a45 lx a90 rs pr center o ltac:(congruence) ltac:(congruence) Sr O) as (g & h & E & Dg & Dh & Ng & Nh).
  exists g, h. split; [exact E|]. split; [congruence|]. split; [congruence|]. split.
  - intros i j t s Ht Hs. rewrite (Ng i j _ _ s (Ny i t Ht) (N45 i t Ht) Hs).
    replace (45 + t * (0 - 45)) with (between t 45 0) by (unfold between; ring).
    do 3 f_equal; unfold on_segment, between; f_equal; try f_equal; ring.
  - intros i j t s Ht Hs. rewrite (Nh i j _ _ s (Nx i t Ht) (N90 i t Ht) Hs).
    replace (45 + t * (90 - 45)) with (between t 45 90) by (unfold between; ring).
    do 3 f_equal; unfold on_segment, between; f_equal; try f_equal; ring.
Qed.

Lemma rectangle_sector_bad dx dy radius xs ys rs center :
  0 < radius < sqrt (dx * dx + dy * dy) -> RectangleSector areas dx dy radius xs ys rs center = Err ValueError.
Proof.
  intros H. unfold RectangleSector. destruct (Rltb_spec 0 radius); [|lra].
  destruct (Rltb_spec radius (sqrt (dx * dx + dy * dy))); [|lra]. reflexivity.
Qed.

(* ---------- cylindrical shells ---------- *)

Lemma shell_ok inner outer tmin tmax height rs ts zs pr pt_ pz center x0 y0 z0 :
  0 <= inner < outer -> subdivides rs pr -> subdivides ts pt_ -> subdivides zs pz ->
  (2 <= length pr)%nat -> (2 <= length pt_)%nat -> (2 <= length pz)%nat ->
  (center = None /\ (x0, y0, z0) = (0, 0, 0) \/ center = Some [x0; y0; z0]) ->
  exists g, CylindricalShellSector areas volumes inner outer tmin tmax height rs ts zs center = Ok g /\
    sg_dims g = (length pt_, length pr, length pz) /\
    forall i j k t s u, nth_error pt_ i = Some t -> nth_error pr j = Some s -> nth_error pz k = Some u ->
      at_coord (sg_dims g) (sg_pts g) (i, j, k) =
      Some (polar (x0, y0, between u (z0 - height / 2) (z0 + height / 2)) (between s inner outer) (between t tmin tmax)).
Proof.
  intros Hr Sr St Sz Lr Lt Lz Hc. unfold CylindricalShellSector.
  set (c := match center with Some c => c | None => [0; 0; 0] end).
  assert (Ec : c = [x0; y0; z0]).
  { unfold c. destruct Hc as [(-> & [= -> -> ->])| ->]; reflexivity. }
  rewrite Ec. cbn [bind].
  destruct (annular_ok areas inner outer tmin tmax rs ts pr pt_ None _ Hr Sr St Lt off_none)
    as (a & -> & Da & La & Pa & Ca & Ga & Na). cbn [bind].
  destruct (sg_translate_ok a (Some [0; 0; height]) _ (off_three 0 0 height)) as (b & -> & Db & Lb & Nb & Gb & _). cbn [bind].
  assert (exists g, generate_volume_structured volumes (as_surface a) (as_surface b) (sb_res zs) (sb_method zs) = Ok g) as (g & Eg).
  { unfold generate_volume_structured, as_surface. cbn [ss_pts ss_dims ss_pd ss_cd ss_ghost].
    rewrite Lb, Nat.eqb_refl. cbn [negb].
    rewrite Db, (proj2 (shape_eqb_eq _ _) eq_refl). cbn [negb]. rewrite Da.
    replace (structured_dimension (length pt_, length pr, 1%nat)) with 2%nat.
    2:{ unfold structured_dimension, unit_axes. destruct (Nat.eqb_spec (length pt_) 1); [lia|].
        destruct (Nat.eqb_spec (length pr) 1); [lia|]. reflexivity. }
    cbn [Nat.eqb negb]. unfold subdivides in Sz. rewrite Sz. cbn [bind].
    destruct (Nat.eqb_spec (length pz) 0); [lia|].
    assert (Ax : first_unit_axis (length pt_, length pr, 1%nat) = 2%nat).
    { unfold first_unit_axis. destruct (Nat.eqb_spec (length pt_) 1); [lia|]. destruct (Nat.eqb_spec (length pr) 1); [lia|]. reflexivity. }
    rewrite Ax. cbn [setc]. rewrite Pa, Ca. cbn [mapM bind].
    rewrite Da in Ga. destruct (repeat_structured_defined (cell_shape (length pt_, length pr, 1%nat)) (sg_ghost a) (length pz - 1) 2 Ga) as (out & Eo).
    rewrite Eo. cbn [bind]. apply repeat_structured_law in Eo as (_ & Lo & _); [|lia|lia].
    replace (length out =? n_cells (length pt_, length pr, length pz))%nat with true.
    - eexists. reflexivity.
    - symmetry. apply Nat.eqb_eq. rewrite Lo. unfold n_cells, cell_shape, setc, comp, size3.
      rewrite (Nat.max_r 1 (length pt_ - 1)), (Nat.max_r 1 (length pr - 1)), (Nat.max_r 1 (length pz - 1)) by lia.
      cbn [Nat.sub Nat.max]. now rewrite Nat.mul_1_l. }
  rewrite Eg. cbn [bind].
  destruct (sg_translate_ok g (Some [x0; y0; z0 - / 2 * height]) _ (off_three _ _ _)) as (g' & -> & D' & L' & N' & _).
  exists g'. split; [reflexivity|].
  assert (Sa : length (ss_pts (as_surface a)) = size3 (ss_dims (as_surface a))).
  { cbn. rewrite La, Da. cbn. lia. }
  destruct (vol_structured_coords _ _ _ _ _ _ Sa Eg) as (ax & pz' & Ez & _ & Hax & H1 & Dg & Lg & Hg).
  unfold subdivides in Sz. rewrite Sz in Ez. injection Ez as <-.
  assert (ax = 2%nat) as ->.
  { cbn in H1. rewrite Da in H1. destruct ax as [|[|[|ax]]]; cbn in H1; try lia. }
  cbn [as_surface ss_dims] in Dg. rewrite Da in Dg. cbn [setc] in Dg.
  split; [congruence|]. intros i j k t s u Ht Hs Hu. rewrite D', Dg. unfold at_coord. rewrite N'.
  assert (Hi : (i < length pt_)%nat) by (apply nth_error_Some; congruence).
  assert (Hj : (j < length pr)%nat) by (apply nth_error_Some; congruence).
  assert (Hk : (k < length pz)%nat) by (apply nth_error_Some; congruence).
  destruct (Hg (i, j, k) u) as (P & Q & HP & HQ & HX); [rewrite Dg; cbn; lia|exact Hu|].
  rewrite Dg in HX. rewrite HX. cbn [option_map].
  cbn [as_surface ss_dims ss_pts setc] in HP, HQ.
  pose proof (Na i j t s Ht Hs) as NA. unfold node, at_coord in NA. rewrite HP in NA. injection NA as ->.
  rewrite Nb, Db, HP in HQ. cbn [option_map] in HQ. injection HQ as <-.
  f_equal. unfold polar, add3, lerp, lerp1, between. f_equal; [f_equal|]; field.
Qed.

(* a center of two coordinates is not accepted *)
Lemma shell_two_coordinates inner outer tmin tmax height rs ts zs x y :
  CylindricalShellSector areas volumes inner outer tmin tmax height rs ts zs (Some [x; y]) = Err IndexError.
Proof. reflexivity. Qed.
End Obj2.
