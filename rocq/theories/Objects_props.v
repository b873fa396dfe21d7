(* Properties C73, C74, C77 and C95-C106: geometric objects, regular and curved lines, interpolation. *)
From Coq Require Import Reals Lra.
From Verif Require Import Prelude Perc_model Perc_spec Perc_proof Grid Surface_model Surface_spec Volume_model Objects_model Objects_spec
  Objects1_proof Objects2_proof Objects3_proof Objects4_proof Objects5_proof.
Open Scope R_scope.

(* C73: [along points d P] is the point met at distance d along the input line *)
Theorem C73_regular_line :
  forall other points resolution n,
  points <> [] -> regular_count points resolution = Z.of_nat (S n) ->
  exists pts, RegularLine other points resolution = Ok pts /\ length pts = S (S n) /\
    forall k P, nth_error pts k = Some P -> along points (INR k / INR (S n) * polyline_length points) P.
Proof. exact @regular_ok. Qed.
Print Assumptions C73_regular_line.

Example C73_example : regular_count [(0, 0, 0); (3, 4, 0); (3, 4, 10)] None = 3%Z /\
  exists P, along [(0, 0, 0); (3, 4, 0); (3, 4, 10)] (INR 2 / INR 3 * 15) P /\ P = (3, 4, 5).
Proof.
  assert (D1 : dist3 (0, 0, 0) (3, 4, 0) = 5).
  { unfold dist3. replace (_ + _) with (5 * 5) by ring. apply sqrt_square. lra. }
  assert (D2 : dist3 (3, 4, 0) (3, 4, 10) = 10).
  { unfold dist3. replace (_ + _) with (10 * 10) by ring. apply sqrt_square. lra. }
  split; [reflexivity|]. exists (on_segment (/ 2) (3, 4, 0) (3, 4, 10)). split.
  - replace (INR 2 / INR 3 * 15) with (dist3 (0, 0, 0) (3, 4, 0) + / 2 * dist3 (3, 4, 0) (3, 4, 10))
      by (rewrite D1, D2; cbn; field).
    apply along_next, along_in. lra.
  - unfold on_segment, between. f_equal; [f_equal|]; field.
Qed.

(* C73: first and last points *)
Theorem C73_ends :
  forall other points resolution n p l,
  points = p :: l -> regular_count points resolution = Z.of_nat (S n) ->
  exists pts, RegularLine other points resolution = Ok pts /\
    nth_error pts 0 = Some p /\ nth_error pts (S n) = Some (last points p).
Proof. exact @regular_ends. Qed.
Print Assumptions C73_ends.

(* C73: no points, or a negative resolution *)
Theorem C73_rejected :
  forall other points resolution,
  points = [] \/ (regular_count points resolution < 0)%Z -> RegularLine other points resolution = Err ValueError.
Proof. exact @regular_bad. Qed.
Print Assumptions C73_rejected.

(* C74: data along one axis: linear between two data points (t = 0 and t = 1 reproduce them), constant beyond the ends *)
Theorem C74_linear :
  forall other linear nearest axis i points base e zs,
  (axis <= 2)%nat -> only_axis axis i points ->
  increasing (map (xyz i) points) -> interpolate other linear nearest axis points base e = Ok zs ->
  length zs = length base /\
  (forall m b k p q t, nth_error base m = Some b -> nth_error points k = Some p -> nth_error points (S k) = Some q ->
     0 <= t <= 1 -> xyz i b = between t (xyz i p) (xyz i q) ->
     nth_error zs m = Some (between t (xyz axis p) (xyz axis q))) /\
  (forall m b p, nth_error base m = Some b -> hd_error points = Some p -> xyz i b <= xyz i p ->
     nth_error zs m = Some (xyz axis p)) /\
  (forall m b q, nth_error base m = Some b -> nth_error points (length points - 1) = Some q -> xyz i q <= xyz i b ->
     nth_error zs m = Some (xyz axis q)).
Proof. exact @interp1_linear. Qed.
Print Assumptions C74_linear.

Example C74_example : exists zs,
  interpolate (fun _ _ _ => []) (fun _ _ _ => Ok []) (fun _ _ _ => 0) 2 [(0, 0, 0); (1, 0, 1); (3, 0, 2)]
    [(0, 0, 7); (2, 0, 7); (3, 0, 7)] None = Ok zs /\ only_axis 2 0 [(0, 0, 0); (1, 0, 1); (3, 0, 2)] /\
  increasing (map (coord 0) [(0, 0, 0); (1, 0, 1); (3, 0, 2)]).
Proof.
  assert (O : only_axis 2 0 [(0, 0, 0); (1, 0, 1); (3, 0, 2)]).
  { split; [lia|]. split; [lia|]. intros k Hk Hk2. destruct k as [|[|[|k]]]; try lia.
    - split; [intros _|reflexivity]. exists (0, 0, 0), (1, 0, 1). cbn. split; [auto|]. split; [auto|lra].
    - split; [discriminate|]. intros (p & q & [<-|[<-|[<-|[]]]] & [<-|[<-|[<-|[]]]] & H); cbn in H; lra. }
  assert (I : increasing (map (coord 0) [(0, 0, 0); (1, 0, 1); (3, 0, 2)])) by (cbn; repeat (constructor; try lra)).
  pose proof (interp1_decision (fun _ _ _ => []) (fun _ _ _ => Ok []) (fun _ _ _ => 0) 2 0 _ [(0, 0, 7); (2, 0, 7); (3, 0, 7)] None
    (0, 0, 7) (3, 0, 7) (0, 0, 0) (3, 0, 2) ltac:(lia) O eq_refl eq_refl eq_refl eq_refl (increasing_asc _ I)) as D. cbn [coord] in D.
  destruct (Rle_dec 0 0); [|lra]. destruct (Rle_dec 0 3); [|lra]. destruct (Rle_dec 3 3); [|lra].
  destruct D as (zs & E). exists zs. auto.
Qed.

(* C74: values stay within the range of the data *)
Theorem C74_range :
  forall other linear nearest axis i points base e zs lo hi,
  (axis <= 2)%nat -> only_axis axis i points ->
  ascending (map (xyz i) points) -> interpolate other linear nearest axis points base e = Ok zs ->
  (forall p, In p points -> lo <= xyz axis p <= hi) -> forall z, In z zs -> lo <= z <= hi.
Proof. exact @interp1_range. Qed.
Print Assumptions C74_range.

(* C74: the first or the last base point leaves the range *)
Theorem C74_rejects :
  forall other linear nearest axis i points base b e p q,
  (axis <= 2)%nat -> only_axis axis i points -> no_extrapolation e ->
  hd_error points = Some p -> nth_error points (length points - 1) = Some q ->
  hd_error base = Some b \/ nth_error base (length base - 1) = Some b ->
  ~ xyz i p <= xyz i b <= xyz i q -> interpolate other linear nearest axis points base e = Err ValueError.
Proof. exact @interp1_rejects. Qed.
Print Assumptions C74_rejects.

(* C74: data that do not vary *)
Theorem C74_flat :
  forall other linear nearest axis points base e,
  (forall k, (k <= 2)%nat -> k <> axis -> forall p q, In p points -> In q points -> xyz k p = xyz k q) ->
  interpolate other linear nearest axis points base e = Err IndexError.
Proof. exact @interp_flat. Qed.
Print Assumptions C74_flat.

(* C74: data along two axes; [linear] (NaN = None) and [nearest] are the interpolators of SciPy *)
Theorem C74_surface :
  forall other linear nearest axis i j points base e tmp,
  (axis <= 2)%nat -> (i < j <= 2)%nat -> i <> axis -> j <> axis ->
  (exists p q, In p points /\ In q points /\ xyz i p <> xyz i q) -> (exists p q, In p points /\ In q points /\ xyz j p <> xyz j q) ->
  linear (map (fun p => (xyz i p, xyz j p)) points) (map (xyz axis) points) (map (fun p => (xyz i p, xyz j p)) base) = Ok tmp ->
  length tmp = length base ->
  (* every base point in the hull: the values of the linear interpolator, whatever e *)
  ((forall m, nth_error tmp m <> Some None) ->
     exists zs, interpolate other linear nearest axis points base e = Ok zs /\ forall m v, nth_error zs m = Some v <-> nth_error tmp m = Some (Some v)) /\
  (* some base point out of the hull *)
  ((exists m, nth_error tmp m = Some None) ->
     (no_extrapolation e -> interpolate other linear nearest axis points base e = Err ValueError) /\
     (e = Some "nearest"%string -> exists zs, interpolate other linear nearest axis points base e = Ok zs /\ length zs = length base /\
        forall m b, nth_error base m = Some b ->
          nth_error zs m = match nth_error tmp m with
                           | Some (Some v) => Some v
                           | _ => Some (nearest (map (fun p => (xyz i p, xyz j p)) points) (map (xyz axis) points) (xyz i b, xyz j b))
                           end) /\
     (~ no_extrapolation e -> e <> Some "nearest"%string -> interpolate other linear nearest axis points base e = Err ValueError)).
Proof.
  intros other linear nearest axis i j points base e tmp Ha Hij Hi Hj Vi Vj.
  apply interp2. now apply two_axes_eq.
Qed.
Print Assumptions C74_surface.

(* C77: full statement: also for RectangleSector with radius <= 0 (false, below) *)
Theorem C77_radii_partial :
  forall areas inner outer radius dx dy tmin tmax rs ts xs ys pr pt_ px py center c,
  subdivides rs pr -> subdivides ts pt_ -> subdivides xs px -> subdivides ys py ->
  (2 <= length pt_)%nat -> (2 <= length px)%nat -> (2 <= length py)%nat -> offset center c ->
  ((exists g, AnnularSector areas inner outer tmin tmax rs ts center = Ok g) <-> 0 <= inner < outer) /\
  ((exists g, Annulus areas inner outer rs ts center = Ok g) <-> 0 <= inner < outer) /\
  ((exists m, Sector radius tmin tmax ts center = Ok m) <-> 0 < radius) /\
  ((exists m, Circle radius ts center = Ok m) <-> 0 < radius) /\
  (0 < dx /\ 0 < dy ->
     ((exists q, subdivides (mkSub (sb_res ts) None) q) ->
      (exists gh, SectorRectangle areas radius dx dy rs ts center = Ok gh) <-> 0 < radius /\ radius < dx /\ radius < dy) /\
     (0 < radius ->
      (exists gh, RectangleSector areas dx dy radius xs ys rs center = Ok gh) <-> dx * dx + dy * dy <= radius * radius)).
Proof. exact @radii. Qed.
Print Assumptions C77_radii_partial.

Example C77_example : subdivides default_sub [0; 1] /\ (2 <= length [0; 1])%nat /\ offset (Some [1; 2]) (1, 2, 0).
Proof. split; [exact sub_none|]. split; [cbn; lia|constructor]. Qed.

(* C77: RectangleSector accepts a negative radius *)
Theorem C77_radius_refuted :
  forall areas,
  exists radius gh, radius <= 0 /\
  RectangleSector areas 1 1 radius default_sub default_sub default_sub None = Ok gh.
Proof. exact @radius_not_positive. Qed.
Print Assumptions C77_radius_refuted.

(* C95: node (i, j) at angle t_i and radius s_j around the center *)
Theorem C95_annular_sector :
  forall areas inner outer tmin tmax rs ts pr pt_ center c,
  0 <= inner < outer -> subdivides rs pr -> subdivides ts pt_ -> (2 <= length pt_)%nat -> offset center c ->
  exists g, AnnularSector areas inner outer tmin tmax rs ts center = Ok g /\
    sg_dims g = (length pt_, length pr, 1%nat) /\ length (sg_pts g) = (length pt_ * length pr)%nat /\
    sg_pd g = [] /\ sg_cd g = [] /\ length (sg_ghost g) = n_cells (sg_dims g) /\
    forall i j t s, nth_error pt_ i = Some t -> nth_error pr j = Some s ->
      node g i j = Some (polar c (between s inner outer) (between t tmin tmax)).
Proof. exact @annular_ok. Qed.
Print Assumptions C95_annular_sector.

Example C95_example : 0 <= 1 < 2 /\ subdivides default_sub [0; 1] /\ offset (Some [1; 2; 3]) (1, 2, 3).
Proof. split; [lra|]. split; [exact sub_none|constructor]. Qed.

Theorem C95_invalid_radii :
  forall areas inner outer tmin tmax rs ts center,
  ~ 0 <= inner < outer -> AnnularSector areas inner outer tmin tmax rs ts center = Err ValueError.
Proof. exact @annular_bad. Qed.
Print Assumptions C95_invalid_radii.

Example C95_invalid_example : ~ 0 <= 2 < 1 /\ ~ 0 <= -1 < 1 /\ ~ 0 <= 1 < 1.
Proof. repeat split; lra. Qed.

(* C96: the last column of nodes is the first one *)
Theorem C96_annulus_closed :
  forall areas inner outer rs ts pr center c z m gr,
  sb_res ts = ResInt z -> sb_method ts = m ->
  names_method m gr -> 0 <= inner < outer -> subdivides rs pr -> offset center c ->
  exists g, Annulus areas inner outer rs ts center = Ok g /\
    sg_dims g = (S (Z.to_nat (Z.max 1 z)), length pr, 1%nat) /\
    forall j s, nth_error pr j = Some s ->
      node g 0 j = Some (polar c (between s inner outer) 0) /\ node g (Z.to_nat (Z.max 1 z)) j = node g 0 j.
Proof. exact @annulus_closed. Qed.
Print Assumptions C96_annulus_closed.

Example C96_example : names_method (Some "log"%string) Log /\ 0 <= 0 < 1 /\ subdivides default_sub [0; 1].
Proof. split; [constructor|]. split; [lra|exact sub_none]. Qed.

(* C96: and so for cylindrical shells *)
Theorem C96_shell_closed :
  forall areas volumes inner outer height rs ts zs pr pz z m gr center x0 y0 z0,
  sb_res ts = ResInt z -> sb_method ts = m ->
  names_method m gr -> 0 <= inner < outer -> subdivides rs pr -> subdivides zs pz ->
  (2 <= length pr)%nat -> (2 <= length pz)%nat ->
  (center = None /\ (x0, y0, z0) = (0, 0, 0) \/ center = Some [x0; y0; z0]) ->
  exists g, CylindricalShell areas volumes inner outer height rs ts zs center = Ok g /\
    sg_dims g = (S (Z.to_nat (Z.max 1 z)), length pr, length pz) /\
    forall j k, (j < length pr)%nat -> (k < length pz)%nat ->
      exists P, at_coord (sg_dims g) (sg_pts g) (0%nat, j, k) = Some P /\
                at_coord (sg_dims g) (sg_pts g) (Z.to_nat (Z.max 1 z), j, k) = Some P.
Proof. exact @shell_closed. Qed.
Print Assumptions C96_shell_closed.

(* C97: a fan of triangles from the center *)
Theorem C97_sector_fan :
  forall radius tmin tmax s p center c,
  0 < radius -> subdivides s p -> (2 <= length p)%nat -> offset center c ->
  exists m, Sector radius tmin tmax s center = Ok m /\
    length (t_pts m) = S (length p) /\ nth_error (t_pts m) 0 = Some c /\
    (forall k t, nth_error p k = Some t -> nth_error (t_pts m) (S k) = Some (polar c radius (between t tmin tmax))) /\
    length (t_cells m) = (length p - 1)%nat /\
    (forall k, (k < length p - 1)%nat -> nth_error (t_cells m) k = Some [0; S k; S (S k)]%nat).
Proof. exact @sector_ok. Qed.
Print Assumptions C97_sector_fan.

Example C97_example : 0 < 2 /\ subdivides default_sub [0; 1] /\ increasing [0; 1] /\
  (forall k t t', nth_error [0; 1] k = Some t -> nth_error [0; 1] (S k) = Some t' -> 0 < (t' - t) * (90 - 0) < 180).
Proof.
  split; [lra|]. split; [exact sub_none|]. split; [constructor; [lra|constructor]|].
  intros [|[|k]] t t' H H'; cbn in H, H'; try discriminate. injection H as <-. injection H' as <-. lra.
Qed.

(* C97: the triangles are counterclockwise when the angles increase by less than 180 degrees *)
Theorem C97_triangles :
  forall radius tmin tmax s p center c,
  0 < radius -> increasing p -> 
  (forall k t t', nth_error p k = Some t -> nth_error p (S k) = Some t' -> 0 < (t' - t) * (tmax - tmin) < 180) ->
  subdivides s p -> (2 <= length p)%nat -> offset center c ->
  exists m, Sector radius tmin tmax s center = Ok m /\ length (t_cells m) = (length p - 1)%nat /\
    forall k cell, nth_error (t_cells m) k = Some cell -> exists i j a b,
      cell = [0; i; j]%nat /\ nth_error (t_pts m) 0 = Some c /\ nth_error (t_pts m) i = Some a /\
      nth_error (t_pts m) j = Some b /\ 0 < twice_area3 c a b.
Proof. exact @sector_upward. Qed.
Print Assumptions C97_triangles.

(* C98: nodes by bilinear interpolation of the corners *)
Theorem C98_quadrilateral :
  forall areas points a b c d A B C D0 rest xs ys px py center o,
  points = Some (a :: b :: c :: d :: rest) ->
  row a A -> row b B -> row c C -> row d D0 -> length a = length b -> length c = length d ->
  subdivides xs px -> (2 <= length px)%nat -> subdivides ys py -> offset center o ->
  exists g, Quadrilateral areas points xs ys center = Ok g /\
    sg_dims g = (length px, length py, 1%nat) /\
    forall i j t s, nth_error px i = Some t -> nth_error py j = Some s ->
      node g i j = Some (moved (bilinear A B C D0 t s) o).
Proof. exact @quad_ok. Qed.
Print Assumptions C98_quadrilateral.

(* without points it is the unit square; less than four points are rejected *)
Theorem C98_default :
  forall areas xs ys px py center x0 y0 z0,
  subdivides xs px -> (2 <= length px)%nat -> subdivides ys py -> offset center (x0, y0, z0) ->
  exists g, Quadrilateral areas None xs ys center = Ok g /\
    sg_dims g = (length px, length py, 1%nat) /\
    forall i j t s, nth_error px i = Some t -> nth_error py j = Some s -> node g i j = Some (x0 + t, y0 + s, z0).
Proof.
  intros areas xs ys px py center x0 y0 z0 Sx Lx Sy O.
  destruct (C98_quadrilateral areas (Some [[0; 0]; [1; 0]; [1; 1]; [0; 1]]) [0; 0] [1; 0] [1; 1] [0; 1] (0, 0, 0) (1, 0, 0) (1, 1, 0) (0, 1, 0) []
              xs ys px py center (x0, y0, z0) eq_refl) as (g & E & Dm & N); auto; try constructor.
  exists g. split; [exact E|]. split; [exact Dm|]. intros i j t s Ht Hs. rewrite (N i j t s Ht Hs). f_equal.
  unfold bilinear, moved. f_equal; [f_equal|]; ring.
Qed.
Print Assumptions C98_default.

Theorem C98_too_few_points :
  forall areas points xs ys center, (length points < 4)%nat -> exists e, Quadrilateral areas (Some points) xs ys center = Err e.
Proof.
  intros areas points xs ys center H. unfold Quadrilateral. destruct points as [|a [|b rest]]; eauto.
  destruct (line_pts a b (sb_res xs) (sb_method xs)) as [l|e]; cbn [bind]; [|eauto].
  destruct rest as [|c [|d rest]]; eauto. cbn in H. lia.
Qed.
Print Assumptions C98_too_few_points.

Example C98_example : row [0; 0] (0, 0, 0) /\ row [1; 0; 5] (1, 0, 5) /\ bilinear (0, 0, 0) (2, 0, 0) (3, 4, 0) (0, 1, 0) 1 1 = (3, 4, 0).
Proof. split; [constructor|]. split; [constructor|]. unfold bilinear. f_equal; [f_equal|]; ring. Qed.

(* C99: full statement: the argument center is the center of the rectangle.  It is its first corner *)
Theorem C99_rectangle_partial :
  forall areas dx dy xs ys px py center x0 y0 z0,
  subdivides xs px -> (2 <= length px)%nat -> subdivides ys py -> offset center (x0, y0, z0) ->
  exists g, Rectangle areas dx dy xs ys center = Ok g /\
    sg_dims g = (length px, length py, 1%nat) /\
    forall i j t s, nth_error px i = Some t -> nth_error py j = Some s ->
      node g i j = Some (x0 + t * dx, y0 + s * dy, z0).
Proof. exact @rectangle_ok. Qed.
Print Assumptions C99_rectangle_partial.

Example C99_example : subdivides default_sub [0; 1] /\ (2 <= length [0; 1])%nat /\ offset None (0, 0, 0).
Proof. split; [exact sub_none|]. split; [cbn; lia|constructor]. Qed.

(* C99: the square, from its first corner *)
Theorem C99_square_partial :
  forall areas dx xs px center x0 y0 z0,
  subdivides xs px -> (2 <= length px)%nat -> offset center (x0, y0, z0) ->
  exists g, Square areas dx xs center = Ok g /\
    sg_dims g = (length px, length px, 1%nat) /\
    forall i j t s, nth_error px i = Some t -> nth_error px j = Some s ->
      node g i j = Some (x0 + t * dx, y0 + s * dx, z0).
Proof. intros. eapply rectangle_ok; eauto. Qed.
Print Assumptions C99_square_partial.

Example C99_square_example : subdivides default_sub [0; 1] /\ offset (Some [1; 2; 3]) (1, 2, 3).
Proof. split; [exact sub_none|constructor]. Qed.

(* C99: with center (0, 0) the middle of the diagonal of the unit square is not (0, 0) *)
Theorem C99_center_refuted :
  forall areas,
  exists g a b, Rectangle areas 1 1 default_sub default_sub (Some [0; 0]) = Ok g /\
  node g 0 0 = Some a /\ node g 1 1 = Some b /\ on_segment (/ 2) a b <> (0, 0, 0).
Proof. exact @rectangle_center_wrong. Qed.
Print Assumptions C99_center_refuted.

(* C100: angle, radius and height of the nodes; the shell extends by half its height on both sides of the center *)
Theorem C100_shell_nodes :
  forall areas volumes inner outer tmin tmax height rs ts zs pr pt_ pz center x0 y0 z0,
  0 <= inner < outer -> subdivides rs pr -> subdivides ts pt_ -> subdivides zs pz ->
  (2 <= length pr)%nat -> (2 <= length pt_)%nat -> (2 <= length pz)%nat ->
  (center = None /\ (x0, y0, z0) = (0, 0, 0) \/ center = Some [x0; y0; z0]) ->
  exists g, CylindricalShellSector areas volumes inner outer tmin tmax height rs ts zs center = Ok g /\
    sg_dims g = (length pt_, length pr, length pz) /\
    forall i j k t s u, nth_error pt_ i = Some t -> nth_error pr j = Some s -> nth_error pz k = Some u ->
      at_coord (sg_dims g) (sg_pts g) (i, j, k) =
      Some (polar (x0, y0, between u (z0 - height / 2) (z0 + height / 2)) (between s inner outer) (between t tmin tmax)).
Proof. exact @shell_ok. Qed.
Print Assumptions C100_shell_nodes.

Example C100_example : 0 <= 1 < 2 /\ subdivides default_sub [0; 1] /\
  (Some [1; 2; 3] = None /\ (1, 2, 3) = (0, 0, 0) \/ Some [1; 2; 3] = Some [1; 2; 3]).
Proof. split; [lra|]. split; [exact sub_none|]. now right. Qed.

(* C101: full statement: every object, shells included (false, below), accepts a center of two or three coordinates *)
Theorem C101_centers_partial :
  forall areas inner outer radius dx dy tmin tmax rs ts xs ys pr pt_ px py center,
  0 <= inner < outer -> 0 < radius -> subdivides rs pr -> subdivides ts pt_ -> subdivides xs px -> subdivides ys py ->
  (2 <= length pt_)%nat -> (2 <= length px)%nat ->
  ((exists c, offset center c) -> (exists g, AnnularSector areas inner outer tmin tmax rs ts center = Ok g) /\
     (exists m, Sector radius tmin tmax ts center = Ok m) /\ (exists g, Rectangle areas dx dy xs ys center = Ok g)) /\
  (~ (exists c, offset center c) -> AnnularSector areas inner outer tmin tmax rs ts center = Err ValueError /\
     Sector radius tmin tmax ts center = Err ValueError /\ Rectangle areas dx dy xs ys center = Err ValueError).
Proof. exact @centers. Qed.
Print Assumptions C101_centers_partial.

Example C101_example : (exists c, offset (Some [1; 2]) c) /\ ~ (exists c, offset (Some [1]) c).
Proof. split; [eexists; constructor|]. intros (c & H). inversion H. Qed.

(* C101: a cylindrical shell sector does not accept two coordinates *)
Theorem C101_shell_refuted :
  forall areas volumes,
  (exists g, AnnularSector areas 1 2 0 90 default_sub default_sub (Some [0; 0]) = Ok g) /\
  CylindricalShellSector areas volumes 1 2 0 90 1 default_sub default_sub default_sub (Some [0; 0]) = Err IndexError.
Proof. exact @two_coordinates. Qed.
Print Assumptions C101_shell_refuted.

(* C102: nodes of the two blocks of SectorRectangle *)
Theorem C102_sector_rectangle :
  forall areas radius dx dy rs ts pr p q center o,
  0 < radius < Rmin dx dy -> subdivides rs pr -> subdivides ts p ->
  subdivides (mkSub (sb_res ts) None) q -> (2 <= length p)%nat -> offset center o ->
  exists g h, SectorRectangle areas radius dx dy rs ts center = Ok (g, h) /\
    sg_dims g = (length p, length pr, 1%nat) /\ sg_dims h = (length p, length pr, 1%nat) /\
    (forall i j t u s, nth_error p i = Some t -> nth_error q i = Some u -> nth_error pr j = Some s ->
       node g i j = Some (moved (on_segment s (polar (0, 0, 0) radius (between u 45 0)) (dx, between t dy 0, 0)) o) /\
       node h i j = Some (moved (on_segment s (polar (0, 0, 0) radius (between u 45 90)) (between t dx 0, dy, 0)) o)).
Proof. exact @sector_rectangle_ok. Qed.
Print Assumptions C102_sector_rectangle.

Example C102_example : 0 < / 2 < Rmin 1 2 /\ subdivides default_sub [0; 1] /\ nth_error [0; 1] 0 = Some 0.
Proof. split; [rewrite Rmin_left; lra|]. split; [exact sub_none|reflexivity]. Qed.

(* C102: the blocks share the nodes of the diagonal *)
Theorem C102_sector_rectangle_conform :
  forall areas radius dx dy rs ts pr p q center o g h,
  0 < radius < Rmin dx dy -> subdivides rs pr -> subdivides ts p -> subdivides (mkSub (sb_res ts) None) q ->
  (2 <= length p)%nat -> offset center o -> nth_error p 0 = Some 0 -> nth_error q 0 = Some 0 ->
  SectorRectangle areas radius dx dy rs ts center = Ok (g, h) ->
  forall j s, nth_error pr j = Some s ->
    node g 0 j = Some (moved (on_segment s (polar (0, 0, 0) radius 45) (dx, dy, 0)) o) /\ node h 0 j = node g 0 j.
Proof. exact @blocks_conform_sr. Qed.
Print Assumptions C102_sector_rectangle_conform.

(* C102: nodes of the two blocks of RectangleSector *)
Theorem C102_rectangle_sector :
  forall areas dx dy radius xs ys rs px py pr center o,
  ~ 0 < radius < sqrt (dx * dx + dy * dy) -> subdivides rs pr -> subdivides xs px -> subdivides ys py ->
  (2 <= length px)%nat -> (2 <= length py)%nat -> offset center o ->
  exists g h, RectangleSector areas dx dy radius xs ys rs center = Ok (g, h) /\
    sg_dims g = (length py, length pr, 1%nat) /\ sg_dims h = (length px, length pr, 1%nat) /\
    (forall i j t s, nth_error py i = Some t -> nth_error pr j = Some s ->
       node g i j = Some (moved (on_segment s (dx, between t dy 0, 0) (polar (0, 0, 0) radius (between t 45 0))) o)) /\
    (forall i j t s, nth_error px i = Some t -> nth_error pr j = Some s ->
       node h i j = Some (moved (on_segment s (between t dx 0, dy, 0) (polar (0, 0, 0) radius (between t 45 90))) o)).
Proof. exact @rectangle_sector_ok. Qed.
Print Assumptions C102_rectangle_sector.

(* C102: the blocks share the nodes of the diagonal *)
Theorem C102_rectangle_sector_conform :
  forall areas dx dy radius xs ys rs px py pr center o g h,
  ~ 0 < radius < sqrt (dx * dx + dy * dy) -> subdivides rs pr -> subdivides xs px -> subdivides ys py ->
  (2 <= length px)%nat -> (2 <= length py)%nat -> offset center o -> nth_error px 0 = Some 0 -> nth_error py 0 = Some 0 ->
  RectangleSector areas dx dy radius xs ys rs center = Ok (g, h) ->
  forall j s, nth_error pr j = Some s ->
    node g 0 j = Some (moved (on_segment s (dx, dy, 0) (polar (0, 0, 0) radius 45)) o) /\ node h 0 j = node g 0 j.
Proof. exact @blocks_conform_rs. Qed.
Print Assumptions C102_rectangle_sector_conform.

(* C102: nodes of the two blocks of SectorSquare *)
Theorem C102_sector_square :
  forall areas radius dx rs ts pr p q center o,
  0 < radius < dx -> subdivides rs pr -> subdivides ts p ->
  subdivides (mkSub (sb_res ts) None) q -> (2 <= length p)%nat -> offset center o ->
  exists g h, SectorSquare areas radius dx rs ts center = Ok (g, h) /\
    sg_dims g = (length p, length pr, 1%nat) /\ sg_dims h = (length p, length pr, 1%nat) /\
    (forall i j t u s, nth_error p i = Some t -> nth_error q i = Some u -> nth_error pr j = Some s ->
       node g i j = Some (moved (on_segment s (polar (0, 0, 0) radius (between u 45 0)) (dx, between t dx 0, 0)) o) /\
       node h i j = Some (moved (on_segment s (polar (0, 0, 0) radius (between u 45 90)) (between t dx 0, dx, 0)) o)).
Proof. intros. eapply sector_rectangle_ok; eauto. rewrite Rmin_left; lra. Qed.
Print Assumptions C102_sector_square.

(* C102: nodes of the two blocks of SquareSector *)
Theorem C102_square_sector :
  forall areas dx radius xs rs px pr center o,
  ~ 0 < radius < sqrt (dx * dx + dx * dx) -> subdivides rs pr -> subdivides xs px ->
  (2 <= length px)%nat -> offset center o ->
  exists g h, SquareSector areas dx radius xs rs center = Ok (g, h) /\
    sg_dims g = (length px, length pr, 1%nat) /\ sg_dims h = (length px, length pr, 1%nat) /\
    (forall i j t s, nth_error px i = Some t -> nth_error pr j = Some s ->
       node g i j = Some (moved (on_segment s (dx, between t dx 0, 0) (polar (0, 0, 0) radius (between t 45 0))) o) /\
       node h i j = Some (moved (on_segment s (between t dx 0, dx, 0) (polar (0, 0, 0) radius (between t 45 90))) o)).
Proof.
  intros. destruct (rectangle_sector_ok areas dx dx radius xs xs rs px px pr center o) as (g & h & E & ? & ? & ? & ?); auto.
  exists g, h. split; [exact E|]. auto 6.
Qed.
Print Assumptions C102_square_sector.

Example C102_square_example : 0 < / 2 < 1 /\ ~ 0 < 2 < sqrt (1 * 1 + 1 * 1).
Proof.
  split; [lra|]. intros [_ H]. replace 2 with (sqrt 4) in H at 1 by (replace 4 with (2 * 2) by ring; apply sqrt_square; lra).
  apply sqrt_lt_0_alt in H. lra.
Qed.

(* C103: full statement: for every method (false, below) *)
Theorem C103_constant_partial :
  forall areas radius dx dy rs ts pr p center o z,
  sb_res ts = ResInt z -> names_method (sb_method ts) Constant ->
  0 < radius < Rmin dx dy -> subdivides rs pr -> nth_error pr 0 = Some 0 -> subdivides ts p -> offset center o ->
  exists g h, SectorRectangle areas radius dx dy rs ts center = Ok (g, h) /\
    forall i t, nth_error p i = Some t ->
      node g i 0 = Some (moved (polar (0, 0, 0) radius (between t 45 0)) o) /\
      node h i 0 = Some (moved (polar (0, 0, 0) radius (between t 45 90)) o).
Proof. exact @theta_constant. Qed.
Print Assumptions C103_constant_partial.

Example C103_example : names_method None Constant /\ 0 < / 2 < Rmin 1 2 /\ subdivides default_sub [0; 1].
Proof. split; [constructor|]. split; [rewrite Rmin_left; lra|exact sub_none]. Qed.

(* C103: with theta_method = log the nodes of the arc are not at the positions of the method *)
Theorem C103_method_refuted :
  forall areas,
  exists radius dx dy rs ts p g h t,
  subdivides ts p /\ nth_error p 1 = Some t /\
  SectorRectangle areas radius dx dy rs ts None = Ok (g, h) /\
  node g 1 0 <> Some (polar (0, 0, 0) radius (between t 45 0)).
Proof. exact @theta_method_ignored. Qed.
Print Assumptions C103_method_refuted.

(* C104: full statement: the cells of every flat object turn counterclockwise (false for the objects below).  Sectors: C97_triangles *)
Theorem C104_rectangle_partial :
  forall areas dx dy xs ys px py center c,
  0 < dx -> 0 < dy -> increasing px -> increasing py ->
  subdivides xs px -> (2 <= length px)%nat -> subdivides ys py -> offset center c ->
  exists g, Rectangle areas dx dy xs ys center = Ok g /\ sg_dims g = (length px, length py, 1%nat) /\
    forall i j, (S i < length px)%nat -> (S j < length py)%nat ->
      exists a b d e, quad g i j a b d e /\ 0 < twice_area4 a b d e.
Proof. exact @rectangle_upward. Qed.
Print Assumptions C104_rectangle_partial.

Example C104_example : increasing [0; 1] /\ subdivides default_sub [0; 1].
Proof. split; [constructor; [lra|constructor]|exact sub_none]. Qed.

(* C104: an annular sector turns clockwise *)
Theorem C104_annular_refuted :
  forall areas,
  exists g a b c d, AnnularSector areas 1 2 0 90 default_sub default_sub None = Ok g /\
  quad g 0 0 a b c d /\ twice_area4 a b c d < 0.
Proof. exact @annular_downward. Qed.
Print Assumptions C104_annular_refuted.

(* C104: the two blocks of one SectorRectangle turn in opposite ways *)
Theorem C104_blocks_refuted :
  forall areas,
  exists g h a b c d a' b' c' d',
  SectorRectangle areas (/ 2) 1 1 default_sub default_sub None = Ok (g, h) /\
  quad g 0 0 a b c d /\ 0 < twice_area4 a b c d /\ quad h 0 0 a' b' c' d' /\ twice_area4 a' b' c' d' < 0.
Proof. exact @blocks_opposite. Qed.
Print Assumptions C104_blocks_refuted.

(* C105: segment k has direction d at angle (k + 1/2) theta / n of start and theta minus that of end *)
Theorem C105_curved_line :
  forall orig len start end_ n theta,
  (0 < n)%nat -> start <> (0, 0, 0) -> end_ <> (0, 0, 0) ->
  0 <= theta < PI -> inner (unit_of start) (unit_of end_) = cos theta ->
  exists pts, CurvedLine orig len start (Some end_) (Z.of_nat n) = Ok pts /\
    length pts = S n /\ nth_error pts 0 = Some orig /\
    forall k P, (k < n)%nat -> nth_error pts k = Some P ->
      exists d, nth_error pts (S k) = Some (moved P (times (len / INR n) d)) /\
        inner d d = 1 /\
        inner d (unit_of start) = cos ((INR k + / 2) / INR n * theta) /\
        inner d (unit_of end_) = cos (theta - (INR k + / 2) / INR n * theta).
Proof. exact @curved_ok. Qed.
Print Assumptions C105_curved_line.

Example C105_example : (1, 0, 0) <> (0, 0, 0) /\ 0 <= PI / 2 < PI /\ inner (unit_of (2, 0, 0)) (unit_of (0, 3, 0)) = cos (PI / 2).
Proof.
  split; [intros [= H]; lra|]. pose proof PI_RGT_0. split; [lra|]. rewrite cos_PI2. unfold inner, unit_of, times. ring.
Qed.

(* C105: total length *)
Theorem C105_length :
  forall orig len start end_ n theta,
  (0 < n)%nat -> start <> (0, 0, 0) -> end_ <> (0, 0, 0) ->
  0 <= theta < PI -> inner (unit_of start) (unit_of end_) = cos theta ->
  exists pts, CurvedLine orig len start (Some end_) (Z.of_nat n) = Ok pts /\ polyline_length pts = Rabs len.
Proof. exact @curved_length. Qed.
Print Assumptions C105_length.

(* C105: without end direction the points are evenly spaced on a ray *)
Theorem C105_straight :
  forall orig len start n,
  (0 < n)%nat -> start <> (0, 0, 0) ->
  exists pts, CurvedLine orig len start None (Z.of_nat n) = Ok pts /\ length pts = S n /\
    forall k, (k <= n)%nat -> nth_error pts k = Some (moved orig (times (INR k / INR n * len) (unit_of start))).
Proof. exact @curved_straight. Qed.
Print Assumptions C105_straight.

Theorem C105_invalid_resolution :
  forall orig len start end_ z,
  (z <= 0)%Z ->
  CurvedLine orig len start end_ z = Err (if (z =? 0)%Z then ZeroDivisionError else ValueError).
Proof. exact @curved_bad. Qed.
Print Assumptions C105_invalid_resolution.

(* C106: full statement: for every order of the data and base points (false, below) *)
Theorem C106_enclosed_partial :
  forall other linear nearest axis i points base e,
  (axis <= 2)%nat -> only_axis axis i points -> no_extrapolation e ->
  base <> [] -> ascending (map (xyz i) points) -> ascending (map (xyz i) base) ->
  (exists zs, interpolate other linear nearest axis points base e = Ok zs) <-> enclosed i points base.
Proof. exact @interp1_iff. Qed.
Print Assumptions C106_enclosed_partial.

Example C106_example : enclosed 0 [(0, 0, 0); (1, 0, 1)] [(/ 2, 0, 0)] /\ ascending (map (coord 0) [(0, 0, 0); (1, 0, 1)]).
Proof.
  split; [|cbn; constructor; [lra|constructor]]. exists (0, 0, 0), (1, 0, 1). split; [reflexivity|]. split; [reflexivity|].
  intros b [<-|[]]. cbn. lra.
Qed.

(* C106: a base with an interior point out of the range is accepted *)
Theorem C106_interior_refuted :
  forall other linear nearest,
  exists points base zs, only_axis 2 0 points /\ ascending (map (xyz 0) points) /\
  interpolate other linear nearest 2 points base None = Ok zs /\ ~ enclosed 0 points base.
Proof. exact @interp_outside. Qed.
Print Assumptions C106_interior_refuted.

(* C106: data in descending order are refused *)
Theorem C106_descending_refuted :
  forall other linear nearest,
  exists points base, only_axis 2 0 points /\
  (forall b, In b base -> exists p q, In p points /\ In q points /\ xyz 0 p <= xyz 0 b <= xyz 0 q) /\
  interpolate other linear nearest 2 points base None = Err ValueError.
Proof. exact @interp_descending. Qed.
Print Assumptions C106_descending_refuted.
