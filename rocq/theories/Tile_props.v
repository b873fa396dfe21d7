From Coq Require Import Reals Lra.
From Verif Require Import Prelude Perc_model Perc_spec Grid Surface_model Surface_spec Objects_model Objects_spec Tile_spec Tile_proof.
Open Scope R_scope.

(* C153: the cells of a rectangle have together the area of the rectangle *)
Theorem C153_rectangle :
  forall areas dx dy xs ys nx ny px py center c,
  subdivides xs px -> subdivides ys py -> proper_subdivision nx px -> proper_subdivision ny py -> (0 < nx)%nat -> offset center c ->
  exists g, Rectangle areas dx dy xs ys center = Ok g /\ mesh_area g = Rabs (dx * dy).
Proof. exact @rectangle_area. Qed.
Print Assumptions C153_rectangle.

(* C153: and those of an annular sector the area between its two inscribed polylines *)
Theorem C153_annular_sector :
  forall areas inner outer tmin tmax rs ts nr nt pr pt_ center c,
  0 <= inner < outer -> subdivides rs pr -> subdivides ts pt_ -> proper_subdivision nr pr -> proper_subdivision nt pt_ -> (0 < nt)%nat ->
  offset center c ->
  exists g, AnnularSector areas inner outer tmin tmax rs ts center = Ok g /\
    mesh_area g = (outer * outer - inner * inner) / 2 * sum_to nt (fun i => Rabs (sin (degrees ((nth (S i) pt_ 0 - nth i pt_ 0) * (tmax - tmin))))).
Proof. exact @annular_area. Qed.
Print Assumptions C153_annular_sector.

Theorem C153_annular_sector_equal :
  forall areas inner outer tmin tmax rs ts nr nt pr center c,
  0 <= inner < outer -> subdivides rs pr -> proper_subdivision nr pr -> equally ts nt -> offset center c ->
  exists g, AnnularSector areas inner outer tmin tmax rs ts center = Ok g /\
    mesh_area g = (outer * outer - inner * inner) / 2 * (INR nt * Rabs (sin (degrees ((tmax - tmin) / INR nt)))).
Proof. exact @annular_equal. Qed.
Print Assumptions C153_annular_sector_equal.

(* C153: and those of a sector the area of its inscribed polygon *)
Theorem C153_sector :
  forall radius tmin tmax s n p center c,
  0 < radius -> subdivides s p -> proper_subdivision n p -> (0 < n)%nat -> offset center c ->
  exists m, Sector radius tmin tmax s center = Ok m /\
    fan_area m = radius * radius / 2 * sum_to n (fun i => Rabs (sin (degrees ((nth (S i) p 0 - nth i p 0) * (tmax - tmin))))).
Proof. exact @sector_area. Qed.
Print Assumptions C153_sector.

Theorem C153_sector_equal :
  forall radius tmin tmax s n center c,
  0 < radius -> equally s n -> offset center c ->
  exists m, Sector radius tmin tmax s center = Ok m /\
    fan_area m = radius * radius / 2 * (INR n * Rabs (sin (degrees ((tmax - tmin) / INR n)))).
Proof. exact @sector_equal. Qed.
Print Assumptions C153_sector_equal.

(* C153: no cell of a frame around a quarter of disc is folded, and they cover the rectangle minus the inscribed polygon *)
Theorem C153_frame :
  forall areas radius dx dy rs ts pr nr n center o,
  0 < radius < Rmin dx dy -> subdivides rs pr -> proper_subdivision nr pr -> equally ts n -> offset center o ->
  exists g h, SectorRectangle areas radius dx dy rs ts center = Ok (g, h) /\
    (forall i j, (i < n)%nat -> (j < nr)%nat ->
       (exists a b c d, quad g i j a b c d /\ 0 < twice_area4 a b c d) /\
       (exists a b c d, quad h i j a b c d /\ twice_area4 a b c d < 0)) /\
    mesh_area g + mesh_area h = dx * dy - INR n * (radius * radius * sin (degrees (45 / INR n))).
Proof. exact @sector_rectangle_area. Qed.
Print Assumptions C153_frame.

(* C153: the quarter of disc and its frame have together the area of the rectangle *)
Theorem C153_filled :
  forall areas radius dx dy rs ts ts2 nr pr n center o,
  0 < radius < Rmin dx dy -> subdivides rs pr -> proper_subdivision nr pr -> equally ts n -> equally ts2 (2 * n) -> offset center o ->
  exists m g h, Sector radius 0 90 ts2 center = Ok m /\ SectorRectangle areas radius dx dy rs ts center = Ok (g, h) /\
    fan_area m + mesh_area g + mesh_area h = dx * dy.
Proof. exact @filled. Qed.
Print Assumptions C153_filled.

(* a frame of 3 by 2 cells twice around a quarter of the unit disc in a rectangle 3 by 2 *)
Lemma three : equally (mkSub (ResInt 3) None) 3.
Proof. split; [lia|]. split; [reflexivity|constructor]. Qed.
Lemma six : equally (mkSub (ResInt 6) None) (2 * 3).
Proof. split; [lia|]. split; [reflexivity|constructor]. Qed.
Lemma two : equally (mkSub (ResInt 2) (Some "constant"%string)) 2.
Proof. split; [lia|]. split; [reflexivity|constructor]. Qed.
Lemma unit_in : 0 < 1 < Rmin 3 2.
Proof. unfold Rmin. destruct (Rle_dec 3 2); lra. Qed.

Example C153_example : forall areas, exists m g h,
  Sector 1 0 90 (mkSub (ResInt 6) None) (Some [5; 7]) = Ok m /\
  SectorRectangle areas 1 3 2 (mkSub (ResInt 2) (Some "constant"%string)) (mkSub (ResInt 3) None) (Some [5; 7]) = Ok (g, h) /\
  fan_area m + mesh_area g + mesh_area h = 6.
Proof.
  intros areas. destruct (equally_proper _ _ two) as (p & Sp & _ & Pp & _).
  replace 6 with (3 * 2) by ring.
  exact (C153_filled areas 1 3 2 _ _ _ 2 p 3 (Some [5; 7]) (5, 7, 0) unit_in Sp Pp three six (off_two 5 7)).
Qed.

(* C154: consecutive rings share their nodes *)
Theorem C154_rings :
  forall areas r0 r1 r2 tmin tmax rs rs' ts nr nr' nt pr pr' pt_ center c,
  0 <= r0 < r1 -> r1 < r2 -> subdivides rs pr -> proper_subdivision nr pr -> subdivides rs' pr' -> proper_subdivision nr' pr' ->
  subdivides ts pt_ -> length pt_ = S nt -> (0 < nt)%nat -> offset center c ->
  exists g h, AnnularSector areas r0 r1 tmin tmax rs ts center = Ok g /\ AnnularSector areas r1 r2 tmin tmax rs' ts center = Ok h /\
    forall i, (i <= nt)%nat -> node g i nr <> None /\ node g i nr = node h i 0.
Proof. exact @annular_rings. Qed.
Print Assumptions C154_rings.

(* C154: a sector and the ring around it share their nodes *)
Theorem C154_sector_ring :
  forall areas r0 r1 tmin tmax rs ts nr nt pr pt_ center c,
  0 < r0 < r1 -> subdivides rs pr -> proper_subdivision nr pr -> subdivides ts pt_ -> length pt_ = S nt -> (0 < nt)%nat -> offset center c ->
  exists m g, Sector r0 tmin tmax ts center = Ok m /\ AnnularSector areas r0 r1 tmin tmax rs ts center = Ok g /\
    forall i, (i <= nt)%nat -> node g i 0 <> None /\ nth_error (t_pts m) (S i) = node g i 0.
Proof. exact @fan_ring. Qed.
Print Assumptions C154_sector_ring.

(* C154: a quarter of ring with 2n subdivisions and the frame with n subdivisions share their nodes *)
Theorem C154_ring_frame :
  forall areas r0 radius dx dy rs rs' ts ts2 nr nr' pr pr' n center o,
  0 <= r0 < radius -> radius < Rmin dx dy -> subdivides rs pr -> proper_subdivision nr pr -> subdivides rs' pr' -> proper_subdivision nr' pr' ->
  equally ts2 (2 * n) -> equally ts n -> offset center o ->
  exists a g h, AnnularSector areas r0 radius 0 90 rs ts2 center = Ok a /\ SectorRectangle areas radius dx dy rs' ts center = Ok (g, h) /\
    forall i, (i <= n)%nat ->
      node a i nr <> None /\ node a i nr = node g (n - i) 0 /\ node a (n + i) nr <> None /\ node a (n + i) nr = node h i 0.
Proof. exact @ring_frame. Qed.
Print Assumptions C154_ring_frame.

(* C154: the frame shares its outer nodes with the rectangles placed to its right and above it *)
Theorem C154_frame_rectangles :
  forall areas radius dx dy ex ey rs ts xs ys nr pr px py n center o right top,
  0 < radius < Rmin dx dy -> subdivides rs pr -> proper_subdivision nr pr -> equally ts n -> offset center o ->
  subdivides xs px -> (exists nx, proper_subdivision nx px /\ (0 < nx)%nat) -> subdivides ys py -> (exists ny, proper_subdivision ny py) ->
  offset right (moved (dx, 0, 0) o) -> offset top (moved (0, dy, 0) o) ->
  exists g h a b, SectorRectangle areas radius dx dy rs ts center = Ok (g, h) /\
    Rectangle areas ex dy xs ts right = Ok a /\ Rectangle areas dx ey ts ys top = Ok b /\
    forall k, (k <= n)%nat ->
      node a 0 k <> None /\ node a 0 k = node g (n - k) nr /\ node b k 0 <> None /\ node b k 0 = node h (n - k) nr.
Proof. exact @frame_rectangles. Qed.
Print Assumptions C154_frame_rectangles.

Example C154_example : forall areas, exists a g h,
  AnnularSector areas (/ 2) 1 0 90 (mkSub (ResInt 2) (Some "constant"%string)) (mkSub (ResInt 6) None) (Some [5; 7]) = Ok a /\
  SectorRectangle areas 1 3 2 (mkSub (ResInt 2) (Some "constant"%string)) (mkSub (ResInt 3) None) (Some [5; 7]) = Ok (g, h) /\
  node a 1 2 <> None /\ node a 1 2 = node g 2 0 /\ node a 4 2 <> None /\ node a 4 2 = node h 1 0.
Proof.
  intros areas. destruct (equally_proper _ _ two) as (p & Sp & _ & Pp & _).
  assert (L : 1 < Rmin 3 2) by apply unit_in.
  destruct (C154_ring_frame areas (/ 2) 1 3 2 _ _ _ _ 2 2 p p 3 (Some [5; 7]) (5, 7, 0) ltac:(lra) L Sp Pp Sp Pp six three (off_two 5 7))
    as (a & g & h & E & E' & N).
  exists a, g, h. split; [exact E|]. split; [exact E'|]. exact (N 1%nat ltac:(lia)).
Qed.

Example C154_rectangles_example : forall areas, exists g h a b,
  SectorRectangle areas 1 3 2 (mkSub (ResInt 2) (Some "constant"%string)) (mkSub (ResInt 3) None) (Some [5; 7]) = Ok (g, h) /\
  Rectangle areas 4 2 (mkSub (ResInt 2) (Some "constant"%string)) (mkSub (ResInt 3) None) (Some [3 + 5; 0 + 7; 0 + 0]) = Ok a /\
  Rectangle areas 3 9 (mkSub (ResInt 3) None) (mkSub (ResInt 2) (Some "constant"%string)) (Some [0 + 5; 2 + 7; 0 + 0]) = Ok b /\
  node a 0 1 = node g 2 2 /\ node b 1 0 = node h 2 2.
Proof.
  intros areas. destruct (equally_proper _ _ two) as (p & Sp & _ & Pp & _).
  destruct (C154_frame_rectangles areas 1 3 2 4 9 _ _ _ _ 2 p p p 3 (Some [5; 7]) (5, 7, 0) (Some [3 + 5; 0 + 7; 0 + 0]) (Some [0 + 5; 2 + 7; 0 + 0])
    unit_in Sp Pp three (off_two 5 7) Sp ltac:(exists 2%nat; split; [exact Pp|lia]) Sp ltac:(now exists 2%nat) (off_three _ _ _) (off_three _ _ _))
    as (g & h & a & b & E & E' & E'' & N).
  exists g, h, a, b. split; [exact E|]. split; [exact E'|]. split; [exact E''|]. destruct (N 1%nat ltac:(lia)) as (_ & A & _ & B). now split.
Qed.
