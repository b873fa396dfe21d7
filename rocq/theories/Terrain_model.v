(* Model of load_topographic_terrain (examples/examples.py:105-128). *)
From Coq Require Import Reals.
From Verif Require Export Objects_model Pile_model.
Open Scope R_scope.

(* pv.ImageData with one point array *)
Record image (D : Type) := mkImage { im_dims : shape3; im_origin : pt; im_spacing : pt; im_scal : list D }.
Arguments mkImage {D}. Arguments im_dims {D}. Arguments im_origin {D}. Arguments im_spacing {D}. Arguments im_scal {D}.

(* the points of an image, in the order of VTK *)
Definition image_points {D} (im : image D) : list pt :=
  let '(nx, ny, nz) := im_dims im in
  let '(ox, oy, oz) := im_origin im in
  let '(sx, sy, sz) := im_spacing im in
  ravelF nx ny nz (fun i j k => (ox + INR i * sx, oy + INR j * sy, oz + INR k * sz)).

(* ImageData.extract_subset((x0, x1, y0, y1, 0, 0), (rx, ry, 1)) of PyVista: every rx-th and ry-th point from x0 to x1 and
   from y0 to y1, with the origin moved to the first one (external).  Simplification: the ranges lie in the image;
   [d0] is never read then. *)
Definition extract_subset {D} (d0 : D) (im : image D) (x0 x1 y0 y1 rx ry : nat) : image D :=
  let '(ox, oy, oz) := im_origin im in
  let '(sx, sy, sz) := im_spacing im in
  let nx := S ((x1 - x0) / rx) in
  let ny := S ((y1 - y0) / ry) in
  mkImage (nx, ny, 1%nat) (ox + INR x0 * sx, oy + INR y0 * sy, oz) (INR rx * sx, INR ry * sy, sz)
    (ravelF nx ny 1 (fun i j _ => nth (fidx (im_dims im) ((x0 + rx * i)%nat, (y0 + ry * j)%nat, 0%nat)) (im_scal im) d0)).

(* ImageData.cast_to_structured_grid of PyVista (external) *)
Definition cast_to_structured {D} (name : string) (im : image D) : sbase D :=
  mkSbase (mkSsurf (im_dims im) (image_points im) [(name, im_scal im)] [] None) None None.

(* warp_by_scalar(name) of PyVista, factor 1, no normals: the points move along z (external) *)
Definition warp_by_scalar (pts : list pt) (scal : list R) : list pt :=
  map2 (fun '(x, y, z) s => (x, y, z + s)) pts scal.

(* [im] is the downloaded image; [real] reads a scalar as a number; the interpolators are those of SciPy
   (core/_base.py:518-565, no extrapolation) *)
Definition load_topographic_terrain {D} (num : Z -> D) (int : D -> Z) (real : D -> R) (volumes : shape3 -> list pt -> list R)
  other linear nearest (im : image D) : res (sgrid D * dict) :=
  let sub := extract_subset (num 0%Z) im 500 900 400 800 10 10 in                     (* 118 *)
  let terrain := cast_to_structured "scalar1of1" sub in                               (* 119 *)
  stack3d_program num int volumes (fun points base => interpolate other linear nearest 2 points base None)
    (mk_options "" []) 2 true terrain                                                 (* 121 *)
    [mkStCall (ArgScalar 0) (mkAdd ResNone None 0%Z 0 GNone);                         (* 122 *)
     mkStCall (ArgMesh (warp_by_scalar (ss_pts (sb_surf terrain)) (map real (im_scal sub))))
       (mkAdd (ResInt 10) (Some "log_r"%string) 0%Z 0 GNone)].                        (* 123 *)
