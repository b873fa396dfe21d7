(* Model of examples/examples.py load_well_2d without voronoi, on the objects of core/geometric_objects.py. *)
From Coq Require Import Reals.
From Verif Require Export Surface_model Objects_model MMerge_model.
Open Scope R_scope.

(* cast_to_unstructured_grid of a flat grid made by the functions of geometric_objects.py, which give neither
   point nor cell data: quadrilaterals in the order of the cells *)
Definition cast_grid {D} (g : sgrid unit) : uvol D :=
  let '(nx, ny, _) := sg_dims g in
  let cells := flat_map (fun j => map (fun i => [i + nx * j; S i + nx * j; S i + nx * S j; i + nx * S j]%nat) (seq 0 (nx - 1)))
                 (seq 0 (ny - 1)) in
  mkUvol (sg_pts g) (flat_map (fun c => 4%nat :: c) cells) (map (fun _ => 9%nat) cells) [] [] (sg_ghost g) [].

(* the triangles of core/geometric_objects.py:929-938 *)
Definition cast_fan {D} (m : tmesh) : uvol D :=
  mkUvol (t_pts m) (flat_map (fun c => 3%nat :: c) (t_cells m)) (map (fun _ => 5%nat) (t_cells m)) [] [] [] [].

(* pyvista rotate_z about the origin, angle in degrees *)
Definition rotz (angle : R) (p : pt) : pt :=
  let '(x, y, z) := p in let a := angle * PI / 180 in (x * cos a - y * sin a, x * sin a + y * cos a, z).
Definition rotate_z {D} (angle : R) (m : mmesh D) : mmesh D :=
  let g := mm_vol m in
  mkMM (mkUvol (map (rotz angle) (uv_pts g)) (uv_stream g) (uv_types g) (uv_pd g) (uv_cd g) (uv_ghost g) (uv_input_cells g)) (mm_labels m).

Section Well.
Context {D : Type} (num : Z -> D) (int : D -> Z) (areas : shape3 -> list pt -> list R).
Context (pvmerge : list (uvol D) -> res (uvol D)) (clean : R -> uvol D -> uvol D).

(* core/geometric_objects.py:1005-1008 *)
Definition sector_rectangle_mesh (radius dx dy : R) (rs ts : sub) : res (uvol D) :=
  let! gh := SectorRectangle areas radius dx dy rs ts None in
  pvmerge [cast_grid (fst gh); cast_grid (snd gh)].

Definition times_ (n : Z) : sub := mkSub (ResInt n) None.

(* examples/examples.py:150-166 *)
Definition well_parts : res (list (mitem D)) :=
  let inner := 34 / 100 in
  let outer := 445 / 1000 in
  let thickness := outer - inner in
  let ring r r' n := AnnularSector areas r r' 0 90 (times_ n) (times_ 8) None in
  let square x y := Rectangle areas 5 5 (times_ 4) (times_ 4) (Some [x; y; 0]) in
  let! core := Sector (inner - thickness) 0 90 (times_ 8) None in
  let! core' := ring (inner - thickness) inner 1%Z in
  let! casing := ring inner outer 1%Z in
  let! cement := ring outer (outer + thickness) 1%Z in
  let! cement' := ring (outer + thickness) (8 / 10) 2%Z in
  let! cement'' := ring (8 / 10) 1 1%Z in
  let! matrix := ring 1 (12 / 10) 1%Z in
  let! frame := sector_rectangle_mesh (12 / 10) 5 5 (mkSub (ResInt 8) (Some "log"%string)) (times_ 4) in
  let! east := square 5 0 in
  let! corner := square 5 5 in
  let! north := square 0 5 in
  let part (g : uvol D) (k : string) := (mkMM g None, k) in
  Ok [part (cast_fan core) "Core"; part (cast_grid core') "Core"; part (cast_grid casing) "Casing"; part (cast_grid cement) "Cement";
      part (cast_grid cement') "Cement"; part (cast_grid cement'') "Cement"; part (cast_grid matrix) "Matrix"; part frame "Matrix";
      part (cast_grid east) "Matrix"; part (cast_grid corner) "Matrix"; part (cast_grid north) "Matrix"]%string.

(* examples/examples.py:154-176 *)
Definition load_well_2d : res (uvol D * dict) :=
  let o := mk_options "" [] in
  let! items := well_parts in
  let! q := merge_mesh num int o pvmerge (clean (/ 10 ^ 8)) items in
  let mesh14 := mkMM (fst q) (Some (snd q)) in
  merge_mesh num int o pvmerge (clean (/ 10 ^ 4))
    [(mesh14, ""); (rotate_z 90 mesh14, ""); (rotate_z 180 mesh14, ""); (rotate_z 270 mesh14, "")]%string.
End Well.
