From Verif Require Import RealAux Perc_model Perc_spec Surface_model Surface_spec
  Volume_model Volume_spec SMerge_model SMerge_spec Groups_model Groups_spec
  Stack_model Stack_spec Stack6_proof Final_model Final_spec Final_props
  Objects_model Pile_model Terrain_model Terrain_spec Terrain_proof.
From Coq Require Import Lra.
Open Scope nat_scope.

(* C163: the nodes of load_topographic_terrain(), from the downloaded image *)
Theorem C163_nodes :
  forall (D : Type) (num : Z -> D) (int : D -> Z) (Hint : forall z, int (num z) = z) (real : D -> R)
    (volumes : shape3 -> list pt -> list R) other linear (Hlin : reproduces linear) nearest
    nx ny nz ox oy oz sx sy sz scal,
  901 <= nx -> 801 <= ny -> 1 <= nz -> length scal = nx * ny * nz -> (0 < sx)%R -> (0 < sy)%R ->
  exists g labels,
    load_topographic_terrain num int real volumes other linear nearest (mkImage (nx, ny, nz) (ox, oy, oz) (sx, sy, sz) scal) = Ok (g, labels) /\
    sg_dims g = (41, 41, 11) /\ length (sg_pts g) = 41 * 41 * 11 /\
    forall i j k s, i <= 40 -> j <= 40 -> k <= 10 ->
      nth_error scal (fidx (nx, ny, nz) (500 + 10 * i, 400 + 10 * j, 0)) = Some s ->
      let top := (oz + real s)%R in let bottom := Rmin 0 top in
      at_coord (41, 41, 11) (sg_pts g) (i, j, k) =
        Some (ox + INR (500 + 10 * i) * sx, oy + INR (400 + 10 * j) * sy, bottom + log_r k * (top - bottom))%R.
Proof. exact @terrain_nodes. Qed.
Print Assumptions C163_nodes.

(* C163: all of its cells are in one group *)
Theorem C163_groups :
  forall (D : Type) (num : Z -> D) (int : D -> Z) (Hint : forall z, int (num z) = z) (real : D -> R)
    (volumes : shape3 -> list pt -> list R) (Hvol : forall dims pts, length (volumes dims pts) = n_cells dims)
    other linear (Hlin : reproduces linear) nearest nx ny nz ox oy oz sx sy sz scal g labels,
  901 <= nx -> 801 <= ny -> 1 <= nz -> length scal = nx * ny * nz -> (0 < sx)%R -> (0 < sy)%R ->
  load_topographic_terrain num int real volumes other linear nearest (mkImage (nx, ny, nz) (ox, oy, oz) (sx, sy, sz) scal) = Ok (g, labels) ->
  exists cg names, In ("CellGroup"%string, cg) (sg_cd g) /\ get_cell_group (Some (map int cg)) (Some labels) = Ok (Some (inl names)) /\
    length names = 40 * 40 * 10 /\ (forall k, In k names -> k = "default"%string) /\ (forall k, In k (map fst labels) <-> k = "default"%string).
Proof.
  intros D num int Hint real volumes Hvol other linear Hlin nearest nx ny nz ox oy oz sx sy sz scal g labels Hx Hy Hz Hs Hsx Hsy E.
  exact (terrain_groups num int Hint real volumes Hvol other linear Hlin nearest nx ny nz ox oy oz sx sy sz scal Hx Hy Hz Hs Hsx Hsy g labels E).
Qed.
Print Assumptions C163_groups.

(* an image of the constant 3 *)
Lemma tx_linear : reproduces (fun _ zs _ => Ok (map Some zs)).
Proof. intros pts zs _ _ _. reflexivity. Qed.

Lemma tx_constant nx ny : 901 <= nx -> 801 <= ny -> exists g labels,
  load_topographic_terrain zz zz IZR fx_volumes (fun _ _ f => f) (fun _ zs _ => Ok (map Some zs)) (fun _ _ _ => 0%R)
    (mkImage (nx, ny, 1) (0, 0, 0)%R (1, 1, 1)%R (repeat 3%Z (nx * ny * 1))) = Ok (g, labels) /\
  at_coord (41, 41, 11) (sg_pts g) (2, 1, 0) = Some (0 + INR (500 + 10 * 2) * 1, 0 + INR (400 + 10 * 1) * 1, 0)%R /\
  at_coord (41, 41, 11) (sg_pts g) (2, 1, 10) = Some (0 + INR (500 + 10 * 2) * 1, 0 + INR (400 + 10 * 1) * 1, 3)%R.
Proof.
  intros Hx Hy.
  destruct (C163_nodes Z zz zz (fun z => eq_refl) IZR fx_volumes (fun _ _ f => f) _ tx_linear (fun _ _ _ => 0%R) nx ny 1 0 0 0 1 1 1
    (repeat 3%Z (nx * ny * 1)) Hx Hy (le_n 1) (repeat_length _ _) Rlt_0_1 Rlt_0_1) as (g & labels & E & _ & _ & HN).
  exists g, labels. split; [exact E|].
  assert (HS : nth_error (repeat 3%Z (nx * ny * 1)) (fidx (nx, ny, 1) (500 + 10 * 2, 400 + 10 * 1, 0)) = Some 3%Z).
  { apply nth_error_repeat. cbn [fidx]. nia. }
  pose proof (log_r_ends) as [L0 L1].
  assert (HM : Rmin 0 (0 + IZR 3) = 0%R) by (unfold Rmin; destruct (Rle_dec _ _); lra).
  pose proof (HN 2 1 0 3%Z ltac:(lia) ltac:(lia) ltac:(lia) HS) as A. pose proof (HN 2 1 10 3%Z ltac:(lia) ltac:(lia) ltac:(lia) HS) as B.
  cbv zeta in A, B. rewrite HM, L0 in A. rewrite HM, L1 in B. rewrite A, B. split; repeat f_equal; lra.
Qed.

Example C163_example : exists g labels,
  load_topographic_terrain zz zz IZR fx_volumes (fun _ _ f => f) (fun _ zs _ => Ok (map Some zs)) (fun _ _ _ => 0%R)
    (mkImage (901, 801, 1) (0, 0, 0)%R (1, 1, 1)%R (repeat 3%Z (901 * 801 * 1))) = Ok (g, labels) /\
  at_coord (41, 41, 11) (sg_pts g) (2, 1, 0) = Some (0 + INR (500 + 10 * 2) * 1, 0 + INR (400 + 10 * 1) * 1, 0)%R /\
  at_coord (41, 41, 11) (sg_pts g) (2, 1, 10) = Some (0 + INR (500 + 10 * 2) * 1, 0 + INR (400 + 10 * 1) * 1, 3)%R.
Proof. exact (tx_constant 901 801 (le_n _) (le_n _)). Qed.
