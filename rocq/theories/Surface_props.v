(* Properties C06-C08: structured surface between two lines. *)
From Verif Require Import Perc_model Perc_spec Perc_proof Surface_model Surface_spec Surface_proof Surface2_spec Surface2_proof.
Open Scope R_scope.

(* C06 *)
Theorem C06_surface_coordinates :
  forall D areas (la lb : line_arg D) plane r m g,
  generate_surface_from_two_lines areas la lb plane r m = Ok g ->
  exists pa pb perc ax bx,
    traversed la pa /\ traversed lb pb /\ length pa = length pb /\
    resolution_to_perc r m = Ok perc /\ plane_axes plane ax bx /\
    sg_dims g = grid_dims ax bx (length pa) (length perc) /\
    length (sg_pts g) = (length pa * length perc)%nat /\
    forall i j p q t, nth_error pa i = Some p -> nth_error pb i = Some q ->
      nth_error perc j = Some t ->
      at_coord (sg_dims g) (sg_pts g) (grid_coord ax bx i j) =
      Some (let '(x, y, z) := p in let '(x', y', z') := q in
            (x + t * (x' - x), y + t * (y' - y), z + t * (z' - z))).
Proof. exact @surface_coords_t. Qed.
Print Assumptions C06_surface_coordinates.

Theorem C06_mismatch_rejected :
  forall D areas (la lb : line_arg D) plane r m pa pb,
  traversed la pa -> traversed lb pb -> length pa <> length pb ->
  generate_surface_from_two_lines areas la lb plane r m = Err ValueError.
Proof. exact @surface_mismatch_t. Qed.
Print Assumptions C06_mismatch_rejected.
Example C06_mismatch_case :
  traversed (LinePoly (ex_line [1; 0]%nat)) [(1, 0, 0); (0, 0, 0)] /\
  generate_surface_from_two_lines no_areas (LinePoly (ex_line [1; 0]%nat)) (LineArr [(0, 1, 0)]) "xy" ResNone None = Err ValueError.
Proof.
  assert (H : traversed (LinePoly (ex_line [1; 0]%nat)) [(1, 0, 0); (0, 0, 0)]) by repeat constructor.
  split; [exact H|]. eapply C06_mismatch_rejected; [exact H|reflexivity|discriminate].
Qed.

Theorem C06_plane_rejected :
  forall D areas (la lb : line_arg D) plane r m pa pb perc,
  traversed la pa -> traversed lb pb -> length pa = length pb -> resolution_to_perc r m = Ok perc ->
  ~ In plane ["xy"; "yx"; "xz"; "zx"; "yz"; "zy"]%string ->
  generate_surface_from_two_lines areas la lb plane r m = Err ValueError.
Proof. exact @surface_plane_rejected. Qed.
Print Assumptions C06_plane_rejected.
Example C06_plane_case :
  generate_surface_from_two_lines no_areas (LinePoly (ex_line [1; 0]%nat)) ex_top "xx" (ResInt 2) None = Err ValueError.
Proof.
  destruct (perc_proper 2 None Constant) as (p & Hp & _); [constructor|].
  eapply C06_plane_rejected; [repeat constructor|reflexivity|reflexivity|exact Hp|].
  cbn. intuition discriminate.
Qed.

Theorem C06_defined :
  forall D areas (la lb : line_arg D) plane r m pa pb perc ax bx,
  traversed la pa -> traversed lb pb -> length pa = length pb -> fits la (length pa) ->
  resolution_to_perc r m = Ok perc -> plane_axes plane ax bx -> (2 <= length pa)%nat -> (2 <= length perc)%nat ->
  exists g, generate_surface_from_two_lines areas la lb plane r m = Ok g.
Proof. exact @surface_defined. Qed.
Print Assumptions C06_defined.

(* a surface whose second column is the first point stored *)
Lemma ex_zx : exists g, generate_surface_from_two_lines no_areas (LinePoly (ex_line [1; 0]%nat)) ex_top "zx" (ResInt 2) None = Ok g.
Proof.
  destruct (perc_proper 2 None Constant) as (p & Hp & L & _); [constructor|]. cbn in L.
  eapply C06_defined; [repeat constructor|reflexivity|reflexivity| |exact Hp|constructor|cbn; lia|lia].
  split; [|split]; cbn; try tauto; try discriminate. intros k v [E|[]]. injection E as <- <-. reflexivity.
Qed.

Example C06_case : exists g, generate_surface_from_two_lines no_areas (LinePoly (ex_line [1; 0]%nat)) ex_top "zx" (ResInt 2) None = Ok g /\
  sg_dims g = (3, 1, 2)%nat /\ at_coord (sg_dims g) (sg_pts g) (0, 0, 1)%nat = Some (0, 0, 0).
Proof.
  destruct ex_zx as [g H]. exists g. split; [exact H|].
  destruct (C06_surface_coordinates _ _ _ _ _ _ _ _ H) as (pa & pb & perc & ax & bx & Ha & Hb & _ & Hp & Hpl & Hd & _ & Hc).
  destruct (perc_proper 2 None Constant) as (p & Hp' & L & H0 & _); [constructor|]. rewrite Hp in Hp'. injection Hp' as <-.
  assert (Ea : pa = [(1, 0, 0); (0, 0, 0)]).
  { inversion Ha as [|? ? ? ? E1 Ha']. inversion Ha' as [|? ? ? ? E2 Ha'']. inversion Ha''. cbn in E1, E2. congruence. }
  cbn in Hb. subst pa pb. inversion Hpl; subst. cbn in L. rewrite L in Hd. cbn in Hd. split; [exact Hd|].
  pose proof (Hc 1%nat 0%nat _ _ 0 eq_refl eq_refl ltac:(eassumption)) as E. cbn [grid_coord setc] in E.
  unfold grid_coord, setc in E. rewrite E. f_equal. f_equal; [f_equal|]; ring.
Qed.

(* C07: full statement (every plane, any storage order of the line points):
     forall i j id, nth_error (ln_ids l) i = Some id -> j < length perc ->
       at_coord dims w (grid_coord ax bx i j) = nth_error v id.
   It is false (two refutations below); it holds for the planes whose first letter is
   the line axis and lines stored in traversal order. *)
Theorem C07_point_data_partial :
  forall D areas (l : line D) lb plane r m g k v,
  generate_surface_from_two_lines areas (LinePoly l) lb plane r m = Ok g ->
  direct_plane plane -> ln_ids l = seq 0 (length (ln_pts l)) -> (0 < length (ln_ids l))%nat ->
  In (k, v) (ln_pd l) ->
  exists w perc ax bx,
    In (k, w) (sg_pd g) /\ resolution_to_perc r m = Ok perc /\ plane_axes plane ax bx /\
    forall i j id, nth_error (ln_ids l) i = Some id -> (j < length perc)%nat ->
      at_coord (sg_dims g) w (grid_coord ax bx i j) = nth_error v id.
Proof. exact @direct_points. Qed.
Print Assumptions C07_point_data_partial.

Theorem C07_cell_data_partial :
  forall D areas (l : line D) lb plane r m g k v,
  generate_surface_from_two_lines areas (LinePoly l) lb plane r m = Ok g ->
  direct_plane plane -> (2 <= length (ln_ids l))%nat ->
  In (k, v) (ln_cd l) ->
  exists w perc ax bx,
    In (k, w) (sg_cd g) /\ resolution_to_perc r m = Ok perc /\ plane_axes plane ax bx /\
    forall i j, (i < length (ln_ids l) - 1)%nat -> (j < length perc - 1)%nat ->
      at_coord (cell_shape (sg_dims g)) w (grid_coord ax bx i j) = nth_error v i.
Proof. exact @direct_cells. Qed.
Print Assumptions C07_cell_data_partial.

Example C07_case : direct_plane "xz" /\
  ln_ids (ex_line [0; 1]%nat) = seq 0 (length (ln_pts (ex_line [0; 1]%nat))).
Proof. split; constructor. Qed.

(* in every plane: the arrays are written level after level and read in the order of storage *)
Theorem C07_point_data_any_plane :
  forall D areas (l : line D) lb plane r m g k v,
  generate_surface_from_two_lines areas (LinePoly l) lb plane r m = Ok g -> In (k, v) (ln_pd l) ->
  exists w perc ax bx,
    In (k, w) (sg_pd g) /\ resolution_to_perc r m = Ok perc /\ plane_axes plane ax bx /\
    forall i j, (i < length (ln_ids l))%nat -> (j < length perc)%nat ->
      at_coord (sg_dims g) w (grid_coord ax bx i j) =
      nth_error v (stored ax bx (length (ln_ids l)) (length perc) i j mod length (ln_ids l)).
Proof. exact @any_points. Qed.
Print Assumptions C07_point_data_any_plane.

Theorem C07_cell_data_any_plane :
  forall D areas (l : line D) lb plane r m g k v,
  generate_surface_from_two_lines areas (LinePoly l) lb plane r m = Ok g -> In (k, v) (ln_cd l) ->
  exists w perc ax bx,
    In (k, w) (sg_cd g) /\ resolution_to_perc r m = Ok perc /\ plane_axes plane ax bx /\
    forall i j, (i < length (ln_ids l) - 1)%nat -> (j < length perc - 1)%nat ->
      at_coord (cell_shape (sg_dims g)) w (grid_coord ax bx i j) =
      nth_error v (stored ax bx (length (ln_ids l) - 1) (length perc - 1) i j mod (length (ln_ids l) - 1)).
Proof. exact @any_cells. Qed.
Print Assumptions C07_cell_data_any_plane.

Example C07_any_case : stored 2 0 2 3 0 1 mod 2 = 1%nat /\ stored 0 2 2 3 0 1 mod 2 = 0%nat /\
  exists g, generate_surface_from_two_lines no_areas (LinePoly (ex_line [1; 0]%nat)) ex_top "zx" (ResInt 2) None = Ok g.
Proof. split; [reflexivity|]. split; [reflexivity|exact ex_zx]. Qed.

Theorem C07_transposed_plane_refuted :
  exists (l : line nat) lb plane g w ax bx,
    generate_surface_from_two_lines no_areas (LinePoly l) lb plane ResNone None = Ok g /\
    plane_axes plane ax bx /\ ln_ids l = seq 0 (length (ln_pts l)) /\
    ln_pd l = [("v"%string, [7; 8]%nat)] /\ sg_pd g = [("v"%string, w)] /\
    at_coord (sg_dims g) w (grid_coord ax bx 0 1) = Some 8%nat.
Proof. exact surface_data_transposed_wrong. Qed.
Print Assumptions C07_transposed_plane_refuted.

Theorem C07_reordered_line_refuted :
  exists (l : line nat) lb plane g w ax bx,
    generate_surface_from_two_lines no_areas (LinePoly l) lb plane ResNone None = Ok g /\
    plane_axes plane ax bx /\ direct_plane plane /\
    ln_pd l = [("v"%string, [7; 8]%nat)] /\ sg_pd g = [("v"%string, w)] /\
    nth_error (ln_ids l) 0 = Some 1%nat /\
    at_coord (sg_dims g) w (grid_coord ax bx 0 0) = Some 7%nat.
Proof. exact surface_data_reordered_wrong. Qed.
Print Assumptions C07_reordered_line_refuted.

(* C08 *)
Theorem C08_collapsed_cells_flagged :
  forall D areas (la lb : line_arg D) plane r m g,
  generate_surface_from_two_lines areas la lb plane r m = Ok g ->
  length (areas (sg_dims g) (sg_pts g)) = n_cells (sg_dims g) ->
  length (sg_ghost g) = n_cells (sg_dims g) /\
  forall c x, nth_error (areas (sg_dims g) (sg_pts g)) c = Some x ->
    (x = 0 -> nth_error (sg_ghost g) c = Some 32%nat) /\
    (x <> 0 -> forall l gh perc, la = LinePoly l -> ln_ghost l = Some gh ->
       resolution_to_perc r m = Ok perc ->
       nth_error (sg_ghost g) c = nth_error (tile gh (length perc - 1)) c) /\
    (x <> 0 -> (forall l, la = LinePoly l -> ln_ghost l = None) ->
       nth_error (sg_ghost g) c = Some 0%nat).
Proof. exact @surface_ghost. Qed.
Print Assumptions C08_collapsed_cells_flagged.
Example C08_case : exists g,
  generate_surface_from_two_lines no_areas (LinePoly (ex_line [0; 1]%nat)) ex_top "xy" ResNone None = Ok g
  /\ length (no_areas (sg_dims g) (sg_pts g)) = n_cells (sg_dims g).
Proof.
  destruct (ex_surface "xy" [0; 1]%nat [(0,0,0); (1,0,0)]) as (g & Hg & _);
    [reflexivity|reflexivity|exists 0%nat, 1%nat; constructor|].
  exists g; split; [exact Hg|apply repeat_length].
Qed.

(* the flags of the line, read like its cell arrays *)
Theorem C08_line_flags :
  forall D areas (l : line D) lb plane r m g gh,
  generate_surface_from_two_lines areas (LinePoly l) lb plane r m = Ok g -> ln_ghost l = Some gh ->
  length gh = (length (ln_ids l) - 1)%nat ->
  length (areas (sg_dims g) (sg_pts g)) = n_cells (sg_dims g) ->
  exists perc ax bx, resolution_to_perc r m = Ok perc /\ plane_axes plane ax bx /\
    forall i j x, (i < length (ln_ids l) - 1)%nat -> (j < length perc - 1)%nat ->
      at_coord (cell_shape (sg_dims g)) (areas (sg_dims g) (sg_pts g)) (grid_coord ax bx i j) = Some x ->
      at_coord (cell_shape (sg_dims g)) (sg_ghost g) (grid_coord ax bx i j) =
      if Reqb x 0 then Some 32%nat
      else nth_error gh (stored ax bx (length (ln_ids l) - 1) (length perc - 1) i j mod (length (ln_ids l) - 1)).
Proof. exact @any_ghost. Qed.
Print Assumptions C08_line_flags.
Example C08_flags_case : exists g,
  generate_surface_from_two_lines no_areas
    (LinePoly (mkLine (D := nat) [(0, 0, 0); (1, 0, 0); (2, 0, 0)] [0; 1; 2]%nat [] [] (Some [0; 5]%nat)))
    (LineArr [(0, 1, 0); (1, 1, 0); (2, 1, 0)]) "xy" (ResInt 2) None = Ok g.
Proof.
  destruct (perc_proper 2 None Constant) as (p & Hp & L & _); [constructor|]. cbn in L.
  eapply C06_defined; [repeat constructor|reflexivity|reflexivity| |exact Hp|constructor|cbn; lia|lia].
  split; [|split]; cbn; try tauto. intros g E. injection E as <-. reflexivity.
Qed.
