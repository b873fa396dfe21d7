From Verif Require Import Prelude RealAux Perc_model Perc_spec Perc_proof Grid Surface_model Surface_spec Surface_proof
  Volume_model Volume_spec Volume_proof SMerge_model SMerge_spec SMerge_proof Groups_model Groups_spec Groups_proof Groups2_proof
  Stack_model Stack_spec Cut_proof Gen_proof Stack_proof Stack2_proof Stack3_proof Final_model Final_spec Final1_proof
  Objects_model Objects_spec Objects1_proof Objects2_proof.
From Coq Require Import Lra Lia.
Open Scope nat_scope.

(* as [vol_structured_ghost], whether the base has cell data or not *)
Lemma vol_structured_flags {D} volumes (sa sb : ssurf D) r m g perc ax :
  ax <= 2 -> unit_along ax (ss_dims sa) ->
  generate_volume_structured volumes sa sb r m = Ok g -> resolution_to_perc r m = Ok perc ->
  2 <= length perc ->
  (forall gh, ss_ghost sa = Some gh -> length gh = n_cells (ss_dims sa)) ->
  length (volumes (sg_dims g) (sg_pts g)) = n_cells (sg_dims g) ->
  forall c, in_shape (cell_shape (sg_dims g)) c ->
    exists w, at_coord (cell_shape (sg_dims g)) (volumes (sg_dims g) (sg_pts g)) c = Some w /\
      (w = 0%R -> at_coord (cell_shape (sg_dims g)) (sg_ghost g) c = Some 32) /\
      (w <> 0%R -> at_coord (cell_shape (sg_dims g)) (sg_ghost g) c =
                   Some (base_flag (cell_shape (ss_dims sa)) (ss_ghost sa) (setc ax 0 c))).
Proof.
  intros Hax Hu H Hp Hp2 Hgl Hv c Hc.
  destruct (unit_along_dim _ _ Hax Hu) as (_ & Hfu & _).
  pose proof (vol_structured_inv _ _ _ _ _ _ H) as (Hs & Hl & Hd & perc' & Hp' & Hp0 & Hdims & Hpts).
  rewrite Hp in Hp'. injection Hp' as <-.
  destruct (at_coord_some (cell_shape (sg_dims g)) _ c Hc Hv) as [w Hw].
  exists w. split; [exact Hw|].
  revert H Hw Hv Hc. unfold generate_volume_structured.
  destruct (negb (length (ss_pts sa) =? length (ss_pts sb))); [discriminate|].
  destruct (negb (shape_eqb (ss_dims sa) (ss_dims sb))); [discriminate|].
  destruct (negb (structured_dimension (ss_dims sa) =? 2)); [discriminate|].
  rewrite Hp; unfold bind at 1.
  destruct (Nat.eqb_spec (length perc) 0) as [|Hp1]; [discriminate|].
  rewrite <- Hdims.
  rewrite Hfu in *.
  destruct (sg_dims g) as [[nx ny] nz] eqn:Hg.
  set (pts := ravelF nx ny nz _) in *.
  unfold bind at 1. destruct (mapM _ (ss_pd sa)) as [pd|] eqn:Hpd; [|discriminate].
  unfold bind at 1. destruct (mapM _ (ss_cd sa)) as [cd|] eqn:Hcd; [|discriminate].
  unfold bind at 1.
  match goal with |- match ?x with _ => _ end = _ -> _ => destruct x as [gh|] eqn:Hgh; [|discriminate] end.
  intros H%Ok_inj; subst g; cbn [sg_dims sg_pd sg_cd sg_pts sg_ghost] in *.
  intros Hw Hv Hc.
  assert (Lgh : length gh = n_cells (nx, ny, nz) /\
     at_coord (cell_shape (nx, ny, nz)) gh c = Some (base_flag (cell_shape (ss_dims sa)) (ss_ghost sa) (setc ax 0 c))).
  { destruct (ss_ghost sa) as [gg|] eqn:Egg.
    - unfold bind in Hgh. destruct (repeat_structured_data _ _ _ _) as [v|] eqn:Er; [|discriminate].
      destruct (Nat.eqb_spec (length v) (n_cells (nx, ny, nz))) as [El|]; [|discriminate].
      injection Hgh as <-. split; [exact El|].
      assert (Hm1 : 0 < length perc - 1) by lia.
      destruct (repeat_structured_law _ _ _ _ _ Hax Hm1 Er) as (Lg & _ & HR).
      assert (Esh : setc ax (comp ax (cell_shape (ss_dims sa)) * (length perc - 1)) (cell_shape (ss_dims sa)) = cell_shape (nx, ny, nz)).
      { rewrite Hdims, cell_shape_setc. f_equal. rewrite cell_shape_comp. destruct Hu as [-> _]. change (Nat.max 1 (1 - 1)) with 1. lia. }
      rewrite Esh in HR. unfold at_coord. rewrite HR by exact Hc.
      cbn [base_flag]. unfold flag_at, at_coord.
      assert (E0 : comp ax c / (length perc - 1) = 0).
      { apply Nat.div_small. pose proof (in_shape_comp ax _ _ Hc) as Hk.
        rewrite cell_shape_comp, Hdims, comp_setc in Hk. lia. }
      rewrite E0.
      destruct (nth_error gg _) as [x|] eqn:Ex; [reflexivity|]. exfalso.
      apply nth_error_None in Ex.
      assert (Hsh : in_shape (cell_shape (ss_dims sa)) (setc ax 0 c)).
      { rewrite <- (setc_comp ax (cell_shape (ss_dims sa))).
        rewrite Hdims, cell_shape_setc in Hc.
        apply (in_shape_swap ax _ _ _ c _ Hc); [rewrite setc_setc; auto|]. rewrite cell_shape_comp. lia. }
      apply fidx_lt in Hsh. lia.
    - injection Hgh as <-. split; [apply repeat_length|]. cbn [base_flag]. unfold at_coord.
      apply nth_error_repeat_lt. apply fidx_lt; auto. }
  destruct Lgh as [Lgh Egh].
  unfold at_coord in *. rewrite mask_set_nth_error by (rewrite map_length; congruence).
  rewrite nth_error_map, Hw. cbn [option_map]. split.
  - intros ->. rewrite Rabs_R0. destruct (Reqb 0 0) eqn:E; [reflexivity|].
    exfalso. unfold Reqb in E. destruct (Req_EM_T 0 0) in E; [discriminate|congruence].
  - intros Hn. destruct (Reqb (Rabs w) 0) eqn:E; [|exact Egh].
    exfalso. unfold Reqb in E. destruct (Req_EM_T (Rabs w) 0) as [E0|] in E; [|discriminate].
    revert E0. apply Rabs_no_R0. exact Hn.
Qed.

Open Scope R_scope.

(* flags of the cells of a cylindrical shell: those of the annular sector below, and 32 without volume *)
Theorem shell_flags areas volumes inner outer tmin tmax height rs ts zs pr pt_ pz center x0 y0 z0 :
  (forall dims pts, length (volumes dims pts) = n_cells dims) ->
  0 <= inner < outer -> subdivides rs pr -> subdivides ts pt_ -> subdivides zs pz ->
  (2 <= length pr)%nat -> (2 <= length pt_)%nat -> (2 <= length pz)%nat ->
  (center = None /\ (x0, y0, z0) = (0, 0, 0) \/ center = Some [x0; y0; z0]) ->
  exists a g pts, AnnularSector areas inner outer tmin tmax rs ts None = Ok a /\
    CylindricalShellSector areas volumes inner outer tmin tmax height rs ts zs center = Ok g /\
    sg_pts g = map (fun p => moved p (x0, y0, z0 - height / 2)) pts /\
    forall i j k, (S i < length pt_)%nat -> (S j < length pr)%nat -> (S k < length pz)%nat ->
      exists w flag, at_coord (cell_shape (sg_dims g)) (volumes (sg_dims g) pts) (i, j, k) = Some w /\
        at_coord (cell_shape (sg_dims a)) (sg_ghost a) (i, j, 0%nat) = Some flag /\
        (w = 0 -> at_coord (cell_shape (sg_dims g)) (sg_ghost g) (i, j, k) = Some 32%nat) /\
        (w <> 0 -> at_coord (cell_shape (sg_dims g)) (sg_ghost g) (i, j, k) = Some flag).
Proof.
  intros Hvol.
  intros Hr Sr St Sz Lr Lt Lz Hc. unfold CylindricalShellSector.
  set (c := match center with Some c => c | None => [0; 0; 0] end).
  assert (Ec : c = [x0; y0; z0]).
  { unfold c. destruct Hc as [(-> & [= -> -> ->])| ->]; reflexivity. }
  rewrite Ec. cbn [bind].
  destruct (annular_ok areas inner outer tmin tmax rs ts pr pt_ None _ Hr Sr St Lt off_none)
    as (a & -> & Da & La & Pa & Ca & Ga & Na). cbn [bind].
  destruct (sg_translate_ok a (Some [0; 0; height]) _ (off_three 0 0 height)) as (b & -> & Db & Lb & Nb & Gb & _). cbn [bind].
  assert (exists g, generate_volume_structured volumes (as_surface a) (as_surface b) (sb_res zs) (sb_method zs) = Ok g) as (g & Eg).
  { unfold generate_volume_structured, as_surface. cbn [ss_pts ss_dims ss_pd ss_cd ss_ghost].
    rewrite Lb, Nat.eqb_refl. cbn [negb].
    rewrite Db, (proj2 (shape_eqb_eq _ _) eq_refl). cbn [negb]. rewrite Da.
    replace (structured_dimension (length pt_, length pr, 1%nat)) with 2%nat.
    2:{ unfold structured_dimension, unit_axes. destruct (Nat.eqb_spec (length pt_) 1); [lia|].
        destruct (Nat.eqb_spec (length pr) 1); [lia|]. reflexivity. }
    cbn [Nat.eqb negb]. unfold subdivides in Sz. rewrite Sz. cbn [bind].
    destruct (Nat.eqb_spec (length pz) 0); [lia|].
    assert (Ax : first_unit_axis (length pt_, length pr, 1%nat) = 2%nat).
    { unfold first_unit_axis. destruct (Nat.eqb_spec (length pt_) 1); [lia|]. destruct (Nat.eqb_spec (length pr) 1); [lia|]. reflexivity. }
    rewrite Ax. cbn [setc]. rewrite Pa, Ca. cbn [mapM bind].
    rewrite Da in Ga. destruct (repeat_structured_defined (cell_shape (length pt_, length pr, 1%nat)) (sg_ghost a) (length pz - 1) 2 Ga) as (out & Eo).
    rewrite Eo. cbn [bind]. apply repeat_structured_law in Eo as (_ & Lo & _); [|lia|lia].
    replace (length out =? n_cells (length pt_, length pr, length pz))%nat with true.
    - eexists. reflexivity.
    - symmetry. apply Nat.eqb_eq. rewrite Lo. unfold n_cells, cell_shape, setc, comp, size3.
      rewrite (Nat.max_r 1 (length pt_ - 1)), (Nat.max_r 1 (length pr - 1)), (Nat.max_r 1 (length pz - 1)) by lia.
      cbn [Nat.sub Nat.max]. now rewrite Nat.mul_1_l. }
  rewrite Eg. cbn [bind].
  destruct (sg_translate_ok g (Some [x0; y0; z0 - / 2 * height]) _ (off_three _ _ _)) as (g' & Et & D' & L' & N' & G' & _).
  rewrite Et. exists a, g', (sg_pts g). split; [reflexivity|]. split; [reflexivity|]. split.
  { apply nth_error_ext. intros n. rewrite N', nth_error_map. destruct (nth_error (sg_pts g) n); [|reflexivity]. cbn [option_map].
    rewrite add3_moved. do 3 f_equal. field. }
  rewrite D', G'. intros i j k Hi Hj Hk.
  assert (Hu : unit_along 2 (ss_dims (as_surface a))).
  { cbn [as_surface ss_dims]. rewrite Da. split; [reflexivity|]. intros [|[|[|n]]] H1 H2; cbn; lia. }
  assert (Sz' : resolution_to_perc (sb_res zs) (sb_method zs) = Ok pz) by exact Sz.
  pose proof (vol_structured_inv _ _ _ _ _ _ Eg) as (_ & _ & _ & perc' & Hp' & _ & Hdims & _).
  rewrite Sz' in Hp'. injection Hp' as <-.
  assert (Dg : sg_dims g = (length pt_, length pr, length pz)).
  { rewrite Hdims. cbn [as_surface ss_dims]. rewrite Da. unfold first_unit_axis.
    destruct (Nat.eqb_spec (length pt_) 1); [lia|]. destruct (Nat.eqb_spec (length pr) 1); [lia|]. reflexivity. }
  assert (Hijk : in_shape (cell_shape (sg_dims g)) (i, j, k)).
  { rewrite Dg. unfold cell_shape, in_shape. lia. }
  destruct (vol_structured_flags volumes _ _ _ _ g pz 2 ltac:(lia) Hu Eg Sz' Lz) with (c := (i, j, k)) as (w & Hw & H0 & H1).
  { intros gh [= <-]. exact Ga. }
  { apply Hvol. }
  { exact Hijk. }
  assert (Hb : in_shape (cell_shape (sg_dims a)) (i, j, 0%nat)).
  { rewrite Da. unfold cell_shape, in_shape. lia. }
  destruct (at_coord_some (cell_shape (sg_dims a)) (sg_ghost a) (i, j, 0%nat) Hb Ga) as [flag Hf].
  exists w, flag. split; [exact Hw|]. split; [exact Hf|]. split; [exact H0|]. intros Hn. rewrite (H1 Hn).
  cbn [as_surface ss_ghost ss_dims base_flag setc]. unfold flag_at. now rewrite Hf.
Qed.
