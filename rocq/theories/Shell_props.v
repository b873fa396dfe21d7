From Coq Require Import Lra.
From Verif Require Import Prelude Perc_model Perc_spec Grid Surface_model Surface_spec Volume_model Objects_model Objects_spec
  Objects5_proof Shell_proof.
Open Scope R_scope.

(* C100: a cell of the shell is flagged when it has no volume, otherwise it has the flag of the cell of the annular
   sector below it.  [pts] are the points before the shell is moved to its center. *)
Theorem C100_shell_flags :
  forall areas volumes inner outer tmin tmax height rs ts zs pr pt_ pz center x0 y0 z0,
  (forall dims pts, length (volumes dims pts) = n_cells dims) ->
  0 <= inner < outer -> subdivides rs pr -> subdivides ts pt_ -> subdivides zs pz ->
  (2 <= length pr)%nat -> (2 <= length pt_)%nat -> (2 <= length pz)%nat ->
  (center = None /\ (x0, y0, z0) = (0, 0, 0) \/ center = Some [x0; y0; z0]) ->
  exists a g pts, AnnularSector areas inner outer tmin tmax rs ts None = Ok a /\
    CylindricalShellSector areas volumes inner outer tmin tmax height rs ts zs center = Ok g /\
    sg_pts g = map (fun p => moved p (x0, y0, z0 - height / 2)) pts /\
    forall i j k, (S i < length pt_)%nat -> (S j < length pr)%nat -> (S k < length pz)%nat ->
      exists w flag, at_coord (cell_shape (sg_dims g)) (volumes (sg_dims g) pts) (i, j, k) = Some w /\
        at_coord (cell_shape (sg_dims a)) (sg_ghost a) (i, j, 0%nat) = Some flag /\
        (w = 0 -> at_coord (cell_shape (sg_dims g)) (sg_ghost g) (i, j, k) = Some 32%nat) /\
        (w <> 0 -> at_coord (cell_shape (sg_dims g)) (sg_ghost g) (i, j, k) = Some flag).
Proof. exact @shell_flags. Qed.
Print Assumptions C100_shell_flags.

Example C100_flags_example : 0 <= 1 < 2 /\ subdivides default_sub [0; 1] /\
  (forall (dims : shape3) (pts : list pt), length (repeat 1 (n_cells dims)) = n_cells dims) /\
  (Some [1; 2; 3] = None /\ (1, 2, 3) = (0, 0, 0) \/ Some [1; 2; 3] = Some [1; 2; 3]).
Proof. split; [lra|]. split; [exact sub_none|]. split; [intros; apply repeat_length|]. now right. Qed.
