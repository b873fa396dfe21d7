(* Cell centers: counterexamples. *)
From Coq Require Import Reals Lra Ascii.
From Verif Require Import Center_model Volume_spec Topo_spec Center_spec Center_proof Center2_proof Center3_proof.
Open Scope nat_scope.

(* a polyhedron with four triangles *)
Definition tet_mesh : vmesh :=
  mkV [42] [[0; 1; 2; 3]] [[1; 2; 3]; [0; 3; 2]; [0; 1; 3]; [0; 2; 1]] [[0; 1; 2; 3]].

(* flat: its four points are the same *)
Theorem ghosts_refuted : exists vtk m points ghosts e,
  wf_mesh m /\ vtk = Ok [(0, 0, 0)%R] /\
  get_cell_centers vtk "9.5.0" (Some "tetra"%string) (UGrid m points) (Some ghosts) = (Err e, None).
Proof.
  exists (Ok [(0, 0, 0)%R]), tet_mesh, (repeat (0, 0, 0)%R 4), [0], ZeroDivisionError.
  split; [split; simpl; lia|]. split; auto.
  assert (H : tetra_center (repeat (0, 0, 0)%R 4) [0; 1; 2; 3] [[1; 2; 3]; [0; 3; 2]; [0; 1; 3]; [0; 2; 1]] = Err ZeroDivisionError).
  { destruct (tetra_center_eq (repeat (0, 0, 0)%R 4) 0 [1; 2; 3] (0, 0, 0)%R [[1; 2; 3]; [0; 3; 2]; [0; 1; 3]; [0; 2; 1]]
      (repeat ((0, 0, 0), (0, 0, 0), (0, 0, 0))%R 4)) as [A _]; [discriminate|reflexivity|reflexivity|].
    apply A. cbn. ring. }
  unfold get_cell_centers, vtk_rows, polyhedron_rows.
  cbn -[tetra_center] in H |- *. rewrite H. reflexivity.
Qed.

Theorem version_refuted : exists version v vtk m points rows c,
  wf_mesh m /\ version_of version v /\ own_formula "box" v /\
  get_cell_centers vtk version (Some "box"%string) (UGrid m points) None = (Ok rows, None) /\
  nth_error (v_types m) 0 = Some 42 /\ nth_error rows 0 = Some c /\ ~ method_center "box" points m 0 c.
Proof.
  exists "9.10.0"%string, (9, 10, 0), (Ok [(5, 5, 5)%R]), tet_mesh, (repeat (0, 0, 0)%R 4), [Some (5, 5, 5)%R], (Some (5, 5, 5)%R).
  split; [split; simpl; lia|]. split; [|split; [|split; [reflexivity|split; [reflexivity|split; [reflexivity|]]]]].
  - exists "9"%string, "10"%string, "0"%string.
    repeat split; try discriminate; auto; intros s' E; injection E as <-; auto; discriminate.
  - left; split; auto. unfold ver_le; lia.
  - intros (ids & Hids & [(_ & ps & d & Hp & E & Hm)|[[E _]|[E _]]]); try discriminate.
    injection E as <-. injection Hids as <-. destruct (Hm 0 ltac:(lia)) as (lo & hi & Hlo & Hhi & _ & E).
    assert (Hz : forall p, In p ps -> p = (0, 0, 0)%R).
    { intros p Hin. apply In_nth_error in Hin as [k Hk]. unfold cell_points in Hp.
      clear -Hp Hk. repeat match goal with H : Forall2 _ (_ :: _) _ |- _ => inversion H; clear H; subst end.
      match goal with H : Forall2 _ [] _ |- _ => inversion H; subst end. simpl in *.
      destruct k as [|[|[|[|k]]]]; simpl in Hk; try (destruct k; discriminate); congruence. }
    rewrite (Hz _ Hlo), (Hz _ Hhi) in E. simpl in E. lra.
Qed.

(* ---- concrete cases ---- *)
Definition unit_points : list vec := [(0, 0, 0); (1, 0, 0); (0, 1, 0); (0, 0, 1)]%R.
Definition tet_faces : list (list nat) := [[1; 2; 3]; [0; 3; 2]; [0; 1; 3]; [0; 2; 1]].

Lemma tet_center_value : tetra_center unit_points [0; 1; 2; 3] tet_faces = Ok (1 / 4, 1 / 4, 1 / 4)%R.
Proof.
  destruct (tetra_center_eq unit_points 0 [1; 2; 3] (0, 0, 0)%R tet_faces
    (map (fun t => let '(a, b, c) := t in (at_pts unit_points a, at_pts unit_points b, at_pts unit_points c)) (triangles tet_faces)))
    as [_ B]; [discriminate|reflexivity|reflexivity|].
  cbv zeta in B.
  assert (E : rsum (map (vol6 (at_pts unit_points) (0, 0, 0)%R) (triangles tet_faces)) = 1%R) by (cbn; ring).
  rewrite E in B. destruct (B ltac:(lra)) as ([[x y] z] & -> & Hc).
  pose proof (Hc 0 ltac:(lia)) as H0. pose proof (Hc 1 ltac:(lia)) as H1. pose proof (Hc 2 ltac:(lia)) as H2.
  cbn in H0, H1, H2. f_equal. f_equal; [f_equal|]; lra.
Qed.

Lemma tet_example : get_cell_centers (Ok [(0, 0, 0)%R]) "9.5.0" (Some "tetra"%string)
  (UGrid tet_mesh unit_points) (Some [0]) = (Ok [Some (1 / 4, 1 / 4, 1 / 4)%R], Some [0]).
Proof.
  unfold get_cell_centers, vtk_rows, polyhedron_rows. pose proof tet_center_value as H.
  unfold tet_faces in H. cbn -[tetra_center unit_points]. rewrite H. reflexivity.
Qed.

Lemma tet_balanced : balanced tet_faces.
Proof.
  intros u v. unfold edge_count.
  destruct u as [|[|[|[|u]]]], v as [|[|[|[|v]]]]; cbn; auto.
Qed.

Lemma version_950 : version_of "9.5.0" (9, 5, 0).
Proof.
  exists "9"%string, "5"%string, "0"%string.
  repeat split; try discriminate; auto; intros s' E; injection E as <-; auto; discriminate.
Qed.
