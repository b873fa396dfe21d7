(* C185: faces of structured grids *)
From Verif Require Import Prelude Topo_model Volume_spec Topo_spec Lattice_spec Lattice4_proof Lattice6_proof Lattice7_proof Lattice_props.
Open Scope nat_scope.

Theorem C185_hexahedra :
  forall nonzero rg nx ny nz m d,
  hexahedra nx ny nz m -> 1 < nx * ny * nz ->
  d = DGrid [S nx; S ny; S nz] m \/ d = DCells m ->
  (rg = true -> forall ids loc f, In ids (v_cells m) -> In loc (vtk_faces 12) ->
     same_ring f (map (fun v => nth v ids 0) loc) -> nonzero f = true) ->
  exists g, extract_cell_geometry nonzero rg d = Ok g /\
    length (g_faces g) = S nx * ny * nz + nx * S ny * nz + nx * ny * S nz /\ length (g_rows g) = length (g_faces g) /\
    forall a i j k f, facet nx ny nz a i j k f ->
    exists n h row, nth_error (g_faces g) n = Some h /\ same_set h f /\
      (forall n' h', nth_error (g_faces g) n' = Some h' -> same_set h' f -> n' = n) /\
      nth_error (g_rows g) n = Some row /\ sides nx ny nz a i j k row.
Proof.
  intros nonzero rg nx ny nz m d Hm Hn Hd Hz. destruct (hexahedra_dimension _ _ _ _ _ Hm Hn Hd) as (<- & D). now apply hexahedra_faces.
Qed.
Print Assumptions C185_hexahedra.
(* the face between the two hexahedra and one on the boundary *)
Example C185_hexahedra_example : exists g, extract_cell_geometry (fun _ => true) true (DGrid [2; 3; 2] two_hexahedra) = Ok g /\
  length (g_faces g) = 11 /\ facet 1 2 1 1 0 1 0 [2; 3; 9; 8] /\ sides 1 2 1 1 0 1 0 [0; 1]%Z /\ facet 1 2 1 1 0 2 0 [4; 5; 11; 10] /\ sides 1 2 1 1 0 2 0 [1; -1]%Z.
Proof.
  eexists. split; [reflexivity|]. split; [reflexivity|]. split; [right; left; repeat split; lia|].
  split; [apply (bs_inner 2 (fun t => rank 1 2 0 t 0) 0); lia|]. split; [right; left; repeat split; lia|].
  apply (bs_last 2 (fun t => rank 1 2 0 t 0) 1). reflexivity.
Qed.

Theorem C185_quadrilaterals :
  forall nonzero rg nx ny m d,
  quadrilaterals nx ny m -> 1 < nx * ny ->
  d = DGrid [S nx; S ny; 1] m \/ d = DGrid [S nx; 1; S ny] m \/ d = DGrid [1; S nx; S ny] m \/ d = DCells m ->
  (rg = true -> forall ids u v, In ids (v_cells m) -> In (u, v) (ring_edges ids) -> nonzero [u; v] = true) ->
  exists g, extract_cell_geometry nonzero rg d = Ok g /\
    length (g_faces g) = S nx * ny + nx * S ny /\ length (g_rows g) = length (g_faces g) /\
    forall a i j f, edge nx ny a i j f ->
    exists n h row, nth_error (g_faces g) n = Some h /\ same_set h f /\
      (forall n' h', nth_error (g_faces g) n' = Some h' -> same_set h' f -> n' = n) /\
      nth_error (g_rows g) n = Some row /\ sides nx ny 1 a i j 0 row.
Proof.
  intros nonzero rg nx ny m d Hm Hn Hd Hz. destruct (quadrilaterals_dimension _ _ _ _ Hm Hn Hd) as (<- & D). now apply quadrilaterals_edges.
Qed.
Print Assumptions C185_quadrilaterals.
Example C185_quadrilaterals_example : exists g, extract_cell_geometry (fun _ => true) true (DGrid [3; 1; 3] four_quadrilaterals) = Ok g /\
  length (g_faces g) = 12 /\ edge 2 2 0 1 1 [4; 7] /\ sides 2 2 1 0 1 1 0 [2; 3]%Z.
Proof.
  eexists. split; [reflexivity|]. split; [reflexivity|]. split; [left; repeat split; lia|].
  apply (bs_inner 2 (fun t => rank 2 2 t 1 0) 0). lia.
Qed.
