(* C184: neighbours in structured grids *)
From Verif Require Import Prelude Topo_model Volume_spec Topo_spec Lattice_spec Lattice2_proof Lattice3_proof Lattice4_proof.
Open Scope nat_scope.

Theorem C184_hexahedra :
  forall nonzero rg nx ny nz m d,
  hexahedra nx ny nz m -> 1 < nx * ny * nz ->
  d = DGrid [S nx; S ny; S nz] m \/ d = DCells m ->
  (rg = true -> forall ids loc f, In ids (v_cells m) -> In loc (vtk_faces 12) ->
     same_ring f (map (fun v => nth v ids 0) loc) -> nonzero f = true) ->
  (exists nb, get_neighborhood nonzero rg d = Ok nb /\ length nb = nx * ny * nz /\
     forall i j k, i < nx -> j < ny -> k < nz ->
     exists r, nth_error nb (rank nx ny i j k) = Some r /\ NoDup r /\
       forall z, In z r <-> exists i' j' k', i' < nx /\ j' < ny /\ k' < nz /\
         z = Z.of_nat (rank nx ny i' j' k') /\ adjacent i j k i' j' k') /\
  exists lines, (forall P (centers : list P), get_connectivity nonzero rg d [nx * ny * nz; 3] centers = Ok (centers, lines)) /\
    NoDup lines /\
    forall z, In z lines <-> exists i j k i' j' k', i < nx /\ j < ny /\ k < nz /\ i' < nx /\ j' < ny /\ k' < nz /\
      z = (Z.of_nat (rank nx ny i j k), Z.of_nat (rank nx ny i' j' k')) /\
      rank nx ny i j k < rank nx ny i' j' k' /\ adjacent i j k i' j' k'.
Proof.
  intros nonzero rg nx ny nz m d Hm Hn Hd Hz. destruct (hexahedra_dimension _ _ _ _ _ Hm Hn Hd) as (<- & D). now apply hexahedra_neighbors.
Qed.
Print Assumptions C184_hexahedra.

(* two hexahedra along the second axis *)
Definition two_hexahedra : vmesh := mkV [12; 12] [[0; 1; 3; 2; 6; 7; 9; 8]; [2; 3; 5; 4; 8; 9; 11; 10]] [] [].
Example C184_hexahedra_example : hexahedra 1 2 1 two_hexahedra /\ 1 < 1 * 2 * 1 /\
  get_neighborhood (fun _ => true) true (DGrid [2; 3; 2] two_hexahedra) = Ok [[1]; [0]]%Z /\ adjacent 0 0 0 0 1 0.
Proof.
  split; [split; [reflexivity|split; [reflexivity|cbv zeta]]|split; [lia|split; [reflexivity|unfold adjacent, step; lia]]].
  intros [|[|i]] [|[|j]] [|[|k]] Hi Hj Hk; try lia; reflexivity.
Qed.

Theorem C184_quadrilaterals :
  forall nonzero rg nx ny m d,
  quadrilaterals nx ny m -> 1 < nx * ny ->
  d = DGrid [S nx; S ny; 1] m \/ d = DGrid [S nx; 1; S ny] m \/ d = DGrid [1; S nx; S ny] m \/ d = DCells m ->
  (rg = true -> forall ids u v, In ids (v_cells m) -> In (u, v) (ring_edges ids) -> nonzero [u; v] = true) ->
  (exists nb, get_neighborhood nonzero rg d = Ok nb /\ length nb = nx * ny /\
     forall i j, i < nx -> j < ny ->
     exists r, nth_error nb (rank nx ny i j 0) = Some r /\ NoDup r /\
       forall z, In z r <-> exists i' j', i' < nx /\ j' < ny /\
         z = Z.of_nat (rank nx ny i' j' 0) /\ adjacent i j 0 i' j' 0) /\
  exists lines, (forall P (centers : list P), get_connectivity nonzero rg d [nx * ny; 3] centers = Ok (centers, lines)) /\
    NoDup lines /\
    forall z, In z lines <-> exists i j i' j', i < nx /\ j < ny /\ i' < nx /\ j' < ny /\
      z = (Z.of_nat (rank nx ny i j 0), Z.of_nat (rank nx ny i' j' 0)) /\
      rank nx ny i j 0 < rank nx ny i' j' 0 /\ adjacent i j 0 i' j' 0.
Proof.
  intros nonzero rg nx ny m d Hm Hn Hd Hz. destruct (quadrilaterals_dimension _ _ _ _ Hm Hn Hd) as (<- & D). now apply quadrilaterals_neighbors.
Qed.
Print Assumptions C184_quadrilaterals.

(* two by two quadrilaterals *)
Definition four_quadrilaterals : vmesh := mkV [9; 9; 9; 9] [[0; 1; 4; 3]; [1; 2; 5; 4]; [3; 4; 7; 6]; [4; 5; 8; 7]] [] [].
Example C184_quadrilaterals_example : quadrilaterals 2 2 four_quadrilaterals /\ 1 < 2 * 2 /\
  get_neighborhood (fun _ => true) true (DGrid [3; 1; 3] four_quadrilaterals) = Ok [[1; 2]; [0; 3]; [0; 3]; [1; 2]]%Z.
Proof.
  split; [split; [reflexivity|split; [reflexivity|cbv zeta]]|split; [lia|reflexivity]].
  intros [|[|i]] [|[|j]] Hi Hj; try lia; reflexivity.
Qed.
