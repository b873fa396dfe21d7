From Coq Require Import Lia.
From Verif Require Import Prelude Topo_model Topo_spec Hidden_spec Hidden_proof Hidden2_proof.
Open Scope nat_scope.

(* C40: with collapsed faces, the rows of the others are kept (but for the padding) exactly when no column of ids is
   dropped among those of the cells *)
Theorem C40_rows_partial :
  forall nonzero d g, wf_mesh (cast d) -> extract_cell_geometry nonzero true d = Ok g ->
  exists n faces g0 w, get_dimension d = Ok n /\ mesh_faces true (cast d) n faces /\
    lists_once (incidences faces) g0 /\ common_width w g0 /\
    (varied nonzero g0 -> g_faces g = filter nonzero (g_faces g0)) /\
    ((exists f, In f (g_faces g0) /\ nonzero f = false) ->
     ((exists n, map (fun r => r ++ repeat (-1)%Z n) (g_rows g) =
        map snd (filter (fun fr => nonzero (fst fr)) (combine (g_faces g0) (g_rows g0)))) <-> varied nonzero g0)).
Proof. exact @geometry_exact. Qed.
Print Assumptions C40_rows_partial.

(* the surface of a tetrahedron, one edge without length: every edge has two cells *)
Definition closed_surface : vmesh := mkV [5; 5; 5; 5] [[0; 1; 2]; [0; 3; 1]; [1; 3; 2]; [0; 2; 3]] [] [].
Definition sharp (f : list nat) : bool := negb (existsb (Nat.eqb 0) f && existsb (Nat.eqb 1) f).
Example C40_rows_example : exists g0 g,
  extract_cell_geometry sharp false (DCells closed_surface) = Ok g0 /\ extract_cell_geometry sharp true (DCells closed_surface) = Ok g /\
  wf_mesh closed_surface /\ varied sharp g0 /\ length (g_rows g0) = 6 /\ length (g_rows g) = 5 /\
  (forall r, In r (g_rows g) -> length r = 2 /\ ~ In (-1)%Z r) /\
  get_neighborhood sharp true (DCells closed_surface) = Ok [[2; 3]; [3; 2]; [0; 1; 3]; [0; 1; 2]]%Z.
Proof.
  eexists. eexists. split; [reflexivity|]. split; [reflexivity|]. split; [split; cbn; lia|]. split.
  { intros j f r Hin Hf Hr. destruct j as [|[|j]].
    - exists [1; 2], [0; 2]%Z, [3; 1], [1; 2]%Z. repeat split; cbn; auto 10; discriminate.
    - exists [1; 2], [0; 2]%Z, [2; 0], [0; 3]%Z. repeat split; cbn; auto 10; discriminate.
    - exfalso. apply Hr. apply nth_overflow. cbn in Hin. intuition (match goal with E : (_, _) = (_, _) |- _ => injection E as <- <- end; cbn; lia). }
  split; [reflexivity|]. split; [reflexivity|]. split; [|reflexivity].
  cbn. intuition (subst; cbn in *; intuition lia).
Qed.

(* C41: with collapsed faces, when no column of ids is dropped among those of the cells: neighbours share a face that
   is not collapsed *)
Theorem C41_collapsed_partial :
  forall nonzero d nb, wf_mesh (cast d) -> get_neighborhood nonzero true d = Ok nb ->
  (forall f f', same_set f f' -> nonzero f = nonzero f') ->
  exists n faces g0 w, get_dimension d = Ok n /\ mesh_faces true (cast d) n faces /\
    (* the faces as they are listed before *)
    lists_once (incidences faces) g0 /\ common_width w g0 /\
    (varied nonzero g0 ->
     length nb = length (v_types (cast d)) /\
     forall i r, nth_error nb i = Some r -> forall z, In z r <-> exists j, z = Z.of_nat j /\ share_kept nonzero faces i j).
Proof. exact @kept_neighbors. Qed.
Print Assumptions C41_collapsed_partial.

(* C43: likewise for the lines *)
Theorem C43_collapsed_partial :
  forall nonzero d P (centers c : list P) shape lines, wf_mesh (cast d) -> get_connectivity nonzero true d shape centers = Ok (c, lines) ->
  (forall f f', same_set f f' -> nonzero f = nonzero f') ->
  exists n faces g0 w, get_dimension d = Ok n /\ mesh_faces true (cast d) n faces /\
    lists_once (incidences faces) g0 /\ common_width w g0 /\
    (varied nonzero g0 ->
     forall i j, i < length (v_types (cast d)) ->
       (In (Z.of_nat i, Z.of_nat j) lines \/ In (Z.of_nat j, Z.of_nat i) lines <-> share_kept nonzero faces i j)).
Proof. exact @kept_lines. Qed.
Print Assumptions C43_collapsed_partial.

(* C42: likewise, it succeeds exactly when a face that is not collapsed is shared and none by three cells *)
Theorem C42_collapsed_partial :
  forall nonzero d g, wf_mesh (cast d) -> extract_cell_geometry nonzero true d = Ok g ->
  (forall f f', same_set f f' -> nonzero f = nonzero f') ->
  exists n faces g0 w, get_dimension d = Ok n /\ mesh_faces true (cast d) n faces /\
    lists_once (incidences faces) g0 /\ common_width w g0 /\
    (varied nonzero g0 ->
     ((exists nb, get_neighborhood nonzero true d = Ok nb) <-> used_kept nonzero 2 faces /\ ~ used_kept nonzero 3 faces)).
Proof. exact @kept_defined. Qed.
Print Assumptions C42_collapsed_partial.

(* three quadrilaterals in a row, the edge between the last two without length; two faces kept with first cells 0 and 1 *)
Definition three_in_row : vmesh := mkV [9; 9; 9] [[0; 1; 2; 3]; [1; 4; 5; 2]; [4; 6; 7; 5]] [] [].
Definition thin (f : list nat) : bool := negb (existsb (Nat.eqb 4) f && existsb (Nat.eqb 5) f).
Example C41_collapsed_example :
  wf_mesh three_in_row /\ (forall f f', same_set f f' -> thin f = thin f') /\
  get_neighborhood thin true (DCells three_in_row) = Ok [[1]; [0]; []]%Z /\
  get_connectivity thin true (DCells three_in_row) [3; 3] (seq 0 3) = Ok (seq 0 3, [(0, 1)]%Z) /\
  exists g0, extract_cell_geometry thin false (DCells three_in_row) = Ok g0 /\
    In ([0; 1], [0; -1]%Z) (combine (g_faces g0) (g_rows g0)) /\ In ([1; 4], [1; -1]%Z) (combine (g_faces g0) (g_rows g0)).
Proof.
  split; [split; cbn; lia|]. split.
  { assert (E : forall f f' k, same_set f f' -> existsb (Nat.eqb k) f = existsb (Nat.eqb k) f').
    { intros f f' k S. apply Bool.eq_iff_eq_true. rewrite !existsb_exists. split; intros (x & Hx & Ex); exists x; (split; [apply S; exact Hx|exact Ex]). }
    intros f f' S. unfold thin. now rewrite (E f f' 4 S), (E f f' 5 S). }
  split; [reflexivity|]. split; [reflexivity|]. eexists. split; [reflexivity|]. cbn. tauto.
Qed.

(* four quadrilaterals, three of them around an edge without length *)
Definition four_quads : vmesh := mkV [9; 9; 9; 9] [[0; 1; 2; 3]; [0; 1; 4; 5]; [0; 1; 6; 7]; [2; 8; 9; 3]] [] [].
Example C42_collapsed_example :
  get_neighborhood (fun _ => true) true (DCells four_quads) = Err ValueError /\
  get_neighborhood (fun f => negb (existsb (Nat.eqb 0) f && existsb (Nat.eqb 1) f)) true (DCells four_quads) = Ok [[3]; []; []; [0]]%Z.
Proof. split; reflexivity. Qed.
