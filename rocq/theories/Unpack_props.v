From Coq Require Import Reals Lra Lia.
From Verif Require Import Prelude Volume_spec Topo_model Topo_spec Unpack_spec Unpack_proof.
From Verif Require Import Perc_model Surface_model Volume_model Lines_model Objects_model Cast_model Cast_spec Single_proof.
Open Scope nat_scope.

(* C42: the errors raised when no face belongs to two cells, and when one belongs to three *)
Theorem C42_errors_partial :
  forall nonzero rg d g, wf_mesh (Topo_model.cast d) -> extract_cell_geometry nonzero rg d = Ok g ->
  exists n faces, get_dimension d = Ok n /\ mesh_faces rg (Topo_model.cast d) n faces /\
    (no_collapse nonzero rg faces ->
     (~ used 2 faces -> get_neighborhood nonzero rg d = Err TypeError /\
        forall P (centers : list P), get_connectivity nonzero rg d [length (v_types (Topo_model.cast d)); 3] centers = Err TypeError) /\
     (used 3 faces -> get_neighborhood nonzero rg d = Err ValueError /\
        forall P (centers : list P), get_connectivity nonzero rg d [length (v_types (Topo_model.cast d)); 3] centers = Err ValueError)).
Proof. exact @unpack_errors. Qed.
Print Assumptions C42_errors_partial.

(* three quadrilaterals around one edge *)
Definition three_quads : vmesh := mkV [9; 9; 9] [[0; 1; 2; 3]; [0; 1; 4; 5]; [0; 1; 6; 7]] [] [].
Example C42_errors_example :
  wf_mesh three_quads /\ (exists g, extract_cell_geometry (fun _ => true) true (DCells three_quads) = Ok g) /\
  get_neighborhood (fun _ => true) true (DCells three_quads) = Err ValueError.
Proof. split; [split; cbn; lia|]. split; [eexists; vm_compute; reflexivity|vm_compute; reflexivity]. Qed.

(* C188: every mesh of lines without repeated segments raises *)
Theorem C188_lines_partial :
  forall m, line_mesh m -> forall nonzero rg, Unpack_spec.segments m <> [] -> segments_differ m -> (rg = true -> forall f, nonzero f = true) ->
  get_neighborhood nonzero rg (DCells m) = Err TypeError /\
  forall P (centers : list P), get_connectivity nonzero rg (DCells m) [length (v_types m); 3] centers = Err TypeError.
Proof. exact @line_neighbors. Qed.
Print Assumptions C188_lines_partial.

(* C188: structured grids with one row of cells, along any axis *)
Theorem C188_grid_partial :
  forall dims n nonzero rg, 0 < n -> In dims [[S n; 1; 1]; [1; S n; 1]; [1; 1; S n]] -> (rg = true -> forall f, nonzero f = true) ->
  get_neighborhood nonzero rg (DGrid dims (grid_row n)) = Err TypeError /\
  forall P (centers : list P), get_connectivity nonzero rg (DGrid dims (grid_row n)) [n; 3] centers = Err TypeError.
Proof. exact @row_neighbors. Qed.
Print Assumptions C188_grid_partial.

Example C188_grid_example : v_cells (grid_row 3) = [[0; 1]; [1; 2]; [2; 3]] /\ get_dimension (DGrid [1; 4; 1] (grid_row 3)) = Ok 1%Z.
Proof. split; reflexivity. Qed.

(* C188: when it succeeds, neighbours are the lines with a common segment *)
Theorem C188_shared_partial :
  forall m, line_mesh m -> forall nonzero rg nb, get_neighborhood nonzero rg (DCells m) = Ok nb -> (rg = true -> forall f, nonzero f = true) ->
  length nb = length (v_cells m) /\
  forall i j r ids ids', i <> j -> nth_error nb i = Some r -> nth_error (v_cells m) i = Some ids -> nth_error (v_cells m) j = Some ids' ->
    (In (Z.of_nat j) r <-> exists u v, joined ids u v /\ joined ids' u v).
Proof. exact @line_shared. Qed.
Print Assumptions C188_shared_partial.

Example C188_shared_example : get_neighborhood (fun _ => true) true (DCells (mkV [4; 4; 3] [[0; 1; 2]; [3; 2; 1]; [3; 4]] [] [])) = Ok [[1]; [0]; []]%Z.
Proof. reflexivity. Qed.

(* C188: two segments that follow each other *)
Definition two_lines : vmesh := mkV [3; 3] [[0; 1]; [1; 2]] [] [].
Theorem C188_lines_refuted :
  exists m, line_mesh m /\ (exists i j a b c, i <> j /\ nth_error (v_cells m) i = Some [a; b] /\ nth_error (v_cells m) j = Some [b; c]) /\
  forall nonzero rg, (forall f, nonzero f = true) -> get_neighborhood nonzero rg (DCells m) = Err TypeError.
Proof.
  exists two_lines. assert (L : line_mesh two_lines) by (split; [intros t [<-|[<-|[]]]; now left|split; cbn; lia]). split; [exact L|]. split.
  - exists 0, 1, 0, 1, 2. repeat split. discriminate.
  - intros nonzero rg H. apply C188_lines_partial; auto; [discriminate|].
    intros p q u v u' v' E1 E2 H12. destruct p as [|[|[]]]; cbn in E1; try discriminate; injection E1 as <- <-;
      destruct q as [|[|[]]]; cbn in E2; try discriminate; injection E2 as <- <-; lia.
Qed.
Print Assumptions C188_lines_refuted.

Example C188_example : line_mesh (mkV [4; 3] [[0; 1; 2]; [2; 3]] [] []) /\ Unpack_spec.segments (mkV [4; 3] [[0; 1; 2]; [2; 3]] [] []) = [(0, 1); (1, 2); (2, 3)] /\
  get_neighborhood (fun _ => true) true (DCells (mkV [4; 3] [[0; 1; 2]; [2; 3]] [] [])) = Err TypeError.
Proof. split; [split; [intros t [<-|[<-|[]]]; auto|split; cbn; lia]|]. split; reflexivity. Qed.

(* C189: whenever the first segment meets the cell of a mesh without a shared face *)
Open Scope R_scope.
Theorem C189_single_partial :
  forall F (o : oracles F) ml tol (ia ib : bool) fuel a b pts c hits,
  (forall f, length (sides o f) = 1%nat) -> first_cell o a b = Some c -> cast o c a b = Some hits ->
  (length hits = 1 \/ length hits = 2)%nat ->
  (forall x f, In (x, f) hits -> ml <= norm (sub3 x (last (b :: pts) origin))) ->
  crossings o ml tol ia (S fuel) ib (a :: b :: pts) = Some (Err TypeError).
Proof. exact @single_cell. Qed.
Print Assumptions C189_single_partial.

(* C189: one cell between two planes, crossed from side to side *)
Theorem C189_crossed_partial :
  forall ml tol (ia ib : bool) fuel x0 x1 a b, a < x0 -> x0 < x1 -> x1 < b -> ml <= b - x1 ->
  crossings (row [x0; x1]) ml tol ia (S fuel) ib [px a; px b] = Some (Err TypeError) /\
  forall D (data : list (string * list D)) pass, intersect_polyline (row [x0; x1]) ml tol ia (S fuel) ib pass (0, 0, 0) [[px a; px b]] data = Some (Err TypeError).
Proof. exact @single_row. Qed.
Print Assumptions C189_crossed_partial.

Theorem C189_single_refuted :
  exists x0 x1 a b, a < x0 /\ x0 < x1 /\ x1 < b /\
  forall (ia ib : bool) fuel D (data : list (string * list D)) pass,
    intersect_polyline (row [x0; x1]) (/ 10000) (/ 100000000) ia (S fuel) ib pass (0, 0, 0) [[px a; px b]] data = Some (Err TypeError).
Proof. exists 0, 1, (-1), 2. repeat (split; [lra|]). intros. apply C189_crossed_partial; lra. Qed.
Print Assumptions C189_single_refuted.

Example C189_example : crossings (row [0; 1]) (/ 10000) (/ 100000000) false 1 false [px (-1); px 2] = Some (Err TypeError).
Proof. apply C189_crossed_partial; lra. Qed.
