From Coq Require Import Reals Lra Lia Sorted Permutation.
From Verif Require Import Prelude RealAux Surface_model Volume_model Objects_model Cast_model Cast_spec
  Cast1_proof Cast2_proof Cast3_proof Cast4_proof Cast5_proof Trip_spec Trip_proof Trip2_proof.
Open Scope R_scope.

(* C121, C123: full statement: every segment has the id of the cell that contains it, and exactly the points before
   entry and after exit are ignored (both false, see Cast_props and below).  A polyline through any mesh that enters it
   by the cell with the nearest center is cut at the faces it crosses, and every segment has the id of the cell it
   crosses; the points ignored are those before the entry and after the exit.  Missing: lines that start in the mesh,
   end in the cell they enter first, or enter it again. *)
Theorem C121_trip_partial :
  forall F (o : oracles F) ml tol fin pts j x0 c0 mid post, 0 <= tol ->
  trip o ml fin pts j x0 c0 mid post -> spaced tol ml (firstn (S j) pts ++ x0 :: map point_of (mid ++ post)) ->
  forall fuel, (length mid < fuel)%nat ->
  crossings o ml tol false fuel false pts =
  Some (Ok (firstn (S j) pts ++ x0 :: map point_of (mid ++ post), seq 0 (S j) ++ map line_of (mid ++ post),
            repeat (-1)%Z (S j) ++ map cell_of (mid ++ post))).
Proof. intros. exact (trip_crossings o ml tol fin pts j x0 c0 mid post H H0 H1 false false fuel H2). Qed.
Print Assumptions C121_trip_partial.

Theorem C123_trip_partial :
  forall F (o : oracles F) ml tol fin pts j x0 c0 mid post, 0 <= tol ->
  trip o ml fin pts j x0 c0 mid post -> spaced tol ml (firstn (S j) pts ++ x0 :: map point_of (mid ++ post)) ->
  forall (ia ib : bool) fuel, (length mid < fuel)%nat ->
  crossings o ml tol ia fuel ib pts =
  Some (Ok ((if ib then [] else firstn (S j) pts) ++ x0 :: map point_of mid ++ (if ia then [] else map point_of post),
            (if ib then [] else seq 0 (S j)) ++ map line_of mid ++ (if ia then [] else map line_of post),
            (if ib then [] else repeat (-1)%Z (S j)) ++ map cell_of mid ++ (if ia then [] else map cell_of post))).
Proof.
  intros F o ml tol fin pts j x0 c0 mid post H H0 H1 ia ib fuel H2.
  rewrite (trip_crossings o ml tol fin pts j x0 c0 mid post H H0 H1 ia ib fuel H2), !map_app. destruct ia; reflexivity.
Qed.
Print Assumptions C123_trip_partial.

(* C124: the last vertex is the last point returned, unless the line has left the mesh and later points are ignored *)
Theorem C124_trip_partial :
  forall F (o : oracles F) ml tol fin pts j x0 c0 mid post, 0 <= tol ->
  trip o ml fin pts j x0 c0 mid post -> spaced tol ml (firstn (S j) pts ++ x0 :: map point_of (mid ++ post)) ->
  forall (ia ib : bool) fuel, (length mid < fuel)%nat -> ia = false \/ post = [] ->
  exists ps ls cs, crossings o ml tol ia fuel ib pts = Some (Ok (ps ++ [last pts origin], ls, cs)).
Proof. exact @trip_last. Qed.
Print Assumptions C124_trip_partial.

(* C125: the search ends *)
Theorem C125_trip_partial :
  forall F (o : oracles F) ml tol fin pts j x0 c0 mid post, 0 <= tol ->
  trip o ml fin pts j x0 c0 mid post -> spaced tol ml (firstn (S j) pts ++ x0 :: map point_of (mid ++ post)) ->
  forall (ia ib : bool), exists r, forall fuel, (length mid < fuel)%nat -> crossings o ml tol ia fuel ib pts = Some (Ok r).
Proof.
  intros F o ml tol fin pts j x0 c0 mid post H H0 H1 ia ib. eexists. intros fuel H2.
  exact (trip_crossings o ml tol fin pts j x0 c0 mid post H H0 H1 ia ib fuel H2).
Qed.
Print Assumptions C125_trip_partial.

(* two vertices in the mesh, entered by cell 0: a line through three cells *)
Example C121_trip_example :
  trip (row [0; 1; 2; 3]) (/ 10000) (px (5 / 2)) [px (-1); px (3 / 2); px (5 / 2)] 0 (px 0) 0
    [(px 1, 0%nat, 0%Z); (px 2, 1%nat, 1%Z); (px (5 / 2), 1%nat, 2%Z)] [] /\
  spaced (/ 100000000) (/ 10000) [px (-1); px 0; px 1; px 2; px (5 / 2)].
Proof. exact three_cells. Qed.

(* C121: the first cell met, which contains the second point of the result, is passed over because its center is farther *)
Theorem C121_nearest_refuted :
  exists far pts, forall fuel, (2 <= fuel)%nat ->
  let o := mkO nat (find (row [0; 1; 2])) (fun k => if (k =? 0)%nat then far else center (row [0; 1; 2]) k)
             (cast (row [0; 1; 2])) (sides (row [0; 1; 2])) (contains (row [0; 1; 2])) in
  exists ps ls cs, crossings o (/ 10000) (/ 100000000) false fuel false pts = Some (Ok (ps, ls, cs)) /\ ~ right_labels [0; 1; 2] ps cs.
Proof. exact @nearest_wrong. Qed.
Print Assumptions C121_nearest_refuted.

(* C121: a line that comes back has no cell on its way back *)
Theorem C121_reentry_refuted :
  exists pts, forall fuel, (3 <= fuel)%nat ->
  exists ps ls cs, crossings (row [0; 1; 2]) (/ 10000) (/ 100000000) false fuel false pts = Some (Ok (ps, ls, cs)) /\
  ~ right_labels [0; 1; 2] ps cs.
Proof. exact @reentry_wrong. Qed.
Print Assumptions C121_reentry_refuted.
