From Coq Require Import Reals Lra Permutation Relations Sorted.
From Verif Require Import Prelude Surface_model Volume_spec Lines_model Lines_spec Lines1_proof Lines2_proof Lines3_proof
  Lines4_proof Lines5_proof.
Open Scope nat_scope.

(* two lines; points and data are numbers *)
Definition two_lines : lmesh nat nat :=
  mkL [10; 11; 12; 13] [[2; 0; 1]; [1; 3]] [("a"%string, [20; 21; 22; 23])] [("b"%string, [5; 6])].
Definition one_line : lmesh nat nat :=
  mkL [30; 31] [[0; 1]] [("c"%string, [1; 2]); ("a"%string, [40; 41])] [("b"%string, [7])].

(* C50 *)
Theorem C50_split_faithful :
  forall P D b (m : lmesh P D) out,
  split_lines b m = Ok out ->
  length out = length (l_cells m) /\
  forall i ids l, nth_error (l_cells m) i = Some ids -> nth_error out i = Some l ->
  picks (l_pts m) ids (l_pts l) /\
  runs (l_pts l) (l_cells l) (pieces b (l_pts l)) /\
  (forall k, nth_error (l_cells l) k =
     if b then if k + 1 <? length ids then Some [k; k + 1] else None
     else if k =? 0 then Some (seq 0 (length ids)) else None) /\
  Forall2 (fun kv kv' => fst kv' = fst kv /\ picks (snd kv) ids (snd kv')) (l_pd m) (l_pd l) /\
  Forall2 (fun kv kv' => fst kv' = fst kv /\ exists x, nth_error (snd kv) i = Some x /\
     snd kv' = repeat x (if b then length ids - 1 else 1)) (l_cd m) (l_cd l).
Proof. exact @split_lines_faithful. Qed.
Print Assumptions C50_split_faithful.

Example C50_example : exists out, split_lines true two_lines = Ok out /\
  map l_cells out = [[[0; 1]; [1; 2]]; [[0; 1]]] /\ map l_pts out = [[12; 10; 11]; [11; 13]] /\
  map l_cd out = [[("b"%string, [5; 5])]; [("b"%string, [6])]].
Proof. eexists; repeat split; reflexivity. Qed.

Theorem C50_split_defined :
  forall P D b (m : lmesh P D),
  wf_lines m -> exists out, split_lines b m = Ok out.
Proof. exact @split_lines_defined. Qed.
Print Assumptions C50_split_defined.

Example C50_wf_example : wf_lines two_lines.
Proof.
  split; [|split].
  - intros ids [<-|[<-|[]]] i Hi; cbn in Hi |- *; lia.
  - intros k v [[= <- <-]|[]]; reflexivity.
  - intros k v [[= <- <-]|[]]; reflexivity.
Qed.

(* C51: before the final merge_points() of VTK *)
Theorem C51_points_and_cells :
  forall P D b (ms : list (lmesh P D)) r,
  merge_lines b ms = Ok r ->
  exists lss, Forall2 (fun m ls => runs (l_pts m) (l_cells m) ls) ms lss /\
  l_pts r = concat (concat lss) /\
  runs (l_pts r) (l_cells r) (flat_map (pieces b) (concat lss)).
Proof. exact @merge_lines_points. Qed.
Print Assumptions C51_points_and_cells.

Example C51_example : exists r, merge_lines true [two_lines; one_line] = Ok r /\
  l_pts r = [12; 10; 11; 11; 13; 30; 31] /\ l_cells r = [[0; 1]; [1; 2]; [3; 4]; [5; 6]] /\
  l_pd r = [("a"%string, [22; 20; 21; 21; 23; 40; 41])] /\ l_cd r = [("b"%string, [5; 5; 6; 7])].
Proof. eexists; repeat split; reflexivity. Qed.

Theorem C51_common_keys :
  forall P D b (ms : list (lmesh P D)) r,
  merge_lines b ms = Ok r ->
  (forall k, In k (map fst (l_pd r)) <-> forall m, In m ms -> In k (map fst (l_pd m))) /\
  (forall k, In k (map fst (l_cd r)) <-> forall m, In m ms -> In k (map fst (l_cd m))).
Proof. exact @merge_lines_keys. Qed.
Print Assumptions C51_common_keys.

Theorem C51_point_data :
  forall P D b (ms : list (lmesh P D)) r k v,
  merge_lines b ms = Ok r ->
  In (k, v) (l_pd r) ->
  exists vss, Forall2 (fun m vs => exists w, In (k, w) (l_pd m) /\ runs w (l_cells m) vs) ms vss /\
  length v = length (l_pts r) /\
  runs v (l_cells r) (flat_map (pieces b) (concat vss)).
Proof. exact @merge_lines_point_data. Qed.
Print Assumptions C51_point_data.

Theorem C51_cell_data :
  forall P D b (ms : list (lmesh P D)) r k v,
  merge_lines b ms = Ok r ->
  In (k, v) (l_cd r) ->
  exists lss vss,
  Forall2 (fun m ls => runs (l_pts m) (l_cells m) ls) ms lss /\
  Forall2 (fun m xs => exists w, In (k, w) (l_cd m) /\ xs = firstn (length (l_cells m)) w /\
                                 length xs = length (l_cells m)) ms vss /\
  v = concat (map2 (fun x line => repeat x (length (pieces b line))) (concat vss) (concat lss)) /\
  length v = length (l_cells r).
Proof. exact @merge_lines_cell_data. Qed.
Print Assumptions C51_cell_data.

Theorem C51_merge_of_split :
  forall P D (m : lmesh P D) b c ls r,
  split_lines b m = Ok ls -> merge_lines c ls = Ok r ->
  exists pss, runs (l_pts m) (l_cells m) pss /\
  runs (l_pts r) (l_cells r) (flat_map (pieces c) (flat_map (pieces b) pss)).
Proof. exact @merge_split. Qed.
Print Assumptions C51_merge_of_split.

Example C51_merge_of_split_example : exists ls r, split_lines false two_lines = Ok ls /\ merge_lines false ls = Ok r /\
  runs (l_pts r) (l_cells r) [[12; 10; 11]; [11; 13]].
Proof. do 2 eexists; split; [reflexivity|]. split; [reflexivity|]. repeat constructor. Qed.

Theorem C51_defined :
  forall P D b (ms : list (lmesh P D)),
  (forall m, In m ms -> wf_lines m) -> (exists m, In m ms /\ l_cells m <> []) ->
  exists r, merge_lines b ms = Ok r.
Proof. exact @merge_lines_defined. Qed.
Print Assumptions C51_defined.

Example C51_defined_example : (forall m, In m [two_lines; one_line] -> wf_lines m) /\
  (exists m, In m [two_lines; one_line] /\ l_cells m <> []).
Proof.
  split; [|exists two_lines; split; [left; reflexivity|discriminate]].
  intros m [<-|[<-|[]]]; [exact C50_wf_example|]. split; [|split].
  - intros ids [<-|[]] i Hi; cbn in Hi |- *; lia.
  - intros k v [[= <- <-]|[[= <- <-]|[]]]; reflexivity.
  - intros k v [[= <- <-]|[]]; reflexivity.
Qed.

Theorem C51_errors :
  forall P D b,
  @merge_lines P D b [] = Err IndexError /\
  forall ms : list (lmesh P D), ms <> [] -> (forall m, In m ms -> l_cells m = []) ->
  merge_lines b ms = Err ValueError.
Proof. exact @merge_lines_errors. Qed.
Print Assumptions C51_errors.

Example C51_errors_example : merge_lines false [mkL [1; 2] [] [("a"%string, [3; 4])] []; mkL [] [] [] []] = Err ValueError.
Proof. apply C51_errors; [discriminate|]. intros m [<-|[<-|[]]]; reflexivity. Qed.

(* C52 *)
Theorem C52_midpoints :
  forall points cells points' cells',
  quadraticize points cells = Ok (points', cells') ->
  exists new fresh, points' = points ++ new /\
  length cells' = length cells /\ concat fresh = seq (length points) (length new) /\
  Forall2 (fun tc tcf => (fst tc = 5 /\ fst (fst tcf) = 22 \/ fst tc = 9 /\ fst (fst tcf) = 23) /\
     snd (fst tcf) = snd tc ++ snd tcf /\
     Forall2 (fun '(u, v) f => exists a b p, nth_error points u = Some a /\ nth_error points v = Some b /\
         nth_error points' f = Some p /\ midpoint a b p)
       (ring_edges (snd tc)) (snd tcf)) cells (combine cells' fresh).
Proof. exact @quadraticize_spec. Qed.
Print Assumptions C52_midpoints.

Example C52_example : exists points' cells',
  quadraticize [(0, 0, 0); (2, 0, 0); (0, 2, 0); (2, 2, 0)]%R [(5, [0; 1; 2]); (9, [0; 1; 3; 2])] = Ok (points', cells') /\
  cells' = [(22, [0; 1; 2; 4; 5; 6]); (23, [0; 1; 3; 2; 7; 8; 9; 10])] /\ length points' = 11.
Proof. do 2 eexists; split; [reflexivity|]. split; reflexivity. Qed.

Theorem C52_defined_iff :
  forall points cells,
  (exists r, quadraticize points cells = Ok r) <->
  cells <> [] /\ forall t ids, In (t, ids) cells -> (t = 5 \/ t = 9) /\ in_range (length points) ids.
Proof. exact @quadraticize_iff. Qed.
Print Assumptions C52_defined_iff.

Example C52_defined_example : (exists r, quadraticize [(0, 0, 0); (1, 0, 0); (0, 1, 0)]%R [(5, [0; 1; 2])] = Ok r) /\
  ~ (exists r, quadraticize [(0, 0, 0); (1, 0, 0); (0, 1, 0)]%R [(5, [0; 1; 3])] = Ok r) /\
  ~ (exists r, quadraticize [(0, 0, 0)]%R [] = Ok r).
Proof.
  split; [|split]; rewrite C52_defined_iff.
  - split; [discriminate|]. intros t ids [[= <- <-]|[]]. split; [left; reflexivity|]. intros i Hi. cbn in Hi |- *. lia.
  - intros [_ H]. destruct (H 5 [0; 1; 3] (or_introl eq_refl)) as [_ H']. specialize (H' 3). cbn in H'. lia.
  - intros [H _]. congruence.
Qed.

Theorem C52_unsupported :
  forall points pre t ids post,
  (forall t' ids', In (t', ids') pre -> (t' = 5 \/ t' = 9) /\ in_range (length points) ids') ->
  t <> 5 -> t <> 9 ->
  quadraticize points (pre ++ (t, ids) :: post) = Err NotImplementedError.
Proof. exact @quadraticize_unsupported. Qed.
Print Assumptions C52_unsupported.

Example C52_unsupported_example : quadraticize [(0, 0, 0)]%R [(12, [0])] = Err NotImplementedError.
Proof. reflexivity. Qed.

(* C54: exactly when it terminates.  Missing: it does not terminate for all inputs (see C54_terminates_refuted) *)
Theorem C54_terminates_iff_partial :
  forall points start close tol,
  (exists fuel path, reconstruct_line fuel points start close tol = Some (Ok path)) <->
  (0 < tol)%R /\ exists p q, In p points /\ In q points /\ p <> q.
Proof. exact @reconstruct_terminates_iff. Qed.
Print Assumptions C54_terminates_iff_partial.

Example C54_example : forall start close,
  exists fuel path, reconstruct_line fuel [(0, 0, 0); (1, 0, 0); (0, 0, 0)]%R start close (/ 10) = Some (Ok path).
Proof.
  intros start close. apply C54_terminates_iff_partial. split; [lra|]. exists (0, 0, 0)%R, (1, 0, 0)%R.
  split; [now left|]. split; [right; now left|]. intros [= H]. lra.
Qed.

(* C53 *)
Theorem C53_permutation :
  forall fuel points start close tol path,
  reconstruct_line fuel points start close tol = Some (Ok path) ->
  let n := length points in
  let k := Z.to_nat (start mod Z.of_nat n) in
  Permutation path (seq 0 n) /\
  (0 < n -> hd_error path = Some k) /\
  forall l l0, tour points close path l ->
    tour points close (skipn k (seq 0 n) ++ firstn k (seq 0 n)) l0 -> (l <= l0)%R.
Proof. exact @reconstruct_permutes. Qed.
Print Assumptions C53_permutation.

Example C53_example : exists fuel path,
  reconstruct_line fuel [(0, 0, 0); (2, 0, 0); (1, 0, 0)]%R (-1) true 1 = Some (Ok path).
Proof.
  apply C54_terminates_iff_partial. split; [lra|]. exists (0, 0, 0)%R, (2, 0, 0)%R.
  split; [now left|]. split; [right; now left|]. intros [= H]. lra.
Qed.

(* C54: equal points *)
Theorem C54_terminates_refuted :
  exists points start close tol, (0 < tol)%R /\ points <> [] /\
  forall fuel, reconstruct_line fuel points start close tol = None.
Proof. exact @reconstruct_terminates_refuted. Qed.
Print Assumptions C54_terminates_refuted.

(* C55: when the order is kept, no reversal of a block that starts before the last two points shortens the line.  Missing: the last two points (see C55_local_optimum_refuted), and a last pass that shortens the line within the tolerance *)
Theorem C55_local_optimum_partial :
  forall fuel points start close tol k path' l l',
  let n := length points in
  let order := skipn k (seq 0 n) ++ firstn k (seq 0 n) in
  k = Z.to_nat (start mod Z.of_nat n) -> 0 < n ->
  reconstruct_line fuel points start close tol = Some (Ok order) ->
  (exists a, 1 <= a /\ a + 3 <= n /\ reversed_block order a path') ->
  tour points close order l -> tour points close path' l' -> (l <= l')%R.
Proof. exact @reconstruct_local_optimum. Qed.
Print Assumptions C55_local_optimum_partial.

Example C55_example : reversed_block [0; 1; 2; 3] 1 [0; 2; 1; 3].
Proof. exists [0], [1; 2], [3]. repeat split. Qed.

(* the last two points are never exchanged *)
Theorem C55_local_optimum_refuted :
  exists points path' l l',
  (forall fuel tol, (0 < tol)%R -> reconstruct_line (S fuel) points 0 false tol = Some (Ok [0; 1; 2])) /\
  reversed_block [0; 1; 2] 1 path' /\
  tour points false [0; 1; 2] l /\ tour points false path' l' /\ (l' < l)%R.
Proof. exact @reconstruct_local_refuted. Qed.
Print Assumptions C55_local_optimum_refuted.

(* C56: with the distance to the line through the kept points.  Missing: the distance to the segment (see C56_segment_refuted) *)
Theorem C56_subsequence_partial :
  forall fuel tol ps,
  (0 <= tol)%R -> 2 <= length ps <= fuel ->
  exists out, rdp fuel tol ps = Ok out /\ simplifies (near_line tol) ps out.
Proof. exact @rdp_spec. Qed.
Print Assumptions C56_subsequence_partial.

Theorem C56_straight_lines :
  forall fuel tol p0 l p1 out,
  (0 <= tol)%R -> length l + 2 <= fuel ->
  rdp fuel tol (p0 :: l ++ [p1]) = Ok out ->
  (length out = 2 <-> Forall (near_line tol p0 p1) l).
Proof. exact @rdp_two. Qed.
Print Assumptions C56_straight_lines.

Example C56_example : exists out, rdp 3 1 [(0, 0, 0); (1, 2, 0); (3, 0, 0)]%R = Ok out /\ length out <> 2.
Proof.
  destruct (C56_subsequence_partial 3 1 [(0, 0, 0); (1, 2, 0); (3, 0, 0)]%R) as (out & E & _); [lra|cbn; lia|].
  exists out. split; [exact E|]. intros Hl.
  apply (C56_straight_lines 3 1 (0, 0, 0) [(1, 2, 0)] (3, 0, 0) out)%R in Hl; [|lra|cbn; lia|exact E].
  inversion_clear Hl as [|? ? [t Ht] Hr]. unfold distance, sq_dist, along in Ht.
  assert (Hq : (1 < sqrt ((1 - (0 + t * (3 - 0))) * (1 - (0 + t * (3 - 0))) + (2 - (0 + t * (0 - 0))) * (2 - (0 + t * (0 - 0))) +
     (0 - (0 + t * (0 - 0))) * (0 - (0 + t * (0 - 0)))))%R); [|lra].
  rewrite <- sqrt_1 at 1. apply sqrt_lt_1_alt. split; [lra|].
  pose proof (Rle_0_sqr (1 - (0 + t * (3 - 0)))) as Hs. unfold Rsqr in Hs. nra.
Qed.

Theorem C56_negative_tolerance :
  forall fuel tol p ps,
  (tol < 0)%R -> rdp fuel tol (p :: ps) = Err RecursionError.
Proof. exact @rdp_negative. Qed.
Print Assumptions C56_negative_tolerance.

Theorem C56_cells_partial :
  forall fuel tol points cells,
  (0 <= tol)%R ->
  (forall t ids, In (t, ids) cells -> in_range (length points) ids /\ (t = 4 -> 2 <= length ids <= fuel)) ->
  exists pts lines out, decimate_rdp fuel tol points cells = Ok (pts, lines) /\
  pts = concat out /\ runs pts lines out /\
  Forall2 (fun c o => exists ps, picks points (snd c) ps /\
      (fst c = 3 /\ o = ps \/ fst c = 4 /\ simplifies (near_line tol) ps o))
    (filter (fun c => (fst c =? 3) || (fst c =? 4)) cells) out.
Proof. exact @decimate_rdp_spec. Qed.
Print Assumptions C56_cells_partial.

Theorem C56_segment_refuted :
  exists tol ps out x, (0 <= tol)%R /\
  (forall fuel, 3 <= fuel -> rdp fuel tol ps = Ok out) /\
  ps = [(0, 0, 0); x; (1, 0, 0)]%R /\ out = [(0, 0, 0); (1, 0, 0)]%R /\
  ~ near_segment tol (0, 0, 0)%R (1, 0, 0)%R x.
Proof. exact @rdp_segment_refuted. Qed.
Print Assumptions C56_segment_refuted.

(* C57: for any pairs the tree may report *)
Theorem C57_classes :
  forall points pairs,
  (forall i j, In (i, j) pairs -> i <> j /\ i < length points /\ j < length points) ->
  exists rep, let r := average_map points pairs in
  length (fst r) = length points /\ length (snd r) = length points /\
  (forall i, i < length points -> nth_error (fst r) i = Some (rep i)) /\
  (forall i j, rep i = rep j <-> linked pairs i j) /\
  (forall i, i < length points -> exists class ps c, NoDup class /\
     (forall k, In k class <-> linked pairs i k) /\ In (rep i) class /\ picks points class ps /\
     nth_error (snd r) (rep i) = Some c /\ is_mean ps c) /\
  (forall i, rep (rep i) = rep i).
Proof. exact @average_map_spec. Qed.
Print Assumptions C57_classes.

Example C57_example : build_groups [(0, 3); (1, 2); (3, 1)] = [[0; 3; 1; 2]; []].
Proof. reflexivity. Qed.
Example C57_map_example :
  fst (average_map [(0, 0, 0); (5, 0, 0); (6, 0, 0); (1, 0, 0); (9, 9, 9)]%R [(0, 3); (1, 2)]) = [0; 1; 1; 0; 4].
Proof. reflexivity. Qed.

(* C58, with the meaning of the points *)
Theorem C58_faces :
  forall points faces pairs points' out,
  (forall i j, In (i, j) pairs -> i <> j /\ i < length points /\ j < length points) ->
  average_points points faces 0 pairs = Ok (points', out) ->
  exists rep,
  (forall i j, rep i = rep j <-> linked pairs i j) /\ (forall i, rep (rep i) = rep i) /\
  (forall i, i < length points -> exists class ps c, NoDup class /\
     (forall k, In k class <-> linked pairs i k) /\ In (rep i) class /\ picks points class ps /\
     nth_error points' (rep i) = Some c /\ is_mean ps c) /\
  length points' = length points /\
  StronglySorted lt (map fst out) /\
  forall i f', In (i, f') out <-> exists f, nth_error faces i = Some f /\
     ring_edges f' = proper_edges (map rep f) /\ 2 < length f'.
Proof. exact @average_faces. Qed.
Print Assumptions C58_faces.

Example C58_example : exists pts,
  average_points [(0, 0, 0); (5, 0, 0); (6, 0, 0); (1, 0, 0); (9, 9, 9)]%R
    [[1; 2; 4]; [0; 1; 2; 4; 3]; [0; 3; 4; 1]] 0 [(0, 3); (1, 2)] =
  Ok (pts, [(1, [0; 1; 4]); (2, [0; 4; 1])]).
Proof. eexists; reflexivity. Qed.

Theorem C58_defined :
  forall points faces n_lines pairs,
  (forall i j, In (i, j) pairs -> i <> j /\ i < length points /\ j < length points) ->
  (forall f, In f faces -> f <> [] /\ in_range (length points) f) ->
  if n_lines =? 0 then exists r, average_points points faces n_lines pairs = Ok r
  else average_points points faces n_lines pairs = Err NotImplementedError.
Proof. exact @average_points_defined. Qed.
Print Assumptions C58_defined.
