From Coq Require Import Reals Lra Lia Sorted Permutation.
From Verif Require Import Prelude Perc_model Surface_model Volume_model Lines_model Objects_model Cast_model Cast_spec
  Cast1_proof Cast2_proof Cast3_proof Cast4_proof Cast5_proof.
Open Scope R_scope.

(* C117: full statement: every point returned is on the ray and on its cell (false for lines parallel to the ray, below).  The point of a face is the only one that is both on the ray and in the plane of the face *)
Theorem C117_faces_partial :
  forall (A : Type) poly s (orig : list A) find own a b tol ma rows,
  ray_cast poly s orig find own a b tol ma = Ok (Some rows) -> su_faces s <> [] -> a <> b -> limit_of tol ma <= 90 ->
  forall i ox w, In (i, ox, w) rows -> exists f x, nth_error (su_faces s) i = Some f /\ ox = Some x /\
    on_ray a b x /\ on_plane f x /\ forall y, on_ray a b y -> on_plane f y -> y = x.
Proof. exact @rays_on_faces. Qed.
Print Assumptions C117_faces_partial.

Example C117_example : exists r, ray_cast true (mkSurf [(px 0, px 1)] []) [] (fun _ _ => [0%nat]) (fun i => i) (px (-1)) (px 1) (/ 100000000) None = Ok r /\
  limit_of (/ 100000000) None <= 90 /\ px (-1) <> px 1.
Proof.
  destruct (ray_total true (mkSurf [(px 0, px 1)] []) [] (fun _ _ => [0%nat]) (fun i : nat => i) (px (-1)) (px 1) (/ 100000000) None) as [r Hr].
  - now right.
  - intros i [<-|[]]. cbn. lia.
  - discriminate.
  - exists r. split; [exact Hr|]. split; [cbn; lra|]. intros [= E]. lra.
Qed.

(* C117: the point of a line not parallel to the ray is on the line, and on the ray if both are in a plane; the coordinates of a parallel line are undefined (None) *)
Theorem C117_lines_partial :
  forall (A : Type) poly s (orig : list A) find own a b tol ma rows,
  ray_cast poly s orig find own a b tol ma = Ok (Some rows) -> su_faces s = [] -> a <> b ->
  forall i ox w, In (i, ox, w) rows -> exists p q, nth_error (su_lines s) i = Some (p, q) /\
    (vouter (vminus q p) (vminus b a) <> (0, 0, 0) -> exists x, ox = Some x /\ on_ray p q x /\
       (vinner (vminus p a) (vouter (vminus q p) (vminus b a)) = 0 -> on_ray a b x)) /\
    (vouter (vminus q p) (vminus b a) = (0, 0, 0) -> ox = None).
Proof. exact @rays_on_lines. Qed.
Print Assumptions C117_lines_partial.

Example C117_lines_example : vouter (vminus (0, 1, 0) (0, -1, 0)) (vminus (px 1) (px (-1))) <> (0, 0, 0) /\
  vinner (vminus (0, -1, 0) (px (-1))) (vouter (vminus (0, 1, 0) (0, -1, 0)) (vminus (px 1) (px (-1)))) = 0.
Proof. unfold vouter, vminus, vinner, px. split; [intros [= _ _ E]; lra|ring]. Qed.

(* C117: a line parallel to the ray, met by it, for which no point is found *)
Theorem C117_parallel_refuted :
  exists s a b, su_faces s = [] /\ su_lines s = [(px 0, px 2)] /\ a = px (-1) /\ b = px 1 /\
  forall tol ma, ray_cast true s [] (fun _ _ => [0%nat]) (fun i => i) a b tol ma = Ok (Some [(0%nat, None, 0%nat)]).
Proof. exact @ray_parallel. Qed.
Print Assumptions C117_parallel_refuted.

(* C118: a face is returned if and only if the segment meets it and its normal makes an angle less than the limit with the ray; faces are in ascending order with their own data *)
Theorem C118_faces :
  forall (A : Type) poly s (orig : list A) find own a b tol ma r,
  ray_cast poly s orig find own a b tol ma = Ok r -> su_faces s <> [] -> a <> b ->
  (forall f, In f (su_faces s) -> vinner (snd f) (snd f) = 1) ->
  (forall i f, nth_error (su_faces s) i = Some f ->
     (exists rows x w, r = Some rows /\ In (i, x, w) rows) <-> In i (find a b) /\ faces_ray (limit_of tol ma) a b f) /\
  (forall rows, r = Some rows -> rows <> [] /\ StronglySorted le (map (fun row => fst (fst row)) rows) /\
     forall i x w, In (i, x, w) rows -> if poly then w = own i else nth_error orig i = Some w).
Proof. exact @rays_selected. Qed.
Print Assumptions C118_faces.

Example C118_example : faces_ray 90 (px (-1)) (px 1) (px 0, px 1).
Proof.
  exists 0. pose proof PI_RGT_0. split; [lra|]. split; [lra|]. rewrite cos_0. unfold vinner, vminus, px. cbn [fst snd].
  replace ((_ - _) * _ + _ * _ + _ * _) with (Rsqr 2) by (unfold Rsqr; ring). rewrite sqrt_Rsqr by lra.
  replace (_ + _ + _) with (-2) by ring. rewrite Rabs_left; lra.
Qed.

(* C118: without faces all the lines met are returned, in ascending order *)
Theorem C118_lines :
  forall A poly s (orig : list A) find own a b tol ma r,
  ray_cast poly s orig find own a b tol ma = Ok r -> su_faces s = [] ->
  match r with
  | None => find a b = []
  | Some rows => Permutation (map (fun row => fst (fst row)) rows) (find a b) /\ StronglySorted le (map (fun row => fst (fst row)) rows) /\
      forall i x w, In (i, x, w) rows -> if poly then w = own i else nth_error orig i = Some w
  end.
Proof. exact @ray_lines_selected. Qed.
Print Assumptions C118_lines.

Example C118_lines_example : Permutation [1; 3]%nat [3; 1]%nat /\ StronglySorted le [1; 3]%nat.
Proof. split; [apply perm_swap|repeat constructor]. Qed.

(* C118: a PolyData with faces and lines is rejected *)
Theorem C118_mixed_rejected :
  forall A s (orig : list A) find own a b tol ma,
  su_faces s <> [] -> su_lines s <> [] ->
  ray_cast true s orig find own a b tol ma = Err ValueError.
Proof. exact @ray_mixed. Qed.
Print Assumptions C118_mixed_rejected.

Example C118_mixed_example : su_faces (mkSurf [(px 0, px 1)] [(px 0, px 1)]) <> [] /\ su_lines (mkSurf [(px 0, px 1)] [(px 0, px 1)]) <> [].
Proof. split; discriminate. Qed.

(* C118: any other call succeeds, if the ids of VTK exist *)
Theorem C118_total :
  forall A poly s (orig : list A) find own a b tol ma,
  (poly = true -> su_faces s = [] \/ su_lines s = []) ->
  (forall i, In i (find a b) -> (i < length (if Nat.eqb (length (su_faces s)) 0 then su_lines s else su_faces s))%nat) ->
  (poly = false -> forall i, In i (find a b) -> (i < length orig)%nat) ->
  exists r, ray_cast poly s orig find own a b tol ma = Ok r.
Proof. exact @ray_total. Qed.
Print Assumptions C118_total.

Example C118_total_example : forall i, In i [0%nat] -> (i < length (if Nat.eqb (length (su_faces (mkSurf [] [(px 0, px 1)]))) 0 then su_lines (mkSurf [] [(px 0, px 1)]) else []))%nat.
Proof. intros i [<-|[]]. cbn. lia. Qed.

(* C119: one line id and one cell id per segment, line ids in ascending order and in range, first point kept *)
Theorem C119_arrays :
  forall (F D : Type) (o : oracles F) ml tol ia fuel ib pass c lines (data : list (string * list D)) ps ls cs d,
  intersect_polyline o ml tol ia fuel ib pass c lines data = Some (Ok (ps, ls, cs, d)) ->
  exists pts rest, lines = pts :: rest /\ (1 <= length ls)%nat /\ length ps = S (length ls) /\ length cs = length ls /\ StronglySorted le ls /\
    (forall l, In l ls -> (S l < length pts)%nat) /\ (ib = false -> hd_error ps = hd_error pts).
Proof. exact @poly_arrays. Qed.
Print Assumptions C119_arrays.

Example C119_example : exists d, intersect_polyline (D := nat) (row [0; 1; 2]) (/ 10000) (/ 100000000) false 1 false false (0, 0, 0) [[px (/ 2); px (3 / 2)]] [] =
  Some (Ok d).
Proof. unfold intersect_polyline. cbn [map]. rewrite !sub_zero, start_inside. cbn. eauto. Qed.

(* C120: full statement: two points farther from each other than the tolerance are both kept (false, below).  Consecutive points kept are apart by more than the tolerance, and segments in a cell have at least the minimum length *)
Theorem C120_spacing_partial :
  forall (F D : Type) (o : oracles F) ml tol ia fuel ib pass c lines (data : list (string * list D)) ps ls cs d,
  intersect_polyline o ml tol ia fuel ib pass c lines data = Some (Ok (ps, ls, cs, d)) ->
  forall k p q cid, nth_error ps k = Some p -> nth_error ps (S k) = Some q -> nth_error cs k = Some cid ->
  apart tol p q /\ (cid <> (-1)%Z -> ml <= dist p q).
Proof. exact @poly_spacing. Qed.
Print Assumptions C120_spacing_partial.

Example C120_example : exists d, intersect_polyline (D := nat) (row [0; 1; 2]) (/ 10000) (/ 100000000) false 1 false false (0, 0, 0) [[px (/ 2); px (3 / 2)]] [] =
  Some (Ok d).
Proof. exact C119_example. Qed.

(* C120: two points at 100000 times the tolerance, merged because of the relative tolerance of numpy.allclose *)
Theorem C120_tolerance_refuted :
  exists tol p q, 0 < tol /\ apart tol p q /\ forall fuel,
  intersect_polyline (D := nat) (row []) (/ 10000) tol false fuel false false (0, 0, 0) [[p; q]] [] = Some (Err ValueError).
Proof. exact @merged_refuted. Qed.
Print Assumptions C120_tolerance_refuted.

(* C121: full statement: every segment has the id of the cell that contains it, -1 for none (false, below).  The end of each segment is a vertex of the line outside the mesh, the last vertex if it is in the cell, or an intersection of the segment with the cell *)
Theorem C121_sources_partial :
  forall (F D : Type) (o : oracles F) ml tol ia fuel ib pass c lines (data : list (string * list D)) ps ls cs d,
  intersect_polyline o ml tol ia fuel ib pass c lines data = Some (Ok (ps, ls, cs, d)) ->
  forall k q l cid, nth_error ps (S k) = Some q -> nth_error ls k = Some l -> nth_error cs k = Some cid ->
  exists pts rest a b, lines = pts :: rest /\ nth_error pts l = Some a /\ nth_error pts (S l) = Some b /\
    (q = b /\ cid = (-1)%Z \/
     q = b /\ S (S l) = length pts /\ contains o cid (vminus b c) = true \/
     exists cell rows f, cast o cell (vminus a c) (vminus b c) = Some rows /\ In (vminus q c, f) rows /\ (cid = cell \/ cid = (-1)%Z)).
Proof. exact @poly_sources. Qed.
Print Assumptions C121_sources_partial.

Example C121_sources_example : exists d, intersect_polyline (D := nat) (row [0; 1; 2]) (/ 10000) (/ 100000000) false 1 false false (0, 0, 0) [[px (/ 2); px (3 / 2)]] [] =
  Some (Ok d).
Proof. exact C119_example. Qed.

(* C121, C123: a segment that enters a row of cells and ends beyond its second boundary is cut at every boundary, all ids are right, and the points before entry and after exit are those ignored *)
Theorem C121_row_partial :
  forall tol ml (ia ib : bool) (u v : list R) a b fuel,
  0 <= tol -> StronglySorted Rlt (u ++ v) -> (2 <= length u)%nat -> (3 <= length (u ++ v))%nat ->
  separated tol ml (a :: u ++ [b]) -> (forall x, In x v -> b <= x) -> (length u <= fuel)%nat ->
  exists ls cs, let ps := map px ((if ib then [] else [a]) ++ u ++ (if ia && (length v =? 0)%nat then [] else [b])) in
    crossings (row (u ++ v)) ml tol ia fuel ib [px a; px b] = Some (Ok (ps, ls, cs)) /\
    right_labels (u ++ v) ps cs /\ length ps = S (length cs) /\ length ls = length cs.
Proof. exact @row_line. Qed.
Print Assumptions C121_row_partial.

Example C121_row_example : StronglySorted Rlt ([0; 1; 2] ++ [3]) /\ separated (/ 100000000) (/ 10000) (-1 :: [0; 1; 2] ++ [5 / 2]).
Proof. exact row_example. Qed.

(* C121: a line that starts inside the mesh, whose first segment has no cell *)
Theorem C121_start_refuted :
  exists ps ls cs, crossings (row [0; 1; 2]) (/ 10000) (/ 100000000) false 1 false [px (/ 2); px (3 / 2)] = Some (Ok (ps, ls, cs)) /\
  ~ right_labels [0; 1; 2] ps cs.
Proof. exact @start_wrong. Qed.
Print Assumptions C121_start_refuted.

(* C121: a line that ends in the first cell it enters, whose last segment has no cell *)
Theorem C121_end_refuted :
  exists ps ls cs, crossings (row [0; 1; 2]) (/ 10000) (/ 100000000) false 1 false [px (-1); px (/ 2)] = Some (Ok (ps, ls, cs)) /\
  ~ right_labels [0; 1; 2] ps cs.
Proof. exact @end_wrong. Qed.
Print Assumptions C121_end_refuted.

(* C122: values passed are those of the segment of the line *)
Theorem C122_values :
  forall F D (o : oracles F) ml tol ia fuel ib c lines (data : list (string * list D)) ps ls cs d,
  intersect_polyline o ml tol ia fuel ib true c lines data = Some (Ok (ps, ls, cs, d)) ->
  map fst d = filter (fun k => negb (existsb (String.eqb k) ["Length"; "vtkOriginalCellIds"; "IntersectedCellIds"]%string)) (map fst data) /\
  forall k v, In (k, v) data -> ~ In k ["Length"; "vtkOriginalCellIds"; "IntersectedCellIds"]%string ->
    exists w, In (k, w) d /\ length w = length ls /\ forall i l, nth_error ls i = Some l -> nth_error v l <> None /\ nth_error w i = nth_error v l.
Proof. exact @poly_values. Qed.
Print Assumptions C122_values.

Example C122_example : exists r, intersect_polyline (row [0; 1; 2]) (/ 10000) (/ 100000000) false 1 false true (0, 0, 0) [[px (/ 2); px (3 / 2)]] [("Material"%string, [7%nat])] =
  Some (Ok (r, [("Material"%string, [7; 7]%nat)])).
Proof. unfold intersect_polyline. cbn [map]. rewrite !sub_zero, start_inside. cbn. eauto. Qed.

(* C122: full statement: cell data of any line are passed (false, below).  They are if there is at least one value per segment of the line *)
Theorem C122_enough_partial :
  forall F D (o : oracles F) ml tol ia fuel ib c pts rest (data : list (string * list D)) ps ls cs none,
  intersect_polyline o ml tol ia fuel ib false c (pts :: rest) data = Some (Ok (ps, ls, cs, none)) ->
  (forall k v, In (k, v) data -> (length pts <= S (length v))%nat) ->
  exists d, intersect_polyline o ml tol ia fuel ib true c (pts :: rest) data = Some (Ok (ps, ls, cs, d)).
Proof. exact @poly_enough_same. Qed.
Print Assumptions C122_enough_partial.

Example C122_enough_example : exists d, intersect_polyline (row [0; 1; 2]) (/ 10000) (/ 100000000) false 1 false false (0, 0, 0) [[px (/ 2); px (3 / 2)]] [("Material"%string, [7%nat])] =
  Some (Ok d).
Proof. unfold intersect_polyline. cbn [map]. rewrite !sub_zero, start_inside. cbn. eauto. Qed.

(* C122: the data of a line of a single cell of two segments cannot be passed *)
Theorem C122_polyline_refuted :
  exists line data, forall fuel,
  intersect_polyline (row []) (/ 10000) (/ 100000000) false fuel false false (0, 0, 0) [line] data = Some (Ok (line, [0; 1]%nat, [-1; -1]%Z, [])) /\
  intersect_polyline (row []) (/ 10000) (/ 100000000) false fuel false true (0, 0, 0) [line] data = Some (Err IndexError) /\
  length data = 1%nat /\ Forall (fun kv : string * list nat => length (snd kv) = 1%nat) data.
Proof. exact @too_few_refuted. Qed.
Print Assumptions C122_polyline_refuted.

(* C123: full statement: exactly the points before entry and after exit are ignored (false, below).  No segment outside the mesh remains before one inside, and none after *)
Theorem C123_flags_partial :
  forall (F D : Type) (o : oracles F) ml tol ia fuel ib pass c lines (data : list (string * list D)) ps ls cs d,
  intersect_polyline o ml tol ia fuel ib pass c lines data = Some (Ok (ps, ls, cs, d)) ->
  (ib = true -> forall i j ci cj, (i < j)%nat -> nth_error cs i = Some ci -> nth_error cs j = Some cj -> ci = (-1)%Z -> cj = (-1)%Z) /\
  (ia = true -> forall i j ci cj, (i < j)%nat -> nth_error cs i = Some ci -> nth_error cs j = Some cj -> cj = (-1)%Z -> ci = (-1)%Z).
Proof. exact @poly_labels. Qed.
Print Assumptions C123_flags_partial.

Example C123_example : exists r, crossings (row [0; 1; 2]) (/ 10000) (/ 100000000) false 1 true [px 0; px (3 / 2)] = Some (Ok r).
Proof. rewrite start_boundary. eauto. Qed.

(* C123: a line that meets no cell is returned whole, whatever the options *)
Theorem C123_miss :
  forall (F : Type) (o : oracles F) ml tol ia fuel ib pts,
  pts <> [] ->
  (forall k a b, nth_error pts k = Some a -> nth_error pts (S k) = Some b -> find o a b = [] /\ far tol a b) ->
  crossings o ml tol ia fuel ib pts = Some (Ok (pts, seq 0 (length pts - 1), repeat (-1)%Z (length pts - 1))).
Proof. exact @miss_crossings. Qed.
Print Assumptions C123_miss.

Example C123_miss_example : forall k a b, nth_error [px 0; px 1; px 3] k = Some a -> nth_error [px 0; px 1; px 3] (S k) = Some b ->
  find (row []) a b = [] /\ far (/ 100000000) a b.
Proof.
  intros [|[|[|k]]] a b Ha Hb; cbn in Ha, Hb; try discriminate; injection Ha as <-; injection Hb as <-; (split; [reflexivity|]); apply far_px; num.
Qed.

(* C123: a line that starts on the boundary of the mesh and loses its first segment, which is in a cell *)
Theorem C123_boundary_refuted :
  exists xs a b ps ls cs,
  crossings (row xs) (/ 10000) (/ 100000000) false 1 false [px a; px b] = Some (Ok (px a :: ps, ls, cs)) /\
  right_labels xs (px a :: ps) cs /\ ~ In (-1)%Z cs /\
  exists ls' cs', crossings (row xs) (/ 10000) (/ 100000000) false 1 true [px a; px b] = Some (Ok (ps, ls', cs')).
Proof. exact @boundary_lost. Qed.
Print Assumptions C123_boundary_refuted.

(* C124: full statement: the last point of the line is the last point returned, unless it is ignored after the exit (false, below) *)
Theorem C124_row_partial :
  forall tol ml (ia ib : bool) (u v : list R) a b fuel,
  0 <= tol -> StronglySorted Rlt (u ++ v) -> (2 <= length u)%nat -> (3 <= length (u ++ v))%nat ->
  separated tol ml (a :: u ++ [b]) -> (forall x, In x v -> b <= x) -> (length u <= fuel)%nat -> ia = false \/ v <> [] ->
  exists ps ls cs, crossings (row (u ++ v)) ml tol ia fuel ib [px a; px b] = Some (Ok (ps ++ [px b], ls, cs)).
Proof. exact @row_last. Qed.
Print Assumptions C124_row_partial.

Example C124_example : StronglySorted Rlt ([0; 1; 2] ++ [3]) /\ separated (/ 100000000) (/ 10000) (-1 :: [0; 1; 2] ++ [5 / 2]).
Proof. exact row_example. Qed.

(* C124: a line inside a single cell is rejected *)
Theorem C124_inside_refuted :
  exists xs a b, 0 < a < b /\ right_label xs (px a) (px b) 0 /\
  forall fuel, intersect_polyline (D := nat) (row xs) (/ 10000) (/ 100000000) false (S fuel) false false (0, 0, 0) [[px a; px b]] [] = Some (Err ValueError).
Proof. exact @inside_refuted. Qed.
Print Assumptions C124_inside_refuted.

(* C125: full statement: the search of the cells always ends (false, below) *)
Theorem C125_row_partial :
  forall tol ml (ia ib : bool) (u v : list R) a b,
  0 <= tol -> StronglySorted Rlt (u ++ v) -> (2 <= length u)%nat -> (3 <= length (u ++ v))%nat ->
  separated tol ml (a :: u ++ [b]) -> (forall x, In x v -> b <= x) ->
  exists r, forall fuel, (length u <= fuel)%nat -> crossings (row (u ++ v)) ml tol ia fuel ib [px a; px b] = Some (Ok r).
Proof. exact @row_terminates. Qed.
Print Assumptions C125_row_partial.

Example C125_example : StronglySorted Rlt ([0; 1; 2] ++ [3]) /\ separated (/ 100000000) (/ 10000) (-1 :: [0; 1; 2] ++ [5 / 2]).
Proof. exact row_example. Qed.

(* C125: a cell thinner than the minimum length, in which a line that ends beyond it never stops *)
Theorem C125_refuted :
  exists xs a b c, StronglySorted Rlt xs /\
  forall fuel, crossings (row xs) (/ 10000) (/ 100000000) false fuel false [px a; px b; px c] = None.
Proof. exact @thin_refuted. Qed.
Print Assumptions C125_refuted.
