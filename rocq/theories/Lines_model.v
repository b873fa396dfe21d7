(* Model of split_lines, merge_lines, quadraticize, reconstruct_line, decimate_rdp and
   average_points (utils/_misc.py). *)
From Coq Require Import Reals.
From Verif Require Export Prelude.
From Verif Require Import Surface_model.
Open Scope nat_scope.

(* A polydata of lines: points, ids of its LINE and POLY_LINE cells (after
   extract_cells_by_type, 1447-1450), point and cell data.  D is the type of a row. *)
Record lmesh (P D : Type) := mkL {
  l_pts : list P; l_cells : list (list nat);
  l_pd : list (string * list D); l_cd : list (string * list D) }.
Arguments mkL {P D}. Arguments l_pts {P D}. Arguments l_cells {P D}.
Arguments l_pd {P D}. Arguments l_cd {P D}.

(* v[i] and v[ids] *)
Definition at_res {A} (v : list A) (i : nat) : res A :=
  match nth_error v i with Some x => Ok x | None => Err IndexError end.
Definition take {A} (v : list A) (ids : list nat) : res (list A) := mapM (at_res v) ids.

(* np.column_stack((ids[:-1], ids[1:])) as cells of two points *)
Definition segments (ids : list nat) : list (list nat) := map2 (fun a b => [a; b]) ids (tl ids).

(* utils/_misc.py:1454-1480, for line number i *)
Definition split_line {P D} (as_lines : bool) (m : lmesh P D) (i : nat) (ids : list nat)
  : res (lmesh P D) :=
  let n := length ids in
  let cells := if as_lines then segments (seq 0 n) else [seq 0 n] in        (* 1454-1465 *)
  let! pts := take (l_pts m) ids in
  let! pd := mapM (fun kv => let! v := take (snd kv) ids in Ok (fst kv, v)) (l_pd m) in
  let! cd := mapM (fun kv => let! x := at_res (snd kv) i in
                             Ok (fst kv, repeat x (length cells))) (l_cd m) in
  Ok (mkL pts cells pd cd).

(* utils/_misc.py:1427-1482 *)
Definition split_lines {P D} (as_lines : bool) (m : lmesh P D) : res (list (lmesh P D)) :=
  mapM (fun x => split_line as_lines m (fst x) (snd x))
       (combine (seq 0 (length (l_cells m))) (l_cells m)).

Definition get {D} (k : string) (d : list (string * list D)) : option (list D) :=
  option_map snd (find (fun kv => String.eqb k (fst kv)) d).
Definition get_res {D} (d : list (string * list D)) (k : string) : res (list D) :=
  match get k d with Some v => Ok v | None => Err KeyError end.

(* utils/_misc.py:1015-1021: keys of the first that are in all others *)
Definition common_keys {D} (ds : list (list (string * list D))) : list string :=
  match ds with
  | [] => []
  | d :: ds' => filter (fun k => forallb (fun d' => existsb (fun kv => String.eqb k (fst kv)) d') ds')
                       (map fst d)
  end.

(* utils/_misc.py:1028-1039: cells of the merged lines *)
Fixpoint merged_cells {P D} (as_lines : bool) (offset : nat) (ls : list (lmesh P D)) : list (list nat) :=
  match ls with
  | [] => []
  | l :: ls' =>
      let n := length (l_pts l) in
      let ids := seq offset n in
      (if as_lines then segments ids else [ids]) ++ merged_cells as_lines (offset + n) ls'
  end.

(* utils/_misc.py:991-1063; the final merge_points() of VTK is not modelled.  The data of a
   line of [split_lines as_lines=False] has one row per line. *)
Definition merge_lines {P D} (as_lines : bool) (ms : list (lmesh P D)) : res (lmesh P D) :=
  match ms with
  | [] => Err IndexError                                                    (* lines[0] *)
  | _ =>
      let pk := common_keys (map l_pd ms) in
      let ck := common_keys (map l_cd ms) in
      let! lss := mapM (split_lines false) ms in
      let ls := concat lss in
      match ls with
      | [] => Err ValueError                                                (* np.concatenate([]) *)
      | _ =>
          let! pd := mapM (fun k => let! vs := mapM (fun l => get_res (l_pd l) k) ls in
                                    Ok (k, concat vs)) pk in
          let! cd := mapM (fun k => let! vs := mapM (fun l =>
                        let! v := get_res (l_cd l) k in
                        Ok (if as_lines then tile v (length (l_pts l) - 1) else v)) ls in
                                    Ok (k, concat vs)) ck in
          Ok (mkL (concat (map l_pts ls)) (merged_cells as_lines 0 ls) pd cd)
      end
  end.

(* ---- quadraticize (1485-1524) ---- *)
Open Scope R_scope.
Definition mid (p q : pt) : pt :=
  let '(x, y, z) := p in let '(x', y', z') := q in
  (1 / 2 * (x + x'), 1 / 2 * (y + y'), 1 / 2 * (z + z')).
Open Scope nat_scope.

Definition roll_left {A} (l : list A) : list A := match l with [] => [] | x :: l' => l' ++ [x] end.

Definition quadratic_type (t : nat) : option nat :=
  match t with 5 => Some 22 | 9 => Some 23 | _ => None end.

(* 1505-1518 *)
Fixpoint quad_cells (points : list pt) (n : nat) (cells : list (nat * list nat))
  : res (list (nat * list nat) * list pt) :=
  match cells with
  | [] => Ok ([], [])
  | (t, ids) :: cells' =>
      match quadratic_type t with
      | None => Err NotImplementedError                                    (* 1506-1507 *)
      | Some t' =>
          let! ps := take points ids in
          let new := map2 mid ps (roll_left ps) in
          let! r := quad_cells points (n + length new) cells' in
          Ok ((t', ids ++ seq n (length new)) :: fst r, new ++ snd r)
      end
  end.

Definition quadraticize (points : list pt) (cells : list (nat * list nat))
  : res (list pt * list (nat * list nat)) :=
  match cells with
  | [] => Err ValueError                                                    (* np.concatenate([]) *)
  | _ => let! r := quad_cells points (length points) cells in
         Ok (points ++ snd r, fst r)
  end.

(* ---- reconstruct_line (1255-1330) ---- *)
Open Scope R_scope.
Definition norm (p : pt) : R := let '(x, y, z) := p in sqrt (x * x + y * y + z * z).
Definition minus (p q : pt) : pt :=
  let '(x, y, z) := p in let '(x', y', z') := q in (x - x', y - y', z - z').
Definition times (p q : pt) : pt :=
  let '(x, y, z) := p in let '(x', y', z') := q in
  (y * z' - z * y', z * x' - x * z', x * y' - y * x').

(* np.linalg.norm(np.diff(points, axis=0), axis=1).sum() *)
Fixpoint chain_length (ps : list pt) : R :=
  match ps with
  | p :: ((q :: _) as ps') => norm (minus q p) + chain_length ps'
  | _ => 0
  end.

Definition point (points : list pt) (i : nat) : pt := nth i points (0, 0, 0).

(* 1290-1294; path[0] of an empty path is an IndexError, excluded below *)
Definition path_length (points : list pt) (close : bool) (path : list nat) : R :=
  chain_length (map (point points)
    (if close then path ++ match path with [] => [] | i :: _ => [i] end else path)).

(* path[first:last] = np.flip(path[first:last]) *)
Definition flip {A} (first last : nat) (path : list A) : list A :=
  firstn first path ++ rev (firstn (last - first) (skipn first path)) ++ skipn last path.

(* the pairs (first, last) of 1305-1306 *)
Definition blocks (n : nat) : list (nat * nat) :=
  flat_map (fun first => map (fun last => (first, last)) (seq (first + 2) (n + 1 - (first + 2))))
           (seq 1 (n - 2 - 1)).

(* 1307-1318: path is always the shortest path found so far *)
Definition try_flip (points : list pt) (close : bool) (path : list nat) (b : nat * nat) : list nat :=
  let path' := flip (fst b) (snd b) path in
  if Rlt_dec (path_length points close path') (path_length points close path) then path' else path.

Definition one_pass (points : list pt) (close : bool) (path : list nat) : list nat :=
  fold_left (try_flip points close) (blocks (length points)) path.

(* 1302-1321: while True, with fuel; None: the loop has not ended *)
Fixpoint opt_loop (fuel : nat) (points : list pt) (close : bool) (tol : R) (path : list nat)
  : option (list nat) :=
  match fuel with
  | O => None
  | S fuel' =>
      let path' := one_pass points close path in
      if Rlt_dec ((1 - tol) * path_length points close path) (path_length points close path')
      then Some path'
      else opt_loop fuel' points close tol path'
  end.

(* np.roll(np.arange(n), -start) *)
Definition roll_start (n : nat) (start : Z) : list nat :=
  map (fun i => Z.to_nat ((Z.of_nat i + start) mod Z.of_nat n)) (seq 0 n).

(* the ids of the points of the line *)
Definition reconstruct_line (fuel : nat) (points : list pt) (start : Z) (close : bool) (tol : R)
  : option (res (list nat)) :=
  match points, close with
  | [], true => Some (Err IndexError)                                       (* path[0] *)
  | _, _ => option_map Ok (opt_loop fuel points close tol (roll_start (length points) start))
  end.

(* ---- decimate_rdp (99-151) ---- *)
(* dist.argmax(): first index of the largest value *)
Fixpoint argmax_from (l : list R) (i : nat) (best : R) (ibest : nat) : nat * R :=
  match l with
  | [] => (ibest, best)
  | x :: l' => if Rlt_dec best x then argmax_from l' (S i) x i else argmax_from l' (S i) best ibest
  end.

(* 120-126: distances to the line through the ends, or to the end when they coincide *)
Definition rdp_dist (p0 p1 p : pt) : R :=
  let u := minus p1 p0 in
  if Rlt_dec 0 (norm u) then norm (times u (minus p0 p)) / norm u else norm (minus p p0).

(* 117-137; fuel: running out of it is a RecursionError *)
Fixpoint rdp (fuel : nat) (tol : R) (points : list pt) : res (list pt) :=
  match fuel with
  | O => Err RecursionError
  | S fuel' =>
      match points with
      | [] => Err IndexError                                                (* points[-1] *)
      | p0 :: _ =>
          let p1 := last points p0 in
          let '(imax, d) := argmax_from (tl (map (rdp_dist p0 p1) points)) 1 (rdp_dist p0 p1 p0) 0 in
          if Rlt_dec tol d then
            let! r1 := rdp fuel' tol (firstn (imax + 1) points) in
            let! r2 := rdp fuel' tol (skipn imax points) in
            Ok (removelast r1 ++ r2)
          else Ok [p0; p1]
      end
  end.

(* 139-149: points and lines of the result; clean() of VTK is not modelled.
   3 is LINE, 4 is POLY_LINE; other cells are dropped. *)
Fixpoint rdp_lines (fuel : nat) (tol : R) (points : list pt) (offset : nat) (cells : list (nat * list nat))
  : res (list pt * list (list nat)) :=
  match cells with
  | [] => Ok ([], [])
  | (t, ids) :: cells' =>
      if ((t =? 3) || (t =? 4))%nat then
        let! ps := take points ids in
        let! ps' := if (t =? 4)%nat then rdp fuel tol ps else Ok ps in
        let! r := rdp_lines fuel tol points (offset + length ps') cells' in
        Ok (ps' ++ fst r, seq offset (length ps') :: snd r)
      else rdp_lines fuel tol points offset cells'
  end.
Definition decimate_rdp (fuel : nat) (tol : R) (points : list pt) (cells : list (nat * list nat))
  : res (list pt * list (list nat)) := rdp_lines fuel tol points 0 cells.

(* ---- average_points (18-96) ---- *)
Open Scope nat_scope.
(* group_map as an association list, latest first *)
Definition lookup (i : nat) (gm : list (nat * nat)) : option nat :=
  option_map snd (find (fun x => fst x =? i) gm).

(* 44-69: one pair of KDTree.query_pairs *)
Definition add_pair (st : list (list nat) * list (nat * nat)) (ij : nat * nat)
  : list (list nat) * list (nat * nat) :=
  let '(groups, gm) := st in
  let '(i, j) := ij in
  match lookup i gm, lookup j gm with
  | Some gi, None => (upd gi (nth gi groups [] ++ [j]) groups, (j, gi) :: gm)
  | None, Some gj => (upd gj (nth gj groups [] ++ [i]) groups, (i, gj) :: gm)
  | Some gi, Some gj =>
      if gi =? gj then (groups, gm)
      else (upd gj [] (upd gi (nth gi groups [] ++ nth gj groups []) groups),
            map (fun k => (k, gi)) (nth gj groups []) ++ gm)
  | None, None => (groups ++ [[i; j]], (i, length groups) :: (j, length groups) :: gm)
  end.

Definition build_groups (pairs : list (nat * nat)) : list (list nat) := fst (fold_left add_pair pairs ([], [])).

Open Scope R_scope.
Definition mean_pts (ps : list pt) : pt :=
  let n := INR (length ps) in
  let sx := fold_right (fun '(x, _, _) acc => x + acc) 0 ps in
  let sy := fold_right (fun '(_, y, _) acc => y + acc) 0 ps in
  let sz := fold_right (fun '(_, _, z) acc => z + acc) 0 ps in
  (sx / n, sy / n, sz / n).
Open Scope nat_scope.

(* 71-79: point_map[group] = group[0] and new_points[group[0]] = points[group].mean() *)
Definition apply_group (points : list pt) (st : list nat * list pt) (group : list nat) : list nat * list pt :=
  match group with
  | [] => st
  | g0 :: _ => (fold_left (fun m i => upd i g0 m) group (fst st),
                upd g0 (mean_pts (map (point points) group)) (snd st))
  end.

Definition average_map (points : list pt) (pairs : list (nat * nat)) : list nat * list pt :=
  fold_left (apply_group points) (build_groups pairs) (seq 0 (length points), points).

(* 37-41: cell[np.insert(np.diff(cell), 0, 1) != 0], then the last vertex when it is the first *)
Fixpoint uniq_from (prev : nat) (l : list nat) : list nat :=
  match l with
  | [] => []
  | x :: l' => if x =? prev then uniq_from prev l' else x :: uniq_from x l'
  end.
Definition decimate_face (cell : list nat) : res (list nat) :=
  match cell with
  | [] => Err IndexError
  | x :: l =>
      let c := x :: uniq_from x l in
      Ok (if x =? last c x then removelast c else c)
  end.

(* 18-96: points, faces with the index of the original face; clean() of VTK not modelled *)
Definition average_points (points : list pt) (faces : list (list nat)) (n_lines : nat)
  (pairs : list (nat * nat)) : res (list pt * list (nat * list nat)) :=
  let '(pm, pts) := average_map points pairs in
  let! fs := mapM (fun f => let! f' := take pm f in decimate_face f') faces in   (* 82-84 *)
  if 0 <? n_lines then Err NotImplementedError                                   (* 93-94 *)
  else Ok (pts, filter (fun x => 2 <? length (snd x)) (combine (seq 0 (length fs)) fs)).
