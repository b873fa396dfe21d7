(* Model of ray_cast (utils/_misc.py:1159-1252) and intersect_polyline (676-888). *)
From Coq Require Import Reals.
From Verif Require Export Prelude.
From Verif Require Import RealAux Perc_model Surface_model Volume_model Lines_model Objects_model.
Open Scope R_scope.
Local Notation norm := Objects_model.norm.

(* np.sort of an array of ids *)
Fixpoint id_insert (x : nat) (l : list nat) : list nat :=
  match l with
  | [] => [x]
  | y :: l' => if (x <=? y)%nat then x :: l else y :: id_insert x l'
  end.
Definition id_sort (l : list nat) : list nat := fold_right id_insert [] l.

(* ---- ray_cast ---- *)

(* The polydata that is cast on: its faces (center and unit normal) and its lines, of two points.
   It is the argument if that is a PolyData, else the result of extract_cell_geometry. *)
Record surface := mkSurf { su_faces : list (pt * pt); su_lines : list (pt * pt) }.

(* 1231-1235, 1244: x / 0 is NaN or infinite: None *)
Definition divide (x y : R) : option R := if Req_EM_T y 0 then None else Some (x / y).

(* 1212 *)
Definition direction (a b : pt) : pt := scale (/ norm (sub3 a b)) (sub3 a b).

(* 1216-1221: the face makes an angle less than max_angle (degrees) with the ray *)
Definition angle_ok (max_angle : R) (d : pt) (f : pt * pt) : bool :=
  Rltb (180 / PI * acos (Rabs (dot (snd f) d))) max_angle.

(* 1230-1235 *)
Definition on_face (a d : pt) (f : pt * pt) : option pt :=
  match divide (dot (sub3 (fst f) a) (snd f)) (dot d (snd f)) with
  | Some t => Some (add3 a (scale t d))
  | None => None
  end.

(* 1238-1245; a line of length zero gives NaN *)
Definition on_line (a d : pt) (e : pt * pt) : option pt :=
  let '(p, q) := e in
  if Req_EM_T (norm (sub3 q p)) 0 then None else
  let v := scale (/ norm (sub3 q p)) (sub3 q p) in
  let c := cross v d in
  match divide (dot (cross (sub3 p a) d) c) (norm c * norm c) with
  | Some t => Some (sub3 p (scale t v))
  | None => None
  end.

(* 1159-1252.  [poly]: the argument is a PolyData.  [find]: the ids of the cells that the segment meets
   (VTK).  [orig]: row of original ids of each face of the extracted geometry.  Result: for each cell
   retained, its id, its intersection point and its row of original ids. *)
Definition ray_cast {A} (poly : bool) (s : surface) (orig : list A) (find : pt -> pt -> list nat)
  (own : nat -> A) (a b : pt) (tolerance : R) (max_angle : option R)
  : res (option (list (nat * option pt * A))) :=
  let faces := negb (length (su_faces s) =? 0)%nat in
  if (poly && faces && negb (length (su_lines s) =? 0)%nat)%bool then Err ValueError else  (* 1191-1194 *)
  let ids := id_sort (find a b) in                                              (* 1206-1211 *)
  let d := direction a b in                                                     (* 1212 *)
  if (length ids =? 0)%nat then Ok None else
  let! kept :=
    if faces then
      let limit := match max_angle with Some m => m | None => 90 - tolerance end in
      let! fs := mapM (fun i => let! f := at_res (su_faces s) i in Ok (i, f)) ids in
      Ok (map (fun jf => (fst jf, on_face a d (snd jf))) (filter (fun jf => angle_ok limit d (snd jf)) fs))
    else
      let! es := mapM (fun i => let! e := at_res (su_lines s) i in Ok (i, e)) ids in
      Ok (map (fun je => (fst je, on_line a d (snd je))) es) in
  if (length kept =? 0)%nat then Ok None else
  let! rows := mapM (fun jx => let! r := if poly then Ok (own (fst jx)) else at_res orig (fst jx) in
                               Ok (fst jx, snd jx, r)) kept in
  Ok (Some rows).

(* ---- intersect_polyline ---- *)

(* np.allclose(p, q, atol=tol): the default relative tolerance 1e-5 remains *)
Definition close1 (tol x y : R) : bool := Rleb (Rabs (x - y)) (tol + / 100000 * Rabs y).
Definition close (tol : R) (p q : pt) : bool :=
  let '(x, y, z) := p in let '(x', y', z') := q in
  (close1 tol x x' && close1 tol y y' && close1 tol z z')%bool.

(* local variables: points, line_ids, cell_ids, mesh_entered, mesh_exited, count, and the current cell *)
Record trail := mkT { tr_pts : list pt; tr_lines : list nat; tr_cells : list Z;
                      tr_in : bool; tr_out : bool; tr_count : nat; tr_cell : option Z }.
Definition last_pt (t : trail) : pt := last (tr_pts t) origin.

(* 726-736 *)
Definition add_point (tol min_length : R) (t : trail) (p : pt) (l : nat) (c : Z) : trail :=
  if close tol (last_pt t) p then t
  else if (negb (tr_in t) || tr_out t || Rleb min_length (norm (sub3 p (last_pt t))))%bool then
    mkT (tr_pts t ++ [p]) (tr_lines t ++ [l]) (tr_cells t ++ [c]) (tr_in t) (tr_out t) (tr_count t) (tr_cell t)
  else t.

Definition enter (t : trail) : trail :=
  mkT (tr_pts t) (tr_lines t) (tr_cells t) true (tr_out t) (tr_count t) (tr_cell t).
Definition counted (t : trail) : trail :=
  mkT (tr_pts t) (tr_lines t) (tr_cells t) (tr_in t) (tr_out t) (length (tr_pts t)) (tr_cell t).
Definition leave (t : trail) : trail :=
  mkT (tr_pts t) (tr_lines t) (tr_cells t) (tr_in t) true (tr_count t) (tr_cell t).
Definition move (c : Z) (t : trail) : trail :=
  mkT (tr_pts t) (tr_lines t) (tr_cells t) (tr_in t) (tr_out t) (tr_count t) (Some c).

(* What VTK and SciPy answer.  F: a face. *)
Record oracles (F : Type) := mkO {
  find : pt -> pt -> list nat;                     (* cells that a segment meets *)
  center : nat -> pt;                              (* center of a cell *)
  cast : Z -> pt -> pt -> option (list (pt * F));  (* ray_cast on one cell: points and faces *)
  sides : F -> list Z;                             (* ids of the cells on both sides of the face whose
                                                      center is the nearest; -1 for none.  Only one id
                                                      if no face has two cells: the array has one column,
                                                      read back from VTK as a flat array of numbers *)
  contains : Z -> pt -> bool }.                    (* find_containing_cell(...) > -1 *)
Arguments find {F}. Arguments center {F}. Arguments cast {F}. Arguments sides {F}. Arguments contains {F}.

Section intersect.
Context {F : Type}.
Variable (o : oracles F).
Variables (min_length tolerance : R) (ignore_after : bool).
Notation add := (add_point tolerance min_length).

(* 744-755: first cell with the least distance of its center to pointa *)
Fixpoint nearest (a : pt) (best : nat) (ids : list nat) : nat :=
  match ids with
  | [] => best
  | i :: ids' => nearest a (if Rltb (norm (sub3 (center o i) a)) (norm (sub3 (center o best) a)) then i else best) ids'
  end.
Definition first_cell (a b : pt) : option Z :=
  match id_sort (find o a b) with
  | [] => None
  | i :: ids => Some (Z.of_nat (nearest a i ids))
  end.

(* 827-862: the line leaves cell cid by face f at x; true: the loop goes on *)
Definition through (lid : nat) (final : bool) (b last : pt) (t : trail) (cid : Z) (x : pt) (f : F)
  : res (bool * trail) :=
  let t := add t x lid cid in                                                    (* 827-829 *)
  if Rltb (norm (sub3 x last)) min_length then Ok (false, t) else                (* 833-840 *)
  let cells := sides o f in                                                      (* 843-844 *)
  if (length cells =? 1)%nat then Err TypeError else                             (* 846: no container *)
  if negb (existsb (Z.eqb cid) cells) then Err ValueError else                   (* 846-847 *)
  if existsb (Z.eqb (-1)) cells then                                             (* 849-854 *)
    Ok (false, leave (if ignore_after then t else add t b lid (-1)%Z))
  else
    match filter (fun c => negb (Z.eqb c cid)) cells with                        (* 856 *)
    | [] => Err IndexError
    | c :: _ =>
        let t := move c t in
        if (final && contains o c b)%bool then Ok (false, add t b lid c)         (* 860-862 *)
        else Ok (true, t)
    end.

(* 759-862: one turn of the loop *)
Definition turn (lid : nat) (final : bool) (a b last : pt) (t : trail) : res (bool * trail) :=
  match tr_cell t with
  | None => Err TypeError   (* unreachable: a cell has been found *)
  | Some cid =>
      match cast o cid a b with
      | None => Ok (false, t)                                                    (* 770-771 *)
      | Some [(x, f)] =>                                                         (* 774-801 *)
          if negb (tr_in t) then
            let t := add (enter (counted t)) x lid (-1)%Z in
            if (1 <? tr_count t)%nat then Ok (false, t)
            else through lid final b last t cid x f
          else if close tolerance (last_pt t) x then Ok (false, add t x lid cid)
          else through lid final b last t cid x f
      | Some [(x, f); (y, g)] =>                                                 (* 804-821 *)
          let dx := norm (sub3 x (last_pt t)) in
          let dy := norm (sub3 y (last_pt t)) in
          let near := if Rleb dx dy then x else y in
          let t := if negb (tr_in t) then enter (add (counted t) near lid (-1)%Z) else t in
          if Rleb dy dx then through lid final b last t cid x f
          else through lid final b last t cid y g
      | Some _ => Err ValueError                                                 (* 824-825 *)
      end
  end.

(* None: the loop has not ended after [fuel] turns *)
Fixpoint walk (fuel : nat) (lid : nat) (final : bool) (a b last : pt) (t : trail) : option (res trail) :=
  match fuel with
  | O => None
  | S fuel' =>
      match turn lid final a b last t with
      | Ok (true, t') => walk fuel' lid final a b last t'
      | Ok (false, t') => Some (Ok t')
      | Err e => Some (Err e)
      end
  end.

(* 741-868, segments number lid and following; n: number of segments *)
Fixpoint segments (fuel n lid : nat) (last : pt) (t : trail) (pts : list pt) : option (res trail) :=
  match pts with
  | a :: ((b :: _) as pts') =>
      match match tr_cell t with Some c => Some c | None => first_cell a b end with
      | None => segments fuel n (S lid) last (add t b lid (-1)%Z) pts'           (* 746-748 *)
      | Some c =>
          let t := move c t in
          if negb (tr_out t) then                                                (* 758 *)
            match walk fuel lid (S lid =? n)%nat a b last t with
            | Some (Ok t') => segments fuel n (S lid) last t' pts'
            | r => r
            end
          else if ignore_after then Some (Ok t)                                  (* 865-866 *)
          else segments fuel n (S lid) last (add t b lid (-1)%Z) pts'            (* 868 *)
      end
  | _ => Some (Ok t)
  end.

(* 721-873: points and labels of the segments *)
Definition crossings (fuel : nat) (ignore_before : bool) (pts : list pt)
  : option (res (list pt * list nat * list Z)) :=
  match pts with
  | [] => Some (Err IndexError)
  | p :: _ =>
      match segments fuel (length pts - 1) 0 (last pts origin) (mkT [p] [] [] false false 0 None) pts with
      | None => None
      | Some (Err e) => Some (Err e)
      | Some (Ok t) =>
          let k := if ignore_before then tr_count t else 0%nat in                (* 870-873 *)
          Some (Ok (skipn k (tr_pts t), skipn k (tr_lines t), skipn k (tr_cells t)))
      end
  end.

(* 676-888.  [lines]: the polylines of line.strip(); [center]: of the mesh, the oracles being those of
   the translated mesh; [data]: cell data of the line.  Result: points, line and cell ids of the segments
   and the data passed.  compute_cell_sizes (the array Length) is not modelled further. *)
Definition intersect_polyline {D} (fuel : nat) (ignore_before pass : bool) (c : pt) (lines : list (list pt))
  (data : list (string * list D)) : option (res (list pt * list nat * list Z * list (string * list D))) :=
  match lines with
  | [] => Some (Err IndexError)
  | pts :: _ =>
      match crossings fuel ignore_before (map (fun p => sub3 p c) pts) with
      | None => None
      | Some (Err e) => Some (Err e)
      | Some (Ok (ps, ls, cs)) =>
          Some (let! ps := multiple_lines ps in                                  (* 875 *)
                let! d := if pass then mapM (fun kv => let! v := take (snd kv) ls in Ok (fst kv, v))
                            (filter (fun kv => negb (existsb (String.eqb (fst kv))
                               ["Length"; "vtkOriginalCellIds"; "IntersectedCellIds"]%string)) data)
                          else Ok [] in                                          (* 881-886 *)
                Ok (map (fun p => add3 p c) ps, ls, cs, d))
      end
  end.
End intersect.
