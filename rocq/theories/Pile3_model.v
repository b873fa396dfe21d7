(* Model of the class MeshStack2D as a sequence of calls (core/stack.py:23-93, core/_base.py:278-429), without transitions. *)
From Coq Require Import Reals.
From Verif Require Export Pile_model Input_model.
From Verif Require Import Lines_model.
Open Scope nat_scope.

(* core/_helpers.py:150-152: ids of the first line of line.strip(join=True).  vtkStripper joins cells that follow each
   other; exact for the cells made by split_lines and lines_from_points, one after the other. *)
Fixpoint strip_join (cells : list (list nat)) : list nat :=
  match cells with
  | [] => []
  | c :: rest =>
      match rest with
      | (b :: _) :: _ => if last c 0 =? b then removelast c ++ strip_join rest else c
      | _ => c
      end
  end.

(* core/_base.py:304 for the line of core/stack.py:60-71: a polydata as it is used by the stack.  split_lines makes a new
   polydata (utils/_misc.py:1465-1478): its user_dict is empty and the arrays of cells are copied, with the groups and the
   ghost flags among them. *)
Definition line_base {D} (int : D -> Z) (l : lmesh pt D) : lbase D :=
  mkLbase (mkLine (l_pts l) (strip_join (l_cells l)) (l_pd l)
             (filter (fun kv => negb (String.eqb (fst kv) "vtkGhostType")) (l_cd l))
             (option_map (map (fun x => Z.to_nat (int x))) (Lines_model.get "vtkGhostType" (l_cd l))))
          (length (l_cells l)) (option_map (map int) (Lines_model.get "CellGroup" (l_cd l))) None.

(* MeshStack2D(mesh, axis, bottom_up, ...).add(...) ... .generate_mesh() *)
Definition stack2d_program {D} (num : Z -> D) (int : D -> Z) (areas : shape3 -> list pt -> list R)
  (interpolate : list pt -> list pt -> res (list R)) (o : options) (axis : Z) (bottom_up : bool)
  (arg : list R + lmesh pt D) (l : list st_call) : res (sgrid D * dict) :=
  let! line := stack2d_line (Z.to_nat axis) arg in                           (* core/stack.py:58-71 *)
  let! ma := stack_init (line_base int line) None axis in                    (* 73 *)
  let '(mesh, ax) := ma in
  let! st := stack_calls (lops num) ax bottom_up interpolate (mkStack mesh [] false) l in
  let! r := stack2d_mesh num int areas o ax bottom_up (st_items st) in
  let '(g, labels, _) := r in Ok (g, labels).
