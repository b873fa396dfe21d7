(* Model of load_anticline_2d (examples/examples.py:9-33). *)
From Coq Require Import Reals.
From Verif Require Export Perc_model Surface_model Stack_model Final_model.
Open Scope R_scope.

Section Anticline.
Context {D : Type} (num : Z -> D) (int : D -> Z) (areas : shape3 -> list pt -> list R).
Context (interpolate : list pt -> list pt -> res (list R)).   (* self._interpolate, not reached *)
Context (arrays : list (string * list D)).                    (* point data of pv.Line *)

(* examples/examples.py:22 and core/stack.py:71: pv.Line makes equally spaced points along one polyline, split_lines
   cuts it in segments and keeps the point data *)
Definition anticline_line : lbase D :=
  mkLbase (mkLine (map (fun x => (x, 0, 0)) (linspace (-314 / 100) (314 / 100) 42)) (seq 0 42) arrays [] None) 41 None None.

(* examples/examples.py:22-28: add, with its defaults (core/_base.py:308-317) *)
Definition add_layer (st : stack (lbase D)) (arg : add_arg) (r : resolution) (group : group_arg nat) : res (stack (lbase D)) :=
  stack_add (lops num) 2 true interpolate st arg (mkAdd r None 0%Z 0 group).

(* examples/examples.py:21-30; the crest is np.cos(x) + 1.0 *)
Definition anticline_stack (line : lbase D) : res (stack (lbase D)) :=
  let! st := add_layer (mkStack line [] false) (ArgScalar 0) ResNone GNone in
  let! st := add_layer st (ArgCall (fun x y z => cos x + 1)) (ResInt 4) (GStr "Layer 1") in
  let! st := add_layer st (ArgScalar (1 / 2)) (ResInt 2) (GStr "Layer 2") in
  let! st := add_layer st (ArgScalar (1 / 2)) (ResInt 2) (GStr "Layer 3") in
  let! st := add_layer st (ArgScalar (1 / 2)) (ResInt 2) (GStr "Layer 4") in
  add_layer st (ArgCall (fun x y z => 34 / 10)) (ResInt 4) (GStr "Layer 5").

Definition load_anticline_2d : res (sgrid D * dict) :=
  let! st := anticline_stack anticline_line in
  let! q := stack2d_mesh num int areas (mk_options "" []) 2 true (st_items st) in
  let '(g, labels, _) := q in Ok (g, labels).
End Anticline.
