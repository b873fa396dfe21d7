(* Vocabulary of programs of VoronoiMesh2D: what each call leaves behind. *)
From Coq Require Import Reals.
From Verif Require Import Prelude Perc_model Grid Surface_model Volume_model Groups_model Lines_spec Lines_model Groups_spec
  Voronoi_model Objects_model Objects_spec Seeds_model Seeds_spec VProg_model.
Open Scope R_scope.

(* a row of two or three coordinates and its point *)
Inductive row_point (axis : nat) : list R -> pt -> Prop :=
| row_two u v : row_point axis [u; v] (embed axis (u, v))
| row_three x y z : row_point axis [x; y; z] (x, y, z).

(* center of the ball in which cells are fused, a center of two coordinates being in the plane of the mesh *)
Inductive ball_center (axis : nat) : option (list R) -> pt -> Prop :=
| ball_none : ball_center axis None (0, 0, 0)
| ball_row row p : row_point axis row p -> ball_center axis (Some row) p.
Definition in_ball (ball : pt * R) (p : pt) : bool :=
  if Rlt_dec (dist3 (fst ball) p) (snd ball) then true else false.

(* cells between consecutive angles *)
Definition turns (axis : nat) (p : list R) (f : R -> R -> list pt) : list (list pt) :=
  map (fun tt' => map (in_plane axis) (f (360 * fst tt') (360 * snd tt'))) (combine p (tl p)).

(* items of a circle: its sectors or, when the constraint radius is larger, sectors and a ring inside
   the circle, then a ring outside *)
Inductive circle_items (axis : nat) (c : pt) (radius cr : R) (p : list R) (prio : Z) (group : string)
  : list (vitem (list pt)) -> Prop :=
| ci_one : cr = radius ->
    circle_items axis c radius cr p prio group
      [mkVI (mkG (turns axis p (pie c radius)) None None) false group prio]
| ci_two cells : radius < cr ->
    let pies := turns axis p (pie c (2 * radius - cr)) in
    let rings := turns axis p (ring c (2 * radius - cr) radius) in
    cells = pies ++ rings \/ cells = rings ++ pies ->
    circle_items axis c radius cr p prio group
      [mkVI (mkG cells (Some (repeat 0%Z (length cells))) (Some [("default"%string, 0%Z)])) false group prio;
       mkVI (mkG (turns axis p (ring c radius cr)) None None) false "" 0%Z].

(* the items and the balls left by a call *)
Inductive leaves {D} (axis : nat) : vcall D -> list (vitem (list pt)) -> list (pt * R) -> Prop :=
| lv_mesh m poly prio group :
    leaves axis (CallMesh m poly prio group)
      [mkVI (mkG (map (map (in_plane axis)) (gm_cells m)) (gm_cg m) (gm_labels m)) poly group prio] []
| lv_points rows ps prio group : Forall2 (row_point axis) rows ps ->
    leaves axis (CallPoints rows prio group)
      [mkVI (mkG (map (fun p => [in_plane axis p]) ps) None None) true group prio] []
| lv_circle radius arg cr res center p c q plain prio group its :
    constraint_of radius arg cr -> 0 < radius -> radius <= cr < 2 * radius ->
    subdivides (mkSub res None) p -> (2 <= length p)%nat -> offset center c -> ball_center axis center q ->
    circle_items axis c radius cr p prio group its ->
    leaves axis (CallCircle radius arg res center plain prio group) its (if plain : bool then [(q, radius)] else [])
| lv_line arg width pref padding cs ce res prio group ls p P its :
    polylines arg ls -> Forall (fun l => (2 <= length l)%nat) ls ->
    subdivides (mkSub res None) p -> (2 <= length p)%nat -> widened p P ->
    drawn_all (fun l => draws axis width pref padding cs ce P l (match prio with Some z => z | None => 0%Z end) group) ls its ->
    Forall (fun it => gm_cg (vi_mesh it) = None) its ->
    leaves axis (CallLine arg width pref padding cs ce res prio group) its [].

(* those of a program, in order *)
Inductive program_leaves {D} (axis : nat) : list (vcall D) -> list (vitem (list pt)) -> list (pt * R) -> Prop :=
| pl_nil : program_leaves axis [] [] []
| pl_cons c calls its balls its' balls' : leaves axis c its balls -> program_leaves axis calls its' balls' ->
    program_leaves axis (c :: calls) (its ++ its') (balls ++ balls').

(* the lines of polydatas are well formed, the groups of meshes number their cells, and groups are plain names *)
Definition proper {D} (c : vcall D) : Prop :=
  match c with
  | CallMesh m _ _ group => aligned m /\ plain group
  | CallPoints _ _ group => plain group
  | CallCircle _ _ _ _ _ _ group => plain group
  | CallLine arg _ _ _ _ _ _ _ group =>
      match arg with inl _ => True | inr m => wf_lines m end /\ plain group
  end.
