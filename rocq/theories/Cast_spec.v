(* Vocabulary of the properties of ray_cast and intersect_polyline. *)
From Coq Require Import Reals Sorted.
From Verif Require Import Prelude RealAux Surface_model Volume_model Objects_model Cast_model.
From Verif Require Export Vec_spec.
Open Scope R_scope.

(* x is on the line through a and b *)
Definition on_ray (a b x : pt) : Prop := exists t, x = vline t a b.
(* x is in the plane of the face *)
Definition on_plane (f : pt * pt) (x : pt) : Prop := vinner (vminus x (fst f)) (snd f) = 0.

(* the angle between the ray and the normal of the face is less than m degrees, either way *)
Definition faces_ray (m : R) (a b : pt) (f : pt * pt) : Prop :=
  exists theta, 0 <= theta <= PI / 2 /\ theta * 180 < m * PI /\
    Rabs (vinner (snd f) (vminus a b)) = cos theta * sqrt (vinner (vminus a b) (vminus a b)).

(* limit in degrees: the argument max_angle, by default 90 less the tolerance *)
Definition limit_of (tol : R) (ma : option R) : R := match ma with Some m => m | None => 90 - tol end.

(* p and q do not coincide: some coordinate differs by more than tol *)
Definition apart (tol : R) (p q : pt) : Prop :=
  let '(x, y, z) := p in let '(x', y', z') := q in
  tol < Rabs (x - x') \/ tol < Rabs (y - y') \/ tol < Rabs (z - z').
(* some coordinate differs by more than tol and the relative tolerance of NumPy *)
Definition far (tol : R) (p q : pt) : Prop :=
  let '(x, y, z) := p in let '(x', y', z') := q in
  tol + / 100000 * Rabs x' < Rabs (x - x') \/ tol + / 100000 * Rabs y' < Rabs (y - y') \/ tol + / 100000 * Rabs z' < Rabs (z - z').
Definition dist (p q : pt) : R :=
  let '(x, y, z) := p in let '(x', y', z') := q in
  sqrt ((x - x') * (x - x') + (y - y') * (y - y') + (z - z') * (z - z')).

(* A row of cells between the planes x = nth k xs, met by a line along the x axis: what VTK and SciPy
   answer about it.  Cell k is between planes k and S k. *)
Definition px (x : R) : pt := (x, 0, 0).
Definition bound (xs : list R) (k : nat) : R := nth k xs 0.
Definition meets (u v a b : R) : bool := (Rleb u (Rmax a b) && Rleb (Rmin a b) v)%bool.
Definition row (xs : list R) : oracles nat :=
  mkO nat
    (fun a b => filter (fun k => meets (bound xs k) (bound xs (S k)) (coord 0 a) (coord 0 b)) (seq 0 (length xs - 1)))
    (fun k => px ((bound xs k + bound xs (S k)) / 2))
    (fun c a b =>
       match filter (fun k => meets (bound xs k) (bound xs k) (coord 0 a) (coord 0 b)) [Z.to_nat c; S (Z.to_nat c)] with
       | [] => None
       | ks => Some (map (fun k => (px (bound xs k), k)) ks)
       end)
    (fun k => if (length xs =? 2)%nat then [0%Z]
              else [if (k =? 0)%nat then (-1)%Z else Z.of_nat (k - 1);
                    if (S k =? length xs)%nat then (-1)%Z else Z.of_nat k])
    (fun c b => (Rleb (bound xs (Z.to_nat c)) (coord 0 b) && Rleb (coord 0 b) (bound xs (S (Z.to_nat c))))%bool).

(* consecutive values are far enough from each other for intersect_polyline to keep both *)
Definition separate (tol min_length x y : R) : Prop :=
  min_length <= y - x /\ tol + / 100000 * Rabs y < y - x.
Fixpoint separated (tol min_length : R) (l : list R) : Prop :=
  match l with
  | x :: ((y :: _) as l') => separate tol min_length x y /\ separated tol min_length l'
  | _ => True
  end.

(* the label of a segment is right: the middle of the segment is in that cell, or in none if it is -1 *)
Definition in_cell (xs : list R) (k : nat) (x : R) : Prop := bound xs k <= x <= bound xs (S k) /\ (S k < length xs)%nat.
Definition right_label (xs : list R) (p q : pt) (c : Z) : Prop :=
  let m := (coord 0 p + coord 0 q) / 2 in
  (c = (-1)%Z /\ forall k, ~ in_cell xs k m) \/ (exists k, c = Z.of_nat k /\ in_cell xs k m).
Definition right_labels (xs : list R) (ps : list pt) (cs : list Z) : Prop :=
  forall k p q c, nth_error ps k = Some p -> nth_error ps (S k) = Some q -> nth_error cs k = Some c -> right_label xs p q c.
