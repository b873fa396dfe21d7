(* The way of a polyline through a mesh, in terms of what VTK answers about its cells. *)
From Coq Require Import Reals Permutation.
From Verif Require Import Prelude RealAux Surface_model Volume_model Cast_model Cast_spec.
Open Scope R_scope.

Section Trip.
Context {F : Type} (o : oracles F).
(* minimum length, and last vertex of the polyline *)
Variables (ml : R) (fin : pt).

(* the segment crosses the boundary of cell c at these points, reported in any order *)
Definition shows (a b : pt) (c : Z) (ps : list pt) : Prop :=
  match ps with
  | [] => cast o c a b = None
  | _ => exists r, cast o c a b = Some r /\ Permutation (map fst r) ps
  end.

(* entered at e (nothing if it starts there), the segment leaves cell c at x by a face shared with d *)
Definition leaves (a b : pt) (e : list pt) (c : Z) (x : pt) (d : Z) : Prop :=
  ml <= dist x fin /\ c <> d /\ ~ In x e /\
  exists r f, cast o c a b = Some r /\ Permutation (map fst r) (e ++ [x]) /\ In (x, f) r /\ Permutation (sides o f) [c; d].

(* from cell c, entered at e, the segment ab passes the points listed, each with the cell before it, to the cell
   at the end (-1: outside).  The last segment ends in a cell that it has entered, at b. *)
Inductive follows (final : bool) (a b : pt) : list pt -> Z -> list (pt * Z) -> Z -> Prop :=
| stays e c : final = false -> shows a b c e -> follows final a b e c [] c
| moves e c x d l z : leaves a b e c x d -> d <> (-1)%Z -> (final = true -> contains o d b = false) ->
    follows final a b [x] d l z -> follows final a b e c ((x, c) :: l) z
| reaches e c x d : final = true -> leaves a b e c x d -> d <> (-1)%Z -> contains o d b = true ->
    follows final a b e c [(x, c); (b, d)] d
| goes_out e c x : leaves a b e c x (-1)%Z -> follows final a b e c [(x, c)] (-1)%Z.

Definition labelled (lid : nat) (l : list (pt * Z)) : list (pt * nat * Z) := map (fun xc => (fst xc, lid, snd xc)) l.
(* vertices outside the mesh: the first ends segment lid *)
Fixpoint outside (lid : nat) (l : list pt) : list (pt * nat * Z) :=
  match l with
  | [] => []
  | p :: l' => (p, lid, (-1)%Z) :: outside (S lid) l'
  end.

(* the rest of the polyline, its first vertex being in cell c (or before it, which is then entered at e): points
   in the mesh and points after it *)
Inductive inside : list pt -> nat -> Z -> list pt -> list (pt * nat * Z) -> list (pt * nat * Z) -> Prop :=
| at_end e lid c a b l d : follows true a b e c l d -> d <> (-1)%Z -> inside e lid c [a; b] (labelled lid l) []
| further e lid c a b b' rest l d mid post : follows false a b e c l d -> d <> (-1)%Z ->
    inside [] (S lid) d (b :: b' :: rest) mid post -> inside e lid c (a :: b :: b' :: rest) (labelled lid l ++ mid) post
| at_exit e lid c a b rest l : follows (match rest with [] => true | _ => false end) a b e c l (-1)%Z ->
    inside e lid c (a :: b :: rest) (labelled lid l) (outside lid (b :: rest)).

(* the polyline misses the mesh up to vertex j and then enters it at x0 in cell c0, the one of those met by the
   segment whose center is the nearest; if that is the first segment it also leaves the cell *)
Definition trip (pts : list pt) (j : nat) (x0 : pt) (c0 : nat) (mid post : list (pt * nat * Z)) : Prop :=
  fin = last pts origin /\
  (forall k p q, (k < j)%nat -> nth_error pts k = Some p -> nth_error pts (S k) = Some q -> find o p q = []) /\
  exists a b, nth_error pts j = Some a /\ nth_error pts (S j) = Some b /\ In c0 (find o a b) /\
    (forall i, In i (find o a b) -> i <> c0 -> dist (center o c0) a < dist (center o i) a) /\
    (forall x, shows a b (Z.of_nat c0) [x0; x] -> dist x0 a < dist x a) /\
    (j = 0%nat -> ~ shows a b (Z.of_nat c0) [x0]) /\
    inside [x0] j (Z.of_nat c0) (skipn j pts) mid post.
End Trip.

(* consecutive points are far enough from each other to be kept *)
Fixpoint spaced (tol ml : R) (l : list pt) : Prop :=
  match l with
  | p :: ((q :: _) as l') => far tol p q /\ ml <= dist p q /\ spaced tol ml l'
  | _ => True
  end.

Definition point_of (x : pt * nat * Z) : pt := fst (fst x).
Definition line_of (x : pt * nat * Z) : nat := snd (fst x).
Definition cell_of (x : pt * nat * Z) : Z := snd x.
