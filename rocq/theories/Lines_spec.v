(* Vocabulary of the properties C50-C58. *)
From Coq Require Import Reals Relations Permutation.
From Verif Require Import Prelude Surface_model Volume_spec Lines_model.
Open Scope nat_scope.

(* xs are the values at ids *)
Definition picks {A} (vals : list A) (ids : list nat) (xs : list A) : Prop :=
  Forall2 (fun i x => nth_error vals i = Some x) ids xs.

(* the values met along each cell *)
Definition runs {A} (vals : list A) (cells : list (list nat)) (out : list (list A)) : Prop :=
  Forall2 (picks vals) cells out.

(* a line cut into its segments, or left whole *)
Definition pieces {A} (as_lines : bool) (line : list A) : list (list A) :=
  if as_lines then map (fun '(x, y) => [x; y]) (pairs line) else [line].

Definition in_range (n : nat) (ids : list nat) : Prop := forall i, In i ids -> i < n.

(* data of the right size *)
Definition wf_lines {P D} (m : lmesh P D) : Prop :=
  (forall ids, In ids (l_cells m) -> in_range (length (l_pts m)) ids) /\
  (forall k v, In (k, v) (l_pd m) -> length v = length (l_pts m)) /\
  (forall k v, In (k, v) (l_cd m) -> length v = length (l_cells m)).

(* p is in the middle of a and b *)
Definition midpoint (a b p : pt) : Prop :=
  let '(ax, ay, az) := a in let '(bx, b_y, bz) := b in let '(x, y, z) := p in
  (2 * x = ax + bx /\ 2 * y = ay + b_y /\ 2 * z = az + bz)%R.

(* ---- distances ---- *)
Open Scope R_scope.
Definition sq_dist (p q : pt) : R :=
  let '(x, y, z) := p in let '(x', y', z') := q in
  (x - x') * (x - x') + (y - y') * (y - y') + (z - z') * (z - z').
Definition distance (p q : pt) : R := sqrt (sq_dist p q).

(* length of a chain of points *)
Definition chain_len (ps : list pt) : R :=
  fold_right Rplus 0 (map (fun '(p, q) => distance p q) (pairs ps)).

(* point p + t (q - p) *)
Definition along (p q : pt) (t : R) : pt :=
  let '(x, y, z) := p in let '(x', y', z') := q in
  (x + t * (x' - x), y + t * (y' - y), z + t * (z' - z)).
Definition near_line (tol : R) (p q x : pt) : Prop := exists t, distance x (along p q t) <= tol.
Definition near_segment (tol : R) (p q x : pt) : Prop :=
  exists t, 0 <= t <= 1 /\ distance x (along p q t) <= tol.

(* out keeps the first and last point and, of each group of consecutive points left out,
   all are D-near the two kept points around *)
Inductive simplifies {A} (D : A -> A -> A -> Prop) : list A -> list A -> Prop :=
| simp_one p l q : Forall (D p q) l -> simplifies D (p :: l ++ [q]) [p; q]
| simp_cons p l q ps qs : Forall (D p q) l -> simplifies D (q :: ps) (q :: qs) ->
    simplifies D (p :: l ++ q :: ps) (p :: q :: qs).

(* ---- paths ---- *)
Open Scope nat_scope.
(* length of a path of ids; the way back is counted when closed *)
Definition tour (points : list pt) (close : bool) (path : list nat) (len : R) : Prop :=
  exists ps, picks points path ps /\
  len = chain_len (if close then ps ++ firstn 1 ps else ps).

(* path' is path with a block reversed that starts after the first a ids *)
Definition reversed_block {A} (path : list A) (a : nat) (path' : list A) : Prop :=
  exists u v w, path = u ++ v ++ w /\ path' = u ++ rev v ++ w /\ length u = a.

(* ---- connected points ---- *)
Definition linked (pairs : list (nat * nat)) : nat -> nat -> Prop :=
  clos_refl_sym_trans nat (fun i j => In (i, j) pairs).

Definition is_mean (ps : list pt) (c : pt) : Prop :=
  let n := INR (length ps) in
  ps <> [] /\
  (n * fst (fst c) = fold_right Rplus 0 (map (fun p => fst (fst p)) ps))%R /\
  (n * snd (fst c) = fold_right Rplus 0 (map (fun p => snd (fst p)) ps))%R /\
  (n * snd c = fold_right Rplus 0 (map snd ps))%R.

Definition proper_edges (f : list nat) : list (nat * nat) :=
  filter (fun e => negb (fst e =? snd e)) (ring_edges f).
