(* Vocabulary: structured grids as VTK casts them to meshes of cells. *)
From Verif Require Import Prelude Topo_model Topo_spec.
Open Scope nat_scope.

(* rank of (i, j, k) when i < w varies first, then j < h, then k *)
Definition rank (w h i j k : nat) : nat := i + w * (j + h * k).

(* the mesh has nx by ny by nz hexahedra, or nx by ny quadrilaterals, on the points of a structured grid *)
Definition hexahedra (nx ny nz : nat) (m : vmesh) : Prop :=
  v_types m = repeat 12 (nx * ny * nz) /\ length (v_cells m) = nx * ny * nz /\
  let p := rank (S nx) (S ny) in
  forall i j k, i < nx -> j < ny -> k < nz -> nth_error (v_cells m) (rank nx ny i j k) =
    Some [p i j k; p (S i) j k; p (S i) (S j) k; p i (S j) k; p i j (S k); p (S i) j (S k); p (S i) (S j) (S k); p i (S j) (S k)].
Definition quadrilaterals (nx ny : nat) (m : vmesh) : Prop :=
  v_types m = repeat 9 (nx * ny) /\ length (v_cells m) = nx * ny /\
  let p i j := rank (S nx) (S ny) i j 0 in
  forall i j, i < nx -> j < ny -> nth_error (v_cells m) (rank nx ny i j 0) = Some [p i j; p (S i) j; p (S i) (S j); p i (S j)].

(* same ring of points, from another start or in the other direction *)
Definition same_ring (f h : list nat) : Prop := exists a b, h = a ++ b /\ (f = b ++ a \/ f = rev (b ++ a)).

(* one step along one axis *)
Definition step (i i' : nat) : Prop := i' = S i \/ i = S i'.
Definition adjacent (i j k i' j' k' : nat) : Prop :=
  (step i i' /\ j = j' /\ k = k') \/ (i = i' /\ step j j' /\ k = k') \/ (i = i' /\ j = j' /\ step k k').

(* faces of a lattice of hexahedra: the axis they are normal to, their lowest corner, their points *)
Definition facet (nx ny nz a i j k : nat) (f : list nat) : Prop :=
  let p := rank (S nx) (S ny) in
  (a = 0 /\ i <= nx /\ j < ny /\ k < nz /\ f = [p i j k; p i (S j) k; p i (S j) (S k); p i j (S k)]) \/
  (a = 1 /\ i < nx /\ j <= ny /\ k < nz /\ f = [p i j k; p (S i) j k; p (S i) j (S k); p i j (S k)]) \/
  (a = 2 /\ i < nx /\ j < ny /\ k <= nz /\ f = [p i j k; p (S i) j k; p (S i) (S j) k; p i (S j) k]).
(* edges of a lattice of quadrilaterals *)
Definition edge (nx ny a i j : nat) (f : list nat) : Prop :=
  let p i j := rank (S nx) (S ny) i j 0 in
  (a = 0 /\ i <= nx /\ j < ny /\ f = [p i j; p i (S j)]) \/ (a = 1 /\ i < nx /\ j <= ny /\ f = [p i j; p (S i) j]).

(* cells before and after the t-th of the n + 1 faces along a row of n cells; -1 when there is only one *)
Inductive beside (n : nat) (cell : nat -> nat) : nat -> list Z -> Prop :=
| bs_first : beside n cell 0 [Z.of_nat (cell 0); (-1)%Z]
| bs_last t : n = S t -> beside n cell n [Z.of_nat (cell t); (-1)%Z]
| bs_inner t : S t < n -> beside n cell (S t) [Z.of_nat (cell t); Z.of_nat (cell (S t))].
Definition sides (nx ny nz a i j k : nat) (row : list Z) : Prop :=
  match a with
  | 0 => beside nx (fun t => rank nx ny t j k) i row
  | 1 => beside ny (fun t => rank nx ny i t k) j row
  | _ => beside nz (fun t => rank nx ny i j t) k row
  end.
