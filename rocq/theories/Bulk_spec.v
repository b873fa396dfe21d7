(* Vocabulary: volumes of wedges and hexahedra (C172, C173). *)
From Coq Require Import Reals.
From Verif Require Import Prelude Volume_spec Encl_spec Paint_spec.
Open Scope R_scope.

(* the faces of a cell, seen from outside when its second half lies above a counter-clockwise first half *)
Inductive outer_faces : vcell -> list (list nat) -> Prop :=
| of_wedge a b c a' b' c' :
    outer_faces (Plain 13 [a; b; c; a'; b'; c']) [[a; c; b]; [a'; b'; c']; [a; b; b'; a']; [b; c; c'; b']; [a; a'; c'; c]]
| of_hexahedron a b c d a' b' c' d' :
    outer_faces (Plain 12 [a; b; c; d; a'; b'; c'; d'])
      [[a; d; c; b]; [a'; b'; c'; d']; [a; b; b'; a']; [b; c; c'; b']; [c; d; d'; c']; [a; a'; d'; d]].

(* triangles, quadrilaterals and pixels, and the ring of their corners *)
Definition small_base (base : nat * list nat) : Prop :=
  (fst base = 5 /\ length (snd base) = 3 \/ (fst base = 8 \/ fst base = 9) /\ length (snd base) = 4)%nat.
Definition corners (base : nat * list nat) : list nat :=
  match base with (8%nat, [a; b; c; d]) => [a; b; d; c] | (_, ids) => ids end.

(* volume above a ring, the column at corner i being H i times e: the ring is cut into triangles from its first corner, each of
   them has the mean height of its three columns *)
Fixpoint columns_above (P : nat -> vec) (e : vec) (H : nat -> R) (a : nat) (ring : list nat) : R :=
  match ring with
  | b :: ((c :: _) as rest) => turn P e a b c / 2 * ((H a + H b + H c) / 3) + columns_above P e H a rest
  | _ => 0
  end.
Definition volume_above (P : nat -> vec) (e : vec) (H : nat -> R) (ring : list nat) : R :=
  match ring with a :: rest => columns_above P e H a rest | [] => 0 end.

Definition scaled (k : R) (p : vec) : vec := let '(x, y, z) := p in (k * x, k * y, k * z).
Definition unit_axis (ax : nat) : vec := match ax with 0%nat => (1, 0, 0) | 1%nat => (0, 1, 0) | _ => (0, 0, 1) end.

(* the cell is turned outwards and has this volume *)
Definition has_volume (pts : list vec) (cell : vcell) (V : R) : Prop :=
  exists faces, outer_faces cell faces /\ enclosed_volume (at_pts pts) faces = V.

(* total volume of the cells with a name *)
Definition named_volume (k : string) (l : list (string * R)) : R := sum_list (map snd (filter (fun x => String.eqb (fst x) k) l)).

(* positions from one surface to the other *)
Definition whole (perc : list R) : Prop := nth_error perc 0 = Some 0 /\ nth_error perc (length perc - 1) = Some 1.

(* total volume of the cells above cell c of the base *)
Definition column_volume (place : list (nat * nat * nat)) (vols : list R) (c : nat) : R :=
  sum_list (map snd (filter (fun x => Nat.eqb (snd (fst x)) c) (combine place vols))).
