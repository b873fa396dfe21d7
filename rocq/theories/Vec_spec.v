(* Points of space as vectors, for the statements of properties. *)
From Coq Require Import Reals.
Open Scope R_scope.

(* coordinate along axis k *)
Definition xyz (k : nat) (p : R * R * R) : R :=
  let '(x, y, z) := p in match k with 0%nat => x | 1%nat => y | _ => z end.

Definition vplus (p q : R * R * R) : R * R * R :=
  let '(x, y, z) := p in let '(x', y', z') := q in (x + x', y + y', z + z').
Definition vminus (p q : R * R * R) : R * R * R :=
  let '(x, y, z) := p in let '(x', y', z') := q in (x - x', y - y', z - z').
Definition vtimes (k : R) (p : R * R * R) : R * R * R := let '(x, y, z) := p in (k * x, k * y, k * z).
(* inner and vector products *)
Definition vinner (p q : R * R * R) : R :=
  let '(x, y, z) := p in let '(x', y', z') := q in x * x' + y * y' + z * z'.
Definition vouter (p q : R * R * R) : R * R * R :=
  let '(x, y, z) := p in let '(x', y', z') := q in (y * z' - z * y', z * x' - x * z', x * y' - y * x').

(* the point at position t on the line through p (t = 0) and q (t = 1) *)
Definition vline (t : R) (p q : R * R * R) : R * R * R :=
  let '(x, y, z) := p in let '(x', y', z') := q in (x + t * (x' - x), y + t * (y' - y), z + t * (z' - z)).

(* m is the middle of the box around the points *)
Definition box_middle (l : list (R * R * R)) (m : R * R * R) : Prop :=
  forall k, (k <= 2)%nat -> exists p q, List.In p l /\ List.In q l /\
    xyz k m = (xyz k p + xyz k q) / 2 /\ forall r, List.In r l -> xyz k p <= xyz k r <= xyz k q.
