(* Vocabulary for the mesh of a well. *)
From Coq Require Import Reals.
From Verif Require Import Prelude Objects_spec.
Open Scope R_scope.

(* the groups of the well lie between these radii *)
Definition zones : list (string * R * R) :=
  [("Core", 0, 34 / 100); ("Casing", 34 / 100, 445 / 1000); ("Cement", 445 / 1000, 1); ("Matrix", 1, 15)]%string.
Definition in_zone (k : string) (p : R * R * R) : Prop :=
  exists lo hi, In (k, lo, hi) zones /\
    let '(x, y, z) := p in lo * lo <= x * x + y * y <= hi * hi /\ Rabs x <= 10 /\ Rabs y <= 10 /\ z = 0.

(* number of the polygons with a name *)
Definition named_count {A} (k : string) (l : list (string * A)) : nat := length (filter (fun x => String.eqb (fst x) k) l).
