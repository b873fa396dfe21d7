(* Vocabulary for prisms over polygons of the plane. *)
From Coq Require Import Reals.
From Verif Require Import Prelude Surface_spec Volume_spec.
Open Scope R_scope.

Definition flat_rows (ps : list (R * R)) : list (list R) := map (fun p => [fst p; snd p; 0]) ps.
(* twice the oriented area of a triangle *)
Definition corner_turn (p q r : R * R) : R := (fst q - fst p) * (snd r - snd p) - (snd q - snd p) * (fst r - fst p).
(* oriented area of a polygon: positive when it is counter-clockwise *)
Definition shoelace (ps : list (R * R)) : R :=
  fold_right (fun e acc => fst (fst e) * snd (snd e) - fst (snd e) * snd (fst e) + acc) 0 (ring_edges ps) / 2.
