(* Vocabulary: volume enclosed by the faces of a cell. *)
From Coq Require Import Reals.
From Verif Require Import Prelude Volume_spec.
Open Scope R_scope.

(* six times the oriented volume between the origin and a plane face, cut into triangles from its first vertex *)
Definition face_volume (P : nat -> vec) (f : list nat) : R := area_along P (P (hd 0%nat f)) f.

(* oriented volume enclosed by the faces: positive when a closed surface is turned outwards (right-hand rule) *)
Definition enclosed_volume (P : nat -> vec) (faces : list (list nat)) : R :=
  fold_right (fun f acc => face_volume P f + acc) 0 faces / 6.
