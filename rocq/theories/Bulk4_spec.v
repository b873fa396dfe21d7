(* Vocabulary: cells of structured grids by the coordinates of their corners (C176, C177). *)
From Coq Require Import Reals.
From Verif Require Import Prelude Grid Volume_spec Surface_spec Pile3_spec.
Open Scope nat_scope.

(* the four corners of the cell of a strip in segment i and layer l, from one column of nodes to the next one *)
Definition strip_cell (dims : shape3) (ax i l : nat) : list nat :=
  map (fidx dims) [node_at ax i l; node_at ax (S i) l; node_at ax (S i) (S l); node_at ax i (S l)].

(* the next position along an axis *)
Definition forward (ax : nat) (c : shape3) : shape3 := setc ax (S (comp ax c)) c.

(* the ring of corners of the cell at c of a surface perpendicular to an axis, counter-clockwise seen against it when the nodes
   follow the two other axes *)
Definition second_axis (ax : nat) : nat := match ax with 0 => 1 | 1 => 2 | _ => 0 end.
Definition third_axis (ax : nat) : nat := match ax with 0 => 2 | 1 => 0 | _ => 1 end.
Definition ring_at (ax : nat) (c : shape3) : list shape3 :=
  [c; forward (second_axis ax) c; forward (third_axis ax) (forward (second_axis ax) c); forward (third_axis ax) c].

(* the hexahedron in layer l above that ring *)
Definition block_cell (dims : shape3) (ax : nat) (c : shape3) (l : nat) : vcell :=
  Plain 12 (map (fun c => fidx dims (setc ax l c)) (ring_at ax c) ++ map (fun c => fidx dims (setc ax (S l) c)) (ring_at ax c)).
