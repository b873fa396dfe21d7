(* Vocabulary: the faces between the cells of an extruded volume, the edges between the cells of a surface (C187). *)
From Verif Require Import Prelude Volume_spec Topo_model Topo_spec Lattice_spec Strata_spec.
Open Scope nat_scope.

(* the sides of the cells of a surface, each once, from the lower corner to the higher one *)
Definition all_sides (base : list (nat * list nat)) (es : list (nat * nat)) : Prop :=
  NoDup es /\ forall u v, In (u, v) es <-> u < v /\ exists b, In b base /\ side b u v.

(* the row of the side from u to v: its only cell then -1, or its two cells in increasing order; cells numbered by place *)
Inductive side_row (base : list (nat * list nat)) (place : nat -> nat) (u v : nat) : list Z -> Prop :=
| sr_outer c b : nth_error base c = Some b -> side b u v ->
    (forall c' b', nth_error base c' = Some b' -> side b' u v -> c' = c) ->
    side_row base place u v [Z.of_nat (place c); (-1)%Z]
| sr_inner c c' b b' : c < c' -> nth_error base c = Some b -> nth_error base c' = Some b' -> side b u v -> side b' u v ->
    side_row base place u v [Z.of_nat (place c); Z.of_nat (place c')].

(* face k of g is the only one with the corners f, and its row satisfies the condition *)
Definition listed_once (g : geom) (f : list nat) (good : list Z -> Prop) : Prop :=
  exists k h row, nth_error (g_faces g) k = Some h /\ same_set h f /\
    (forall k' h', nth_error (g_faces g) k' = Some h' -> same_set h' f -> k' = k) /\
    nth_error (g_rows g) k = Some row /\ good row.
