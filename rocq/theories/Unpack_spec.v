(* Vocabulary: meshes of lines (C188). *)
From Verif Require Import Prelude Volume_spec Topo_model.
Open Scope nat_scope.

(* lines and polylines only *)
Definition line_mesh (m : vmesh) : Prop :=
  (forall t, In t (v_types m) -> t = 3 \/ t = 4) /\ length (v_cells m) = length (v_types m) /\ length (v_locs m) <= length (v_types m).

(* the segments of all lines, one after the other *)
Definition segments (m : vmesh) : list (nat * nat) := concat (map pairs (v_cells m)).

(* no segment joins the same two points as another *)
Definition segments_differ (m : vmesh) : Prop :=
  forall p q u v u' v', nth_error (segments m) p = Some (u, v) -> nth_error (segments m) q = Some (u', v') ->
    (u = u' /\ v = v') \/ (u = v' /\ v = u') -> p = q.

(* u and v are next to each other on the line, in either order *)
Definition joined (ids : list nat) (u v : nat) : Prop := In (u, v) (pairs ids) \/ In (v, u) (pairs ids).

(* the cells of a structured grid of n cells in one row, as VTK casts it to an unstructured one *)
Definition grid_row (n : nat) : vmesh := mkV (repeat 3 n) (map (fun i => [i; S i]) (seq 0 n)) [] [].
