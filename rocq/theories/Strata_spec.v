(* Vocabulary: meshes of cells extruded from a surface, layer by layer (C186). *)
From Coq Require Import Reals.
From Verif Require Import Prelude Volume_spec Topo_model Topo_spec Bulk_spec Lattice_spec.
Open Scope nat_scope.

(* triangles, quadrilaterals, pixels and polygons with distinct corners *)
Definition surface_cell (np : nat) (b : nat * list nat) : Prop :=
  (small_base b \/ fst b = 7 /\ 3 <= length (snd b)) /\ NoDup (snd b) /\ forall u, In u (snd b) -> u < np.

(* the segment from u to v is a side of the cell, in either direction *)
Definition side (b : nat * list nat) (u v : nat) : Prop := In (u, v) (ring_edges (corners b)) \/ In (v, u) (ring_edges (corners b)).

(* no side of three cells, no two common sides of two cells, no two cells with the same corners *)
Definition conforming (base : list (nat * list nat)) : Prop :=
  (forall c1 c2 c3 b1 b2 b3 u v, nth_error base c1 = Some b1 -> nth_error base c2 = Some b2 -> nth_error base c3 = Some b3 ->
     side b1 u v -> side b2 u v -> side b3 u v -> c1 = c2 \/ c2 = c3 \/ c1 = c3) /\
  (forall c1 c2 b1 b2 u v u' v', nth_error base c1 = Some b1 -> nth_error base c2 = Some b2 -> c1 <> c2 ->
     side b1 u v -> side b2 u v -> side b1 u' v' -> side b2 u' v' -> (u = u' /\ v = v') \/ (u = v' /\ v = u')) /\
  (forall c1 c2 b1 b2, nth_error base c1 = Some b1 -> nth_error base c2 = Some b2 -> same_set (corners b1) (corners b2) -> c1 = c2).

(* two cells have a common side *)
Definition touching (base : list (nat * list nat)) (c c' : nat) : Prop :=
  c <> c' /\ exists b b' u v, nth_error base c = Some b /\ nth_error base c' = Some b' /\ side b u v /\ side b' u v.

(* cell c of layer l against cell c' of layer l' *)
Definition next_to (base : list (nat * list nat)) (l c l' c' : nat) : Prop := (c = c' /\ step l l') \/ (l = l' /\ touching base c c').

(* the mesh has these cells, as VTK reads them *)
Definition holds (m : vmesh) (cells : list vcell) : Prop :=
  wf_mesh m /\ length (v_types m) = length cells /\
  forall i cell, nth_error cells i = Some cell ->
    match cell with
    | Plain t ids => nth_error (v_types m) i = Some t /\ cell_conn m i (CIds ids)
    | Poly fs => nth_error (v_types m) i = Some 42 /\ cell_conn m i (CFaces fs)
    end.

(* the face f of the n layers above the base: a cell at one of the n + 1 levels, or what lies above one of its sides *)
Definition layer_face (base : list (nat * list nat)) (np n : nat) (f : list nat) : Prop :=
  exists c b, nth_error base c = Some b /\
    ((exists l, l <= n /\ same_ring f (lift l np (corners b))) \/
     (exists l u v, l < n /\ side b u v /\ same_ring f [u + l * np; v + l * np; v + S l * np; u + S l * np])).

(* the surface itself, as VTK reads it *)
Definition surface_mesh (m : vmesh) (base : list (nat * list nat)) : Prop :=
  v_types m = map fst base /\ v_cells m = map snd base /\ length (v_locs m) <= length base.
