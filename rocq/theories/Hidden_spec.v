(* Vocabulary: meshes with collapsed faces (C41). *)
From Verif Require Import Prelude Topo_model Topo_spec.

(* cells i and j share a face that is not collapsed: two incidences with the same vertices *)
Definition share_kept (nonzero : list nat -> bool) (faces : list (list (list nat))) (i j : nat) : Prop :=
  exists p q f h, p <> q /\ nth_error (incidences faces) p = Some (i, f) /\ nth_error (incidences faces) q = Some (j, h) /\ same_set f h /\ nonzero f = true.

(* a face that is not collapsed is used by at least [k] incidences *)
Definition used_kept (nonzero : list nat -> bool) (k : nat) (faces : list (list (list nat))) : Prop :=
  exists ps f, length ps = k /\ NoDup ps /\ nonzero f = true /\
    forall p, In p ps -> exists i h, nth_error (incidences faces) p = Some (i, h) /\ same_set h f.

(* rows of ids as listed: wherever some face that is not collapsed has an id, two such faces differ *)
Definition varied (nonzero : list nat -> bool) (g : geom) : Prop :=
  forall j f r, In (f, r) (combine (g_faces g) (g_rows g)) -> nonzero f = true -> nth j r (-1)%Z <> (-1)%Z ->
    exists f1 r1 f2 r2, In (f1, r1) (combine (g_faces g) (g_rows g)) /\ In (f2, r2) (combine (g_faces g) (g_rows g)) /\
      nonzero f1 = true /\ nonzero f2 = true /\ nth j r1 (-1)%Z <> nth j r2 (-1)%Z.
