(* Elevations of the surfaces of a stack, column by column (C31, C32). *)
From Coq Require Import Reals.
From Verif Require Import Surface_spec Volume_spec Stack_model Stack_spec.
Open Scope R_scope.

(* priority, minimum thickness and elevation of a surface in one column *)
Notation level := (Z * R * R)%type.

(* the elevations of a column after the stack, from those before.  Surfaces are met from the first to the last; of
   two neighbours the one of lower priority moves, the first one for equal priorities. *)
Inductive settled : list level -> list R -> Prop :=
| settled_last p t z : settled [(p, t, z)] [z]
| settled_raise p t z p' t' z' rest out : (p' < p)%Z ->
    settled ((p', t', Rmax z' (z + t')) :: rest) out -> settled ((p, t, z) :: (p', t', z') :: rest) (z :: out)
| settled_lower p t z p' t' z' rest out : (p <= p')%Z ->
    settled ((p', t', z') :: rest) out -> settled ((p, t, z) :: (p', t', z') :: rest) (Rmin z (z' - t') :: out).

(* the same for stacks from top to bottom: surfaces are not moved when the second one is lower (the thickness is
   negative), and otherwise away from each other *)
Inductive settled_down : list level -> list R -> Prop :=
| down_last p t z : settled_down [(p, t, z)] [z]
| down_raise p t z p' t' z' rest out : (p' < p)%Z ->
    settled_down ((p', t', z' + Rmax 0 (z' - z - t')) :: rest) out -> settled_down ((p, t, z) :: (p', t', z') :: rest) (z :: out)
| down_lower p t z p' t' z' rest out : (p <= p')%Z ->
    settled_down ((p', t', z') :: rest) out -> settled_down ((p, t, z) :: (p', t', z') :: rest) (z - Rmax 0 (z' - z - t') :: out).

(* the surfaces in column k *)
Definition elevation {M B} (ops : mesh_ops M B) (ax k : nat) (it : item M) (z : R) : Prop :=
  exists p, nth_error (points ops it) k = Some p /\ coord ax p = z.
Definition levels {M B} (ops : mesh_ops M B) (ax k : nat) (items : list (item M)) (ls : list level) : Prop :=
  Forall2 (fun it l => fst (fst l) = it_prio it /\ snd (fst l) = it_thick it /\ elevation ops ax k it (snd l)) items ls.

(* the points of an item are moved along the axis of the stack only *)
Definition moved_along {M B} (ops : mesh_ops M B) (ax : nat) (i j : item M) : Prop :=
  only_points ops i j /\ Forall2 (same_column ax) (points ops i) (points ops j).
