(* Vocabulary of the properties C160 and C161. *)
From Coq Require Import Reals.
From Verif Require Import Prelude Grid Surface_model Surface_spec Volume_spec SMerge_spec Groups_spec Stack_spec Final_spec.
From Verif Require Import Stack_model Sweep_model.
Open Scope nat_scope.

Definition vsum (l : list (R * R * R)) : R * R * R :=
  fold_right (fun v w => let '(x, y, z) := v in let '(x', y', z') := w in (x + x', y + y', z + z')%R) (0, 0, 0)%R l.

(* a call that moves the mesh along v and cuts the volume in n layers of equal thickness *)
Definition moves_by (c : ex_call) (v : R * R * R) (n : nat) : Prop :=
  (let '(x, y, z) := v in ec_vector c = [x; y; z]) /\ ec_scale c = None /\ ec_angle c = None /\ ec_method c = None /\
  ((ec_res c = ResNone /\ n = 1) \/ (exists z, ec_res c = ResInt z /\ n = Z.to_nat (Z.max 1 z))) /\
  (ec_group c = Groups_model.GNone \/ exists s, ec_group c = Groups_model.GStr s).

(* [moved p vs j v k n]: the point p after the first j moves and k n-ths of the next one *)
Definition moved (p : R * R * R) (vs : list (R * R * R)) (j : nat) (v : R * R * R) (k n : nat) : R * R * R :=
  let '(x, y, z) := p in let '(a, b, c) := vsum (firstn j vs) in let '(vx, vy, vz) := v in
  (x + a + INR k / INR n * vx, y + b + INR k / INR n * vy, z + c + INR k / INR n * vz)%R.

(* the moves with their numbers of layers *)
Definition moves (calls : list ex_call) (vs : list (R * R * R)) (ns : list nat) : Prop :=
  length vs = length calls /\ length ns = length calls /\
  forall j c v n, nth_error calls j = Some c -> nth_error vs j = Some v -> nth_error ns j = Some n -> moves_by c v n.
