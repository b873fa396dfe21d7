(* Specification vocabulary for subdivisions, independent of the model. *)
From Coq Require Import Reals String List.
Import ListNotations.
Open Scope R_scope.

(* A subdivision of [0,1] in n pieces. *)
Definition proper_subdivision (n : nat) (p : list R) : Prop :=
  List.length p = S n /\
  nth_error p 0 = Some 0 /\ nth_error p n = Some 1 /\
  (forall i j x y, (i < j)%nat -> nth_error p i = Some x -> nth_error p j = Some y -> x < y).

Inductive grading := Constant | Log | LogR.

(* Documented method names; None and "" mean the default. *)
Inductive names_method : option string -> grading -> Prop :=
| nm_none : names_method None Constant
| nm_empty : names_method (Some ""%string) Constant
| nm_constant : names_method (Some "constant"%string) Constant
| nm_log : names_method (Some "log"%string) Log
| nm_logr : names_method (Some "log_r"%string) LogR.

(* The i-th gap of p exists and is g. *)
Definition gap (p : list R) (i : nat) (g : R) : Prop :=
  exists x y, nth_error p i = Some x /\ nth_error p (S i) = Some y /\ g = y - x.

(* q read backwards from 1 is p *)
Definition mirrored (p q : list R) : Prop :=
  List.length p = List.length q /\
  forall i x, nth_error p i = Some x ->
    nth_error q (List.length p - 1 - i) = Some (1 - x).

(* c lies on the line through a b with parameter t (componentwise, z padded with 0) *)
Definition on_segment_at (a b : list R) (t : R) (c : list R) : Prop :=
  List.length c = 3%nat /\
  (forall k x y, nth_error a k = Some x -> nth_error b k = Some y ->
     nth_error c k = Some (x + t * (y - x))) /\
  (forall k, (List.length a <= k < 3)%nat -> nth_error c k = Some 0).
