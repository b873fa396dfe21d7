(* Vocabulary of the property C179. *)
From Coq Require Import Reals.
From Verif Require Import Prelude Vec_spec Volume_spec Unstr_spec.

(* the first layer over the cell, between the points below and above, cannot be told from a flat one *)
Definition thin_first (below above : list (R * R * R)) (perc : list R) (base : nat * list nat) : Prop :=
  forall u t t' p q, In u (snd base) -> nth_error perc 0 = Some t -> nth_error perc 1 = Some t' ->
    nth_error below u = Some p -> nth_error above u = Some q -> near (vline t p q) (vline t' p q).
