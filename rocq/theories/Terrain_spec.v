(* Vocabulary of the property C163. *)
From Coq Require Import Reals List.
From Verif Require Import Prelude.
Open Scope R_scope.

(* LinearNDInterpolator of SciPy gives back the data at the data points, when these are distinct and not on one line *)
Definition not_aligned (pts : list (R * R)) : Prop :=
  exists a b c, In a pts /\ In b pts /\ In c pts /\ (fst b - fst a) * (snd c - snd a) <> (fst c - fst a) * (snd b - snd a).
Definition reproduces (linear : list (R * R) -> list R -> list (R * R) -> res (list (option R))) : Prop :=
  forall pts zs, NoDup pts -> not_aligned pts -> length zs = length pts -> linear pts zs pts = Ok (map Some zs).

(* fraction of the height of layer k of ten, denser at the top *)
Definition log_r (k : nat) : R := ln (1 + 9 * INR k / 10) / ln 10.
