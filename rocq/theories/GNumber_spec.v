(* Vocabulary for string selectors that compare numbers. *)
From Verif Require Import Prelude Groups_spec.
From Coq Require Import Ascii.
From Verif Require Groups_model.
Import Groups_model(gmesh(..), selector(..)).
Open Scope Z_scope.

(* the cells denoted by a selector when names stand for their numbers in the table t, whatever the labels of the mesh *)
Definition selects_numbers {A} (t : table) (mesh : gmesh A) (sel : selector A) (c : nat) : Prop :=
  match sel, Groups_model.gm_cg mesh with
  | SelStr s, Some cg => string_selects cg t s c
  | SelStrs l, Some cg => exists s, In s l /\ string_selects cg t s c
  | SelStr _, None | SelStrs _, None => False
  | _, _ => selects mesh sel c
  end.
Definition entry_selects_numbers {A} (t : table) (mesh : gmesh A) (e : string * selector A) (c : nat) : Prop :=
  (plain (fst e) -> selects_numbers t mesh (snd e) c) /\
  (forall k, fst e = String "~"%char k -> ~ selects_numbers t mesh (snd e) c).
