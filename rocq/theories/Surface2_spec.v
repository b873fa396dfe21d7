(* Specification vocabulary for the arguments of surfaces between two lines. *)
From Verif Require Import Prelude Grid Surface_model.
Open Scope nat_scope.

(* position in which the points (or cells) of n columns and m levels are stored, columns along axis ax *)
Definition stored (ax bx n m i j : nat) : nat := if ax <? bx then j * n + i else i * m + j.

(* the points of an argument in the order of the line *)
Definition traversed {D} (l : line_arg D) (ps : list pt) : Prop :=
  match l with
  | LineArr pts => ps = pts
  | LinePoly l => Forall2 (fun id p => nth_error (ln_pts l) id = Some p) (ln_ids l) ps
  end.

(* data arrays that fit a line of n points *)
Definition fits {D} (l : line_arg D) (n : nat) : Prop :=
  match l with
  | LineArr _ => True
  | LinePoly l => (forall k v, In (k, v) (ln_pd l) -> length v = n) /\
                  (forall k v, In (k, v) (ln_cd l) -> length v = n - 1) /\
                  (forall g, ln_ghost l = Some g -> length g = n - 1)
  end.
