(* Vocabulary: neighbours and lines (C190). *)
From Verif Require Import Prelude.

(* the ends of a line opposite to those at cell i *)
Definition other_end (i : nat) (l : Z * Z) : list Z :=
  let '(a, b) := l in (if (a =? Z.of_nat i)%Z then [b] else []) ++ (if (b =? Z.of_nat i)%Z then [a] else []).
