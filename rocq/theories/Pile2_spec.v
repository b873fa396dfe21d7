(* Vocabulary of the property C166. *)
From Coq Require Import Reals.
From Verif Require Import Prelude Perc_model Volume_spec Stack_model Stack_spec Settle_spec Pile_model Pile_spec.
Open Scope R_scope.

(* positions of the layers made by the calls *)
Definition call_positions (calls : list st_call) (percs : list (list R)) : Prop :=
  Forall2 (fun c perc => resolution_to_perc (ao_res (sc_opts c)) (ao_method (sc_opts c)) = Ok perc) calls percs.

(* lev u are the elevations of the surfaces at point u of the base, after cutting *)
Definition settled_heights (interp : list (R * R * R) -> list (R * R * R) -> res (list R)) (up : bool) (base : list (R * R * R))
  (calls : list st_call) (lev : nat -> list R) : Prop :=
  forall u, (u < length base)%nat -> exists ls, heights interp up base u None calls ls /\
    (if up then settled ls (lev u) else settled_down ls (lev u)) /\ length (lev u) = length calls.

(* the point p at the fraction t of the way between surfaces j and j + 1 *)
Definition stacked (ax : nat) (p : R * R * R) (lev : list R) (j : nat) (t : R) (q : R * R * R) : Prop :=
  exists z z', nth_error lev j = Some z /\ nth_error lev (S j) = Some z' /\ q = at_height ax p (z + t * (z' - z)).

(* the first layer over the cell, between surfaces j and j + 1, cannot be told from a flat one *)
Definition thin_layer (ax : nat) (pts : list (R * R * R)) (lev : nat -> list R) (j : nat) (perc : list R) (base : nat * list nat) : Prop :=
  forall u t t' p q q', In u (snd base) -> nth_error perc 0 = Some t -> nth_error perc 1 = Some t' -> nth_error pts u = Some p ->
    stacked ax p (lev u) j t q -> stacked ax p (lev u) j t' q' -> near q q'.
