(* Vocabulary of the property C162. *)
From Coq Require Import Reals.
From Verif Require Import Prelude Surface_spec Volume_spec Stack_model Stack_spec Settle_spec Pile_model.
Open Scope R_scope.

(* elevation of column i of the surface added by one call, given its elevation in the surface before *)
Inductive raised (interp : list (R * R * R) -> list (R * R * R) -> res (list R)) (up : bool) (base : list (R * R * R)) (i : nat)
  : option R -> add_arg -> R -> Prop :=
| raised_first x : raised interp up base i None (ArgScalar x) x
| raised_scalar x z : raised interp up base i (Some z) (ArgScalar x) (if up then z + Rabs x else z - Rabs x)
| raised_call prev f x y z : nth_error base i = Some (x, y, z) -> raised interp up base i prev (ArgCall f) (f x y z)
| raised_mesh prev pts zs z : interp pts base = Ok zs -> nth_error zs i = Some z -> raised interp up base i prev (ArgMesh pts) z
| raised_array prev pts zs z : interp pts base = Ok zs -> nth_error zs i = Some z -> raised interp up base i prev (ArgArray 2 3 pts) z.

(* priority, minimum thickness and elevation of the surfaces added by calls, in column i *)
Inductive heights interp up base i : option R -> list st_call -> list level -> Prop :=
| heights_nil prev : heights interp up base i prev [] []
| heights_cons prev c z rest ls : raised interp up base i prev (sc_arg c) z -> heights interp up base i (Some z) rest ls ->
    heights interp up base i prev (c :: rest)
      ((ao_prio (sc_opts c), match prev with None => 0 | Some _ => ao_thick (sc_opts c) end, z) :: ls).

(* arguments that can be added: interpolation gives one elevation for each point of the base *)
Definition accepted (interp : list (R * R * R) -> list (R * R * R) -> res (list R)) (base : list (R * R * R)) (c : st_call) : Prop :=
  match sc_arg c with
  | ArgScalar _ | ArgCall _ => True
  | ArgMesh pts => exists zs, interp pts base = Ok zs /\ length zs = length base
  | ArgArray ndim ncols pts => ndim = 2%nat /\ ncols = 3%nat /\ exists zs, interp pts base = Ok zs /\ length zs = length base
  end.

(* a subdivision from 0 to 1 and a group given by name *)
Definition regular_call (c : st_call) : Prop :=
  (exists perc, resolution_to_perc (ao_res (sc_opts c)) (ao_method (sc_opts c)) = Ok perc /\ (2 <= length perc)%nat /\
     nth_error perc 0 = Some 0 /\ nth_error perc (length perc - 1) = Some 1) /\
  (ao_group (sc_opts c) = Groups_model.GNone \/ exists s, ao_group (sc_opts c) = Groups_model.GStr s).

(* numbers of layers made by the calls *)
Definition call_layers (calls : list st_call) (ns : list nat) : Prop :=
  Forall2 (fun c n => exists perc, resolution_to_perc (ao_res (sc_opts c)) (ao_method (sc_opts c)) = Ok perc /\ n = (length perc - 1)%nat)
    calls ns.

(* the point with another coordinate along the axis *)
Definition at_height (ax : nat) (p : R * R * R) (h : R) : R * R * R :=
  let '(x, y, z) := p in match ax with 0%nat => (h, y, z) | 1%nat => (x, h, z) | _ => (x, y, h) end.
