(* Vocabulary of the properties C178 and C179: extrusions with scales and angles. *)
From Coq Require Import Reals.
From Verif Require Import Prelude Perc_model Vec_spec Groups_model Stack_model Sweep_model.
Open Scope R_scope.

(* the part of q along v stays, the rest turns by a degrees around v *)
Definition turned (v : R * R * R) (a : R) (q r : R * R * R) : Prop :=
  exists s w, q = vplus (vtimes s v) w /\ vinner v w = 0 /\
    r = vplus (vtimes s v) (vplus (vtimes (cos (a * PI / 180)) w) (vtimes (sin (a * PI / 180) / sqrt (vinner v v)) (vouter v w))).

(* the argument of the call, else that of the constructor *)
Definition in_force (own default : option R) : option R := match own with Some x => Some x | None => default end.

(* the point p moved along v, scaled and turned about the moved point c *)
Definition spun (v : R * R * R) (scale angle : option R) (c p r : R * R * R) : Prop :=
  exists q, match angle with Some a => turned v a (vminus p c) q | None => q = vminus p c end /\
    r = vplus (vplus c v) (vtimes (match scale with Some s => s | None => 1 end) q).

(* the points of the surfaces made by the calls *)
Inductive swept (ds da : option R) : list (R * R * R) -> list ex_call -> list (list (R * R * R)) -> Prop :=
| sw_nil S : swept ds da S [] []
| sw_cons S call calls x y z c S' rest :
    ec_vector call = [x; y; z] -> box_middle S c -> length S' = length S ->
    (forall k p, nth_error S k = Some p -> exists r, nth_error S' k = Some r /\
       spun (x, y, z) (in_force (ec_scale call) ds) (in_force (ec_angle call) da) c p r) ->
    swept ds da S' calls rest -> swept ds da S (call :: calls) (S' :: rest).

(* calls with three coordinates, not all zero when the surface turns *)
Definition spins (da : option R) (call : ex_call) : Prop :=
  exists x y z, ec_vector call = [x; y; z] /\ (in_force (ec_angle call) da <> None -> (x, y, z) <> (0, 0, 0)).
(* subdivisions from 0 to 1 *)
Definition subdivided (call : ex_call) (perc : list R) : Prop :=
  resolution_to_perc (ec_res call) (ec_method call) = Ok perc /\ (2 <= length perc)%nat /\
  nth_error perc 0 = Some 0 /\ nth_error perc (length perc - 1) = Some 1.
Definition named_call (call : ex_call) : Prop := ec_group call = GNone \/ exists s, ec_group call = GStr s.

(* a call cut at the fractions perc *)
Definition cut_at (call : ex_call) (perc : list R) : Prop :=
  resolution_to_perc (ec_res call) (ec_method call) = Ok perc /\ (2 <= length perc)%nat.
