(* Vocabulary of the property C164. *)
From Coq Require Import Reals.
From Verif Require Import Prelude Grid Perc_model Volume_spec Groups_spec Stack_spec Final_spec Unstr_spec Sweep_spec.
From Verif Require Import Stack_model Sweep2_model.
Open Scope nat_scope.

(* a call that moves the mesh along v, with layers at these fractions of the move *)
Definition shifts_by (c : ex_call) (v : R * R * R) (perc : list R) : Prop :=
  (let '(x, y, z) := v in ec_vector c = [x; y; z]) /\ ec_scale c = None /\ ec_angle c = None /\
  resolution_to_perc (ec_res c) (ec_method c) = Ok perc /\ 2 <= length perc.
Definition shifts (calls : list ex_call) (vs : list (R * R * R)) (percs : list (list R)) : Prop :=
  length vs = length calls /\ length percs = length calls /\
  forall j c v perc, nth_error calls j = Some c -> nth_error vs j = Some v -> nth_error percs j = Some perc -> shifts_by c v perc.

(* the point p after the first j moves and the fraction t of the next one *)
Definition shifted (p : R * R * R) (vs : list (R * R * R)) (j : nat) (v : R * R * R) (t : R) : R * R * R :=
  let '(x, y, z) := p in let '(a, b, c) := vsum (firstn j vs) in let '(vx, vy, vz) := v in
  (x + a + t * vx, y + b + t * vy, z + c + t * vz)%R.

(* the first layer of move j over the cell cannot be told from a flat one *)
Definition thin (pts : list (R * R * R)) (vs : list (R * R * R)) (j : nat) (v : R * R * R) (perc : list R) (base : nat * list nat) : Prop :=
  forall u t t' p, In u (snd base) -> nth_error perc 0 = Some t -> nth_error perc 1 = Some t' -> nth_error pts u = Some p ->
    near (shifted p vs j v t) (shifted p vs j v t').

(* the cells of the mesh: (j, l, c) is above cell c of the base, in layer l of move j; each is there once *)
Definition columns (nc : nat) (percs : list (list R)) (place : list (nat * nat * nat)) : Prop :=
  NoDup place /\
  forall j l c, In (j, l, c) place <-> exists perc, nth_error percs j = Some perc /\ S l < length perc /\ c < nc.

(* groups that can be given to the cells of a mesh: none, a name, or masks with one entry per cell *)
Definition usable_group (mesh : gmesh nat) (group : Groups_model.group_arg nat) : Prop :=
  forall d, group = Groups_model.GDict d -> forall e, In e d ->
    exists b, length b = length (Groups_model.gm_cells mesh) /\
      (snd e = Groups_model.SelArr (Groups_model.MBool b) \/
       exists f, snd e = Groups_model.SelCall f /\ f mesh = Groups_model.MBool b).
