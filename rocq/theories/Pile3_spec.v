(* Vocabulary of the property C168. *)
From Coq Require Import Reals Ascii.
From Verif Require Import Prelude Surface_spec Lines_spec Groups_spec Stack_model Pile_model Pile_spec.
Import Lines_model(lmesh, l_pts, l_cells, l_pd, l_cd).
Open Scope nat_scope.

(* the points of the base line: positions along the axis after the stacking axis, or the first line of a polydata *)
Definition base_points {D} (ax : nat) (arg : list R + lmesh (R * R * R) D) (pts : list (R * R * R)) : Prop :=
  match arg with
  | inl xs => Forall2 (fun x p => p = match ax with 0 => (0, x, 0) | 1 => (0, 0, x) | _ => (x, 0, 0) end)%R xs pts
  | inr m => exists ids rest, l_cells m = ids :: rest /\ picks (l_pts m) ids pts
  end.

(* arrays with distinct names and one value for each point or cell *)
Definition base_ok {D} (arg : list R + lmesh (R * R * R) D) : Prop :=
  match arg with inl _ => True | inr m => wf_lines m /\ NoDup (map fst (l_cd m)) end.

(* x is the value of the array k for the first line *)
Definition first_value {D} (arg : list R + lmesh (R * R * R) D) (k : string) (x : D) : Prop :=
  match arg with inl _ => False | inr m => exists v, In (k, v) (l_cd m) /\ nth_error v 0 = Some x end.

(* the name given by a call: the groups of the base line are not known *)
Definition call_name (default : string) (c : st_call) (k : string) : Prop :=
  match ao_group (sc_opts c) with
  | Groups_model.GStr s =>
      (s = ""%string -> k = default) /\ (forall s', s = String "~"%char s' -> k = default) /\
      (s <> ""%string -> plain s -> k = s)
  | _ => k = default
  end.

(* node number i of the line at height number k of a strip of lines stacked along an axis *)
Definition node_at (ax i k : nat) : nat * nat * nat := match ax with 0 => (k, i, 0) | 1 => (i, k, 0) | _ => (i, 0, k) end.
Definition strip_dims (ax n m : nat) : nat * nat * nat := match ax with 0 => (m, n, 1) | 1 => (n, m, 1) | _ => (n, 1, m) end.

(* heights of point number i of the base line in the lines added by the calls, once cut *)
Definition column_heights interp (up : bool) (base : list (R * R * R)) (i : nat) (calls : list st_call) (out : list R) : Prop :=
  exists ls, heights interp up base i None calls ls /\ (if up then Settle_spec.settled ls out else Settle_spec.settled_down ls out) /\
    length out = length calls.

(* ghost flag of the base line *)
Definition line_flag {D} (int : D -> Z) (arg : list R + lmesh (R * R * R) D) (f : nat) : Prop :=
  (forall x, first_value arg "vtkGhostType" x -> f = Z.to_nat (int x)) /\
  ((forall x, ~ first_value arg "vtkGhostType" x) -> f = 0).
