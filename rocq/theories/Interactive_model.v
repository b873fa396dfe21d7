(* Model of pvgridder/utils/_interactive.py: interactive_lasso_selection (46-172),
   interactive_selection (174-270).  The window is a list of events (the picks of the user
   between p.show() and the closing of the window). *)
From Coq Require Import Reals Ascii.
From Verif Require Import Prelude Surface_model.
Open Scope nat_scope.

(* str.startswith("-") and view[1:] : 133-134, 256-257 *)
Definition split_view (v : string) : bool * string :=
  match v with
  | String c rest => if Ascii.eqb c "-"%char then (true, rest) else (false, v)
  | _ => (false, v)
  end.

(* character tests "x" not in view_ : 148-155 *)
Fixpoint has_char (c : Ascii.ascii) (s : string) : bool :=
  match s with
  | EmptyString => false
  | String d s' => Ascii.eqb c d || has_char c s'
  end.

(* 136-140, 259-263: getattr(p, f"view_{view_}")(negative=negative), [known_view] tells whether the plotter
   has the method view_<name>; returns the name of the method called and its argument *)
Definition set_view (known_view : string -> bool) (view : string) : res (string * bool) :=
  let '(negative, v) := split_view view in
  if known_view v then Ok (v, negative) else Err ValueError.

(* ---------- interactive_selection ---------- *)

(* 226, 231-244: the dict of actors by id in insertion order, the actors drawn by the
   plotter, and the number of actors created so far (p.add_mesh returns a new one) *)
Record picking := mkPick { pk_actors : list (Z * nat); pk_drawn : list nat; pk_next : nat }.

Definition dict_mem (k : Z) (d : list (Z * nat)) : bool := existsb (fun kv => Z.eqb k (fst kv)) d.
(* actors.pop(id_): the value of the (only) entry and the other entries *)
Definition dict_get (k : Z) (d : list (Z * nat)) : option nat :=
  match find (fun kv => Z.eqb k (fst kv)) d with Some kv => Some (snd kv) | None => None end.
Definition dict_del (k : Z) (d : list (Z * nat)) : list (Z * nat) :=
  filter (fun kv => negb (Z.eqb k (fst kv))) d.

(* 231-244 callback; [ids] is the array vtkOriginalCellIds (or vtkOriginalPointIds) of the
   picked mesh, of which the first entry is used *)
Definition callback (st : picking) (ids : list Z) : res picking :=
  match ids with
  | [] => Err IndexError                                                        (* 232-236 *)
  | id :: _ =>
      if negb (dict_mem id (pk_actors st)) then                                 (* 238-240 *)
        Ok (mkPick (pk_actors st ++ [(id, pk_next st)]) (pk_drawn st ++ [pk_next st]) (S (pk_next st)))
      else                                                                      (* 242-244 *)
        match dict_get id (pk_actors st) with
        | Some a => Ok (mkPick (dict_del id (pk_actors st))
                          (filter (fun b => negb (Nat.eqb a b)) (pk_drawn st)) (pk_next st))
        | None => Err KeyError
        end
  end.

Fixpoint picks_loop (st : picking) (events : list (list Z)) : res picking :=
  match events with
  | [] => Ok st
  | e :: es => let! st' := callback st e in picks_loop st' es
  end.

(* an event gives the picked mesh: its cell data and its point data arrays *)
Record event := mkEv { ev_cells : list Z; ev_points : list Z }.

(* 174-270.  The camera is returned as the call of set_view. *)
Definition interactive_selection (known_view : string -> bool) (view : option string)
  (preference : string) (events : list event) : res (list Z * list nat * option (string * bool)) :=
  let! camera := (match view with                                                    (* 255-263 *)
             | None | Some EmptyString => Ok None
             | Some v => let! c := set_view known_view v in Ok (Some c)
             end) in
  let! st := picks_loop (mkPick [] [] 0)
               (map (fun e => if String.eqb preference "cell"%string then ev_cells e else ev_points e) events) in
  Ok (map fst (pk_actors st), pk_drawn st, camera).                                     (* 270 *)

(* ---------- interactive_lasso_selection ---------- *)

(* np.delete(points, k, axis=1) on rows of three coordinates *)
Definition delete_column (k : nat) (p : pt) : R * R :=
  let '(x, y, z) := p in
  match k with 0 => (y, z) | 1 => (x, z) | _ => (x, y) end.

(* 148-155 *)
Definition removed_axis (view : string) : nat :=
  if negb (has_char "x"%char view) then 0
  else if negb (has_char "y"%char view) then 1
  else 2.

(* shapely.contains_xy(polygon, coords): the first two columns of coords *)
Definition first_two (p : pt) : R * R := let '(x, y, z) := p in (x, y).

(* np.flatnonzero *)
Definition flatnonzero (mask : list bool) : list nat := mask_get mask (seq 0 (length mask)).

(* 100-128 callback: the points of the lasso after a click *)
Definition lasso_click (points : list pt) (p : pt) : list pt :=
  match points with [] => [p] | _ => points ++ [p] end.

(* 46-172.  [polygon] is shapely.Polygon together with contains_xy; [centers] is
   get_cell_centers(mesh). *)
Definition interactive_lasso_selection (known_view : string -> bool)
  (polygon : list (R * R) -> res (R * R -> bool)) (centers points : list pt)
  (view preference : string) (clicks : list pt) : res (list nat * list (R * R) * (string * bool)) :=
  let! camera := set_view known_view view in                                    (* 133-140 *)
    let v := fst camera in
    let outline := map (delete_column (removed_axis v)) (fold_left lasso_click clicks []) in (* 148-155 *)
    let! inside := polygon outline in                                           (* 157 *)
    let mask := if String.eqb preference "cell"%string
                then map (fun p => inside (first_two p)) centers                (* 159-161 *)
                else map (fun p => inside (first_two p)) points in              (* 163-164 *)
    Ok (flatnonzero mask, outline, camera).                                             (* 166-172 *)
