(* Specification vocabulary for volumes between two surfaces. *)
From Coq Require Import Reals.
From Verif Require Import Grid.
Open Scope nat_scope.

(* ---- VTK cells and the decoder of the VTK cell stream ---- *)
Inductive vcell := Plain (ty : nat) (ids : list nat) | Poly (faces : list (list nat)).

Definition vcell_ids (c : vcell) : list nat :=
  match c with Plain _ ids => ids | Poly fs => concat fs end.

Fixpoint take_faces (nf : nat) (s : list nat) : option (list (list nat) * list nat) :=
  match nf with
  | 0 => Some ([], s)
  | S nf' =>
      match s with
      | [] => None
      | n :: s' =>
          if length s' <? n then None else
          match take_faces nf' (skipn n s') with
          | Some (fs, rest) => Some (firstn n s' :: fs, rest)
          | None => None
          end
      end
  end.

Definition decode_cell (ty : nat) (body : list nat) : option vcell :=
  if ty =? 42 then
    match body with
    | [] => None
    | nf :: b => match take_faces nf b with Some (fs, []) => Some (Poly fs) | _ => None end
    end
  else Some (Plain ty body).

Fixpoint decode (types : list nat) (s : list nat) : option (list vcell) :=
  match types with
  | [] => match s with [] => Some [] | _ => None end
  | t :: ts =>
      match s with
      | [] => None
      | n :: s' =>
          if length s' <? n then None else
          match decode_cell t (firstn n s'), decode ts (skipn n s') with
          | Some c, Some cs => Some (c :: cs)
          | _, _ => None
          end
      end
  end.

(* ---- closed rings ---- *)
Fixpoint pairs {A} (l : list A) : list (A * A) :=
  match l with
  | x :: (y :: _) as l' => (x, y) :: pairs l'
  | _ => []
  end.

(* directed edges of a closed ring of vertices *)
Definition ring_edges {A} (f : list A) : list (A * A) :=
  match f with [] => [] | x :: l => pairs (x :: l ++ [x]) end.

Definition lift (k np : nat) (ids : list nat) : list nat := map (fun v => v + k * np) ids.

(* ---- what a cell of layer l extruded from a base cell is ---- *)
Inductive extruded (invert : bool) (np l : nat) : nat * list nat -> vcell -> Prop :=
| ext_triangle ids : extruded invert np l (5, ids) (Plain 13 (lift l np ids ++ lift (S l) np ids))
| ext_quad ids : extruded invert np l (9, ids) (Plain 12 (lift l np ids ++ lift (S l) np ids))
| ext_pixel a b c d :
    extruded invert np l (8, [a; b; c; d])
      (Plain 12 (lift l np [a; b; d; c] ++ lift (S l) np [a; b; d; c]))
| ext_polygon ids ring :
    ring = ids \/ (invert = true /\ ring = rev ids) ->
    extruded invert np l (7, ids)
      (Poly (lift l np ring
             :: (if invert then rev (lift (S l) np ring) else lift (S l) np ring)
             :: map (fun '(u, v) => [u + S l * np; v + S l * np; v + l * np; u + l * np])
                    (ring_edges ring))).

(* ---- closed surfaces ---- *)
Definition edge_dec : forall x y : nat * nat, {x = y} + {x <> y}.
Proof. decide equality; apply Nat.eq_dec. Defined.

Definition surface_edges (faces : list (list nat)) : list (nat * nat) :=
  flat_map ring_edges faces.

Definition edge_count (faces : list (list nat)) (u v : nat) : nat :=
  count_occ edge_dec (surface_edges faces) (u, v).

(* every directed edge is used at most once and exactly as often as its opposite *)
Definition closed_oriented (faces : list (list nat)) : Prop :=
  forall u v, edge_count faces u v <= 1 /\ edge_count faces u v = edge_count faces v u.

(* every undirected edge is used by no face or by exactly two *)
Definition closed_surface (faces : list (list nat)) : Prop :=
  forall u v, edge_count faces u v + edge_count faces v u = 0 \/
              edge_count faces u v + edge_count faces v u = 2.

(* ---- geometry ---- *)
Notation vec := (R * R * R)%type.
Definition vsub (p q : vec) : vec :=
  let '(x, y, z) := p in let '(x', y', z') := q in (x - x', y - y', z - z')%R.
Definition vadd (p q : vec) : vec :=
  let '(x, y, z) := p in let '(x', y', z') := q in (x + x', y + y', z + z')%R.
Definition det3 (p q r : vec) : R :=
  let '(a, b, c) := p in let '(d, e, f) := q in let '(g, h, i) := r in
  ((b * f - c * e) * g + (c * d - a * f) * h + (a * e - b * d) * i)%R.

(* p q r are consecutive in the ring *)
Definition corner (f : list nat) (p q r : nat) : Prop :=
  In (p, q) (ring_edges f) /\ In (q, r) (ring_edges f).

(* oriented volume of the corner p q r and direction d *)
Definition turn (P : nat -> vec) (d : vec) (p q r : nat) : R :=
  det3 (vsub (P q) (P p)) (vsub (P r) (P p)) d.

Definition all_turns (P : nat -> vec) (d : vec) (f : list nat) (sgn : R -> Prop) : Prop :=
  forall p q r, corner f p q r -> sgn (turn P d p q r).

(* twice the vector area of a ring dotted with d (Newell) *)
Definition area_along (P : nat -> vec) (d : vec) (f : list nat) : R :=
  fold_right (fun '(u, v) acc => (det3 (P u) (P v) d + acc)%R) 0%R (ring_edges f).

(* the ring is strictly convex seen along d: every other vertex lies strictly on the
   same side (s = 1 or s = -1) of every edge *)
Definition convex_ring (P : nat -> vec) (d : vec) (f : list nat) : Prop :=
  exists s : R, (s = 1%R \/ s = (-1)%R) /\
    forall u v w, In (u, v) (ring_edges f) -> In w f -> w <> u -> w <> v ->
      (0 < s * turn P d u v w)%R.

Definition planar_ring (P : nat -> vec) (f : list nat) : Prop :=
  forall p q r w, In p f -> In q f -> In r f -> In w f ->
    det3 (vsub (P q) (P p)) (vsub (P r) (P p)) (vsub (P w) (P p)) = 0%R.

(* every face of the cell turns its back to the cell: seen from any corner of the face
   (right-hand rule) no vertex of the cell is in front, and some vertex is behind *)
Definition outward (P : nat -> vec) (faces : list (list nat)) : Prop :=
  forall f p q r, In f faces -> corner f p q r ->
    (forall w, In w (concat faces) ->
       (det3 (vsub (P q) (P p)) (vsub (P r) (P p)) (vsub (P w) (P p)) <= 0)%R) /\
    (exists w, In w (concat faces) /\
       (det3 (vsub (P q) (P p)) (vsub (P r) (P p)) (vsub (P w) (P p)) < 0)%R).

(* positions of [pts] (only used below its length) *)
Definition at_pts (pts : list vec) (i : nat) : vec := nth i pts (0%R, 0%R, 0%R).

(* np.allclose tolerance: |x - y| <= 1e-8 + 1e-5 |y|, for each coordinate *)
Definition near (p q : vec) : Prop :=
  let '(x, y, z) := p in let '(x', y', z') := q in
  (Rabs (x - x') <= / 10^8 + / 10^5 * Rabs x' /\
   Rabs (y - y') <= / 10^8 + / 10^5 * Rabs y' /\
   Rabs (z - z') <= / 10^8 + / 10^5 * Rabs z')%R.

(* the copies of the vertices [ids] in layers l and l+1 are indistinguishable *)
Definition flat_at (pts : list vec) (np l : nat) (ids : list nat) : Prop :=
  forall x, In x ids -> near (at_pts pts (x + l * np)) (at_pts pts (x + S l * np)).

(* the types of the cells of two surfaces agree: one by one or, when one surface has one cell, with that cell *)
Definition types_agree (ta tb : list nat) : Prop :=
  ta = tb \/ (exists t, ta = [t] /\ Forall (eq t) tb) \/ (exists t, tb = [t] /\ Forall (eq t) ta).
