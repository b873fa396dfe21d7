(* Vocabulary of the properties of Voronoi seeds: circles and polylines. *)
From Coq Require Import Reals.
From Verif Require Import Prelude Perc_model Grid Surface_model Volume_model Groups_model Lines_model Lines_spec Voronoi_model
  Objects_model Objects_spec Seeds_model.
From Verif Require Export Vec_spec.
From Verif Require Groups_spec.
Open Scope R_scope.

(* p in the plane of the mesh *)
Definition in_plane (axis : nat) (p : pt) : pt :=
  let '(x, y, z) := p in match axis with O => (0, y, z) | S O => (x, 0, z) | _ => (x, y, 0) end.

(* the constraint radius that stands for the argument *)
Definition constraint_of (radius : R) (arg : option R) (cr : R) : Prop :=
  arg = Some cr \/ arg = None /\ cr = 3 / 2 * radius.

(* triangle from the center and quadrilateral of a ring, between angles a and a' (degrees) *)
Definition pie (c : pt) (r a a' : R) : list pt := [c; polar c r a; polar c r a'].
Definition ring (c : pt) (r1 r2 a a' : R) : list pt :=
  [polar c r1 a; polar c r1 a'; polar c r2 a'; polar c r2 a].

(* cells of an item *)
Definition cells_of (it : vitem (list pt)) : list (list pt) := gm_cells (vi_mesh it).

(* mean of the vertices of a cell, where VTK places the center of a triangle or quadrilateral *)
Definition total (f : pt -> R) (c : list pt) : R := fold_right (fun p acc => f p + acc) 0 c.
Definition mean_point (c : list pt) : pt :=
  let n := INR (length c) in
  (total (xyz 0) c / n, total (xyz 1) c / n, total (xyz 2) c / n).

(* the mesh of an item, possibly clipped *)
Inductive clipped {A} (m : gmesh A) : gmesh A -> Prop :=
| clip_none : clipped m m
| clip_mask mask : clipped m (extract_mask mask m).

(* all the cells of the mesh get group [name] *)
Definition all_in_group {A} (o : options) (m : gmesh A) (group name : string) : Prop :=
  forall groups, (forall k n, Groups_spec.entry_of k groups = Some n -> (0 <= n)%Z) -> exists arr groups',
    initialize_group_array o m groups (GStr group) "" = Ok (arr, groups') /\
    length arr = length (gm_cells m) /\ Forall (fun n => Groups_spec.entry_of name groups' = Some n) arr.

(* ---- polylines ---- *)
Notation vec := (R * R)%type.

(* the plane of the mesh in space: coordinates (u, v) along the other two axes *)
Definition embed (axis : nat) (p : vec) : pt :=
  let '(u, v) := p in match axis with O => (0, u, v) | S O => (u, 0, v) | _ => (u, v, 0) end.
Definition project (axis : nat) (p : pt) : vec :=
  let '(x, y, z) := p in match axis with O => (y, z) | S O => (x, z) | _ => (x, y) end.

(* b is the middle of a and c *)
Definition middle_of (a b c : vec) : Prop := fst a + fst c = 2 * fst b /\ snd a + snd c = 2 * snd b.

(* E is the line Q prolonged by cs points before and ce points after, the end segments being repeated *)
Definition prolonged (cs ce : nat) (Q E : list vec) : Prop :=
  length E = (cs + length Q + ce)%nat /\
  (forall k q, nth_error Q k = Some q -> nth_error E (cs + k) = Some q) /\
  (forall k a b c, (k < cs)%nat -> nth_error E k = Some a -> nth_error E (S k) = Some b ->
     nth_error E (S (S k)) = Some c -> middle_of a b c) /\
  (forall k a b c, (cs + length Q <= S (S k))%nat -> nth_error E k = Some a -> nth_error E (S k) = Some b ->
     nth_error E (S (S k)) = Some c -> middle_of a b c).

(* the points before and after point k of a line, or point k itself at its ends *)
Definition around (E : list vec) (k : nat) (a b : vec) : Prop :=
  nth_error E (k - 1) = Some a /\
  (nth_error E (S k) = Some b \/ nth_error E (S k) = None /\ nth_error E k = Some b).

(* n is the unit vector on the left of the direction from a to b *)
Definition left_normal (a b n : vec) : Prop :=
  fst n * fst n + snd n * snd n = 1 /\
  (fst b - fst a) * fst n + (snd b - snd a) * snd n = 0 /\
  0 < (fst b - fst a) * snd n - (snd b - snd a) * fst n.

(* the positions P are p with one more interval at each end, as wide as its neighbour *)
Definition widened (p P : list R) : Prop :=
  length P = S (S (length p)) /\
  (forall k x, nth_error p k = Some x -> nth_error P (S k) = Some x) /\
  (forall k a b c, k = 0%nat \/ S (S (S k)) = length P -> nth_error P k = Some a -> nth_error P (S k) = Some b ->
     nth_error P (S (S k)) = Some c -> a + c = 2 * b).

(* cells of a grid of n x m cells, the first index being the fastest, and those of the core *)
Definition cell_indices (n m : nat) : list (nat * nat) :=
  flat_map (fun j => map (fun i => (i, j)) (seq 0 n)) (seq 0 m).
Definition core (n m cs ce : nat) (ij : nat * nat) : bool :=
  ((cs <=? fst ij) && (fst ij + ce <? n) && (0 <? snd ij) && (snd ij + 1 <? m))%nat%bool.

(* node of a strip: at position s across the width, on the normal at point P of the line *)
Definition across (width : R) (P n : vec) (s : R) : vec :=
  (fst P + (s - / 2) * width * fst n, snd P + (s - / 2) * width * snd n).
Definition strip_node (axis : nat) (width : R) (E N : list vec) (P : list R) (i j : nat) : pt :=
  embed axis (across width (nth i E (0, 0)) (nth i N (0, 0)) (nth j P 0)).
Definition strip_cell (axis : nat) (width : R) (E N : list vec) (P : list R) (ij : nat * nat) : list pt :=
  let '(i, j) := ij in
  let f := strip_node axis width E N P in [f i j; f (S i) j; f (S i) (S j); f i (S j)].

(* point at distance d from p, away from q *)
Definition beyond (d : R) (p q : vec) : vec :=
  let l := sqrt ((fst p - fst q) * (fst p - fst q) + (snd p - snd q) * (snd p - snd q)) in
  (fst p + d * (fst p - fst q) / l, snd p + d * (snd p - snd q) / l).
Definition halfway (p q : vec) : vec := ((fst p + fst q) / 2, (snd p + snd q) / 2).

(* the line whose strip is drawn: the points themselves or, with preference "cell", the middles of
   the segments between two points beyond the ends *)
Inductive drawn (padding : R) : preference -> list vec -> list vec -> Prop :=
| drawn_points Q : drawn padding PrefPoint Q Q
| drawn_cells Q Q' p0 p1 q0 q1 : length Q' = S (length Q) ->
    nth_error Q 0 = Some p0 -> nth_error Q 1 = Some p1 ->
    nth_error Q (length Q - 1) = Some q0 -> nth_error Q (length Q - 2) = Some q1 ->
    nth_error Q' 0 = Some (beyond padding p0 p1) ->
    nth_error Q' (length Q) = Some (beyond padding q0 q1) ->
    (forall k a b, nth_error Q k = Some a -> nth_error Q (S k) = Some b -> nth_error Q' (S k) = Some (halfway a b)) ->
    drawn padding PrefCell Q Q'.

(* the padding that stands for the argument *)
Definition padding_of (width : R) (arg : option R) : R := match arg with Some p => p | None => width / 2 end.

(* polyline(s) given as an array or as the lines of a polydata *)
Inductive polylines {D} : list pt + lmesh pt D -> list (list pt) -> Prop :=
| pl_array pts : (2 <= length pts)%nat -> polylines (inl pts) [pts]
| pl_mesh m ls : wf_lines m -> runs (l_pts m) (l_cells m) ls -> polylines (inr m) ls.

(* no point of the line coincides with the next but one, nor the ends with their neighbours *)
Definition no_return (E : list vec) : Prop :=
  forall k a b, (k < length E)%nat -> around E k a b -> a <> b.

(* the two items of a polyline: a strip of sections of the given width, perpendicular to the line,
   at positions P across the width; core cells first, constraint cells next *)
Definition draws (axis : nat) (width : R) (pref : preference) (padding : option R) (cs ce : nat) (P : list R)
  (points : list pt) (priority : Z) (group : string) (it1 it2 : vitem (list pt)) : Prop :=
  exists Q E N, drawn (padding_of width padding) pref (map (project axis) points) Q /\ prolonged cs ce Q E /\
    length N = length E /\
    (forall k a b, (k < length E)%nat -> around E k a b -> a <> b -> left_normal a b (nth k N (0, 0))) /\
    cells_of it1 = map (strip_cell axis width E N P)
      (filter (core (length E - 1) (length P - 1) cs ce) (cell_indices (length E - 1) (length P - 1))) /\
    cells_of it2 = map (strip_cell axis width E N P)
      (filter (fun ij => negb (core (length E - 1) (length P - 1) cs ce ij)) (cell_indices (length E - 1) (length P - 1))) /\
    vi_prio it1 = priority /\ vi_group it1 = group /\ vi_prio it2 = 0%Z /\ vi_group it2 = ""%string /\
    vi_poly it1 = false /\ vi_poly it2 = false.


(* the two items of each polyline, in order *)
Inductive drawn_all (f : list pt -> vitem (list pt) -> vitem (list pt) -> Prop) : list (list pt) -> list (vitem (list pt)) -> Prop :=
| da_nil : drawn_all f [] []
| da_cons l ls a b its : f l a b -> drawn_all f ls its -> drawn_all f (l :: ls) (a :: b :: its).


(* p and q are mirror images of each other in the line through a and b *)
Definition mirror (a b p q : pt) : Prop :=
  vinner (vminus q p) (vminus b a) = 0 /\ exists t, vtimes (/ 2) (vplus p q) = vline t a b.

(* the points of E number i to k, at least two, follow each other in one direction *)
Definition straight (E : list vec) (i k : nat) : Prop :=
  (i < k)%nat /\ exists d : vec, d <> (0, 0) /\ forall l a b, (i <= l < k)%nat ->
    nth_error E l = Some a -> nth_error E (S l) = Some b ->
    exists c, 0 < c /\ fst b - fst a = c * fst d /\ snd b - snd a = c * snd d.

(* all the vertices of the item are in the plane of the mesh *)
Definition flat (axis : nat) (it : vitem (list pt)) : Prop :=
  Forall (Forall (fun p => xyz axis p = 0)) (cells_of it).

(* a cell of each item has both a and b as vertices, and their centers are mirror images in the line
   through a and b: the cells of the Voronoi diagram meet along that line *)
Definition mirrored (it1 it2 : vitem (list pt)) (a b : pt) : Prop :=
  exists c1 c2, In c1 (cells_of it1) /\ In c2 (cells_of it2) /\
    In a c1 /\ In b c1 /\ In a c2 /\ In b c2 /\ mirror a b (mean_point c1) (mean_point c2).
