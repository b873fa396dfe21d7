(* Vocabulary of the properties of geometric objects, lines and interpolation. *)
From Coq Require Import Reals.
From Verif Require Import Prelude Perc_model Grid Surface_model Surface_spec Objects_model.
From Verif Require Export Vec_spec.
Open Scope R_scope.

(* p are the relative positions of the subdivisions asked by s (see C01-C03) *)
Definition subdivides (s : sub) (p : list R) : Prop := resolution_to_perc (sb_res s) (sb_method s) = Ok p.

(* the argument center and the translation it stands for *)
Inductive offset : option (list R) -> pt -> Prop :=
| off_none : offset None (0, 0, 0)
| off_two x y : offset (Some [x; y]) (x, y, 0)
| off_three x y z : offset (Some [x; y; z]) (x, y, z).

(* point of a surface of the plane xy at grid coordinates i, j *)
Definition node {D} (g : sgrid D) (i j : nat) : option pt := at_coord (sg_dims g) (sg_pts g) (i, j, 0)%nat.

(* degrees *)
Definition degrees (a : R) : R := a * PI / 180.

(* point at radius r and angle a (degrees) around c *)
Definition polar (c : pt) (r a : R) : pt :=
  let '(x, y, z) := c in (x + r * cos (degrees a), y + r * sin (degrees a), z).

(* position t between a and b *)
Definition between (t a b : R) : R := (1 - t) * a + t * b.

(* twice the signed area of a triangle in the plane xy *)
Definition twice_area3 (a b c : pt) : R :=
  let '(ax, ay, _) := a in let '(bx, by_, _) := b in let '(cx, cy, _) := c in
  (bx - ax) * (cy - ay) - (by_ - ay) * (cx - ax).
(* and of a quadrilateral *)
Definition twice_area4 (a b c d : pt) : R := twice_area3 a b c + twice_area3 a c d.

(* a row of two or three coordinates *)
Inductive row : list R -> pt -> Prop :=
| row_two x y : row [x; y] (x, y, 0)
| row_three x y z : row [x; y; z] (x, y, z).

(* the point with bilinear weights t (from a to b) and s (from a to d) *)
Definition bilinear (a b c d : pt) (t s : R) : pt :=
  let '(ax, ay, az) := a in let '(bx, by_, bz) := b in
  let '(cx, cy, cz) := c in let '(dx, dy, dz) := d in
  let f := fun a b c d => (1 - t) * (1 - s) * a + t * (1 - s) * b + t * s * c + (1 - t) * s * d in
  (f ax bx cx dx, f ay by_ cy dy, f az bz cz dz).

(* p moved by c *)
Definition moved (p c : pt) : pt :=
  let '(x, y, z) := p in let '(a, b, e) := c in (x + a, y + b, z + e).

(* the point at position t of the segment from p to q *)
Definition on_segment (t : R) (p q : pt) : pt :=
  let '(x, y, z) := p in let '(a, b, e) := q in (between t x a, between t y b, between t z e).

(* distances and lengths *)
Definition dist3 (p q : pt) : R :=
  let '(x, y, z) := p in let '(a, b, c) := q in
  sqrt ((a - x) * (a - x) + (b - y) * (b - y) + (c - z) * (c - z)).
Fixpoint polyline_length (l : list pt) : R :=
  match l with
  | p :: ((q :: _) as l') => dist3 p q + polyline_length l'
  | _ => 0
  end.

(* P is met at distance d along the polyline *)
Inductive along : list pt -> R -> pt -> Prop :=
| along_end p : along [p] 0 p
| along_in p q l t : 0 <= t <= 1 -> along (p :: q :: l) (t * dist3 p q) (on_segment t p q)
| along_next p q l d P : along (q :: l) d P -> along (p :: q :: l) (dist3 p q + d) P.

(* inner product, multiples and directions *)
Definition inner (p q : pt) : R :=
  let '(x, y, z) := p in let '(a, b, c) := q in x * a + y * b + z * c.
Definition times (k : R) (p : pt) : pt := let '(x, y, z) := p in (k * x, k * y, k * z).

(* i is the only axis, apart from [axis], along which the points vary *)
Definition only_axis (axis i : nat) (points : list pt) : Prop :=
  (i <= 2)%nat /\ i <> axis /\
  forall k, (k <= 2)%nat -> k <> axis ->
    (k = i <-> exists p q, In p points /\ In q points /\ xyz k p <> xyz k q).

Inductive increasing : list R -> Prop :=
| inc_nil : increasing []
| inc_one x : increasing [x]
| inc_cons x y l : x < y -> increasing (y :: l) -> increasing (x :: y :: l).

(* the values do not decrease *)
Inductive ascending : list R -> Prop :=
| asc_nil : ascending []
| asc_one x : ascending [x]
| asc_cons x y l : x <= y -> ascending (y :: l) -> ascending (x :: y :: l).

(* the coordinates along axis i of the base points lie between those of the first and the last data point *)
Definition enclosed (i : nat) (points base : list pt) : Prop :=
  exists p q, hd_error points = Some p /\ nth_error points (length points - 1) = Some q /\
    forall b, In b base -> xyz i p <= xyz i b <= xyz i q.

(* the corners of cell (i, j) of a surface, in VTK order *)
Definition quad {D} (g : sgrid D) (i j : nat) (a b c d : pt) : Prop :=
  node g i j = Some a /\ node g (S i) j = Some b /\ node g (S i) (S j) = Some c /\ node g i (S j) = Some d.

(* the direction of p *)
Definition unit_of (p : pt) : pt := times (/ dist3 (0, 0, 0) p) p.

(* number of segments asked of a regular line: by default, the number of points *)
Definition regular_count (points : list pt) (resolution : option Z) : Z :=
  match resolution with None => Z.of_nat (length points) | Some r => if (r =? 0)%Z then Z.of_nat (length points) else r end.

(* no extrapolation is asked *)
Definition no_extrapolation (e : option string) : Prop := e = None \/ e = Some EmptyString.

(* the default subdivision: a single one *)
Definition default_sub : sub := mkSub ResNone None.
