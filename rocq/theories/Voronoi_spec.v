(* Specification vocabulary for Voronoi meshes. *)
From Coq Require Import Reals Permutation Sorted.
From Verif Require Import Prelude Groups_model Groups_spec Surface_model.
From Verif Require Voronoi_model.
Import Voronoi_model(vitem, vi_mesh, vi_poly, vi_group, vi_prio, vgeo, vg_center, vg_find,
  vbase, vb_mesh, vb_points, vb_pref, preference, PrefCell, PrefPoint,
  diagram, d_points, d_ridge_points, d_ridge_vertices, d_point_region, d_regions, d_vertices).
Open Scope nat_scope.

(* ---- candidates ---- *)
(* where a candidate point comes from: the background mesh, or item number i; c is the number
   of the cell (or point) of that mesh *)
Inductive owner := Background | Item (i : nat).
Record site := mkSite { s_owner : owner; s_cell : nat; s_pt : pt }.

(* the center of the cell lies in the background mesh *)
Definition inside {A} (g : vgeo A) (base : list A) (p : pt) : Prop := vg_find g base p <> None.

(* the cells of an item that are retained: those whose center lies in the background mesh or,
   when there is none, all of them *)
Definition retained {A} (g : vgeo A) (base cells kept : list A) : Prop :=
  (exists c, In c cells /\ inside g base (vg_center g c)) /\
    (exists ins : A -> bool, (forall c, ins c = true <-> inside g base (vg_center g c)) /\ kept = filter ins cells)
  \/ (forall c, In c cells -> ~ inside g base (vg_center g c)) /\ kept = cells.

(* the points are numbered like the cells they come from, in increasing order *)
Definition site_of {A} (g : vgeo A) (o : owner) (cells : list A) (s : site) : Prop :=
  s_owner s = o /\ exists c, nth_error cells (s_cell s) = Some c /\ s_pt s = vg_center g c.

(* l is the list of the sites of the retained cells, in the order of the cells *)
Definition item_sites {A} (g : vgeo A) (base : list A) (i : nat) (it : vitem A) (l : list site) : Prop :=
  Forall (site_of g (Item i) (gm_cells (vi_mesh it))) l /\
  StronglySorted (fun s t => s_cell s < s_cell t) l /\
  exists kept, retained g base (gm_cells (vi_mesh it)) kept /\ map s_pt l = map (vg_center g) kept /\
               Forall2 (fun s c => nth_error (gm_cells (vi_mesh it)) (s_cell s) = Some c) l kept.

(* the sites of the background mesh *)
Definition base_sites {A} (g : vgeo A) (b : vbase A) (l : list site) : Prop :=
  Forall (fun s => s_owner s = Background) l /\ map s_cell l = seq 0 (length l) /\
  map s_pt l = match vb_pref b with
               | PrefCell => map (vg_center g) (gm_cells (vb_mesh b))
               | PrefPoint => vb_points b
               end.

(* item i is processed before item j: lower absolute priority, ties by insertion *)
Definition before {A} (items : list (vitem A)) (i j : nat) : Prop :=
  exists a b, nth_error items i = Some a /\ nth_error items j = Some b /\
    (Z.abs (vi_prio a) < Z.abs (vi_prio b) \/ Z.abs (vi_prio a) = Z.abs (vi_prio b) /\ (i < j)%nat)%Z.
Definition priority_order {A} (items : list (vitem A)) (order : list nat) : Prop :=
  Permutation order (seq 0 (length items)) /\ StronglySorted (before items) order.

(* all the candidates: those of the background mesh, then those of the items in order *)
Definition candidates {A} (g : vgeo A) (b : vbase A) (items : list (vitem A)) (l : list site) : Prop :=
  exists order l0 ls, priority_order items order /\ base_sites g b l0 /\
    Forall2 (fun i li => exists it, nth_error items i = Some it /\
                         item_sites g (gm_cells (vb_mesh b)) i it li) order ls /\
    l = l0 ++ concat ls.

(* ---- priorities ---- *)
(* item i takes precedence over the owner of a point: always over the background, otherwise when
   its absolute priority is higher, or equal provided that it was added later with a
   priority that is not negative *)
Definition outranks {A} (items : list (vitem A)) (i : nat) (o : owner) : Prop :=
  match o with
  | Background => True
  | Item j => exists a b, nth_error items i = Some a /\ nth_error items j = Some b /\
      (Z.abs (vi_prio b) < Z.abs (vi_prio a) \/
       Z.abs (vi_prio b) = Z.abs (vi_prio a) /\ (j < i)%nat /\ 0 <= vi_prio a)%Z
  end.

(* a retained cell of the item contains p.  Items that are PolyData contain nothing when they
   lie entirely out of the background mesh *)
Definition covers {A} (g : vgeo A) (base : list A) (it : vitem A) (p : pt) : Prop :=
  exists kept, retained g base (gm_cells (vi_mesh it)) kept /\ vg_find g kept p <> None /\
    (vi_poly it = false \/ exists c, In c (gm_cells (vi_mesh it)) /\ inside g base (vg_center g c)).

Definition covered {A} (g : vgeo A) (b : vbase A) (items : list (vitem A)) (s : site) : Prop :=
  exists i it, nth_error items i = Some it /\ outranks items i (s_owner s) /\
    covers g (gm_cells (vb_mesh b)) it (s_pt s).

(* the group of a site: that of its item or, when it has none, the label of its cell; points of the
   background mesh are in the default group *)
Definition site_name {A} (o : options) (b : vbase A) (items : list (vitem A)) (s : site) (k : string) : Prop :=
  match s_owner s with
  | Background =>
      match vb_pref b with
      | PrefCell => base_name (labelled (vb_mesh b)) (ignore_groups o) (default_group o) (s_cell s) k
      | PrefPoint => k = default_group o
      end
  | Item i => exists it, nth_error items i = Some it /\
      ((vi_group it <> ""%string /\ k = vi_group it) \/
       (vi_group it = ""%string /\
        base_name (labelled (vi_mesh it)) (ignore_groups o) (default_group o) (s_cell s) k))
  end.

(* meshes are well formed and the groups of the items are plain names *)
Definition well_formed {A} (b : vbase A) (items : list (vitem A)) : Prop :=
  aligned (vb_mesh b) /\ forall it, In it items -> aligned (vi_mesh it) /\ plain (vi_group it).

(* ---- tessellation ---- *)
Open Scope Z_scope.
Definition vertex_ok (d : diagram) (v : Z) : Prop := 0 <= v < Z.of_nat (length (d_vertices d)).

(* every ridge has two vertices, one of them possibly at infinity (-1), and separates two
   distinct points; every point has a region *)
Definition proper_diagram (d : diagram) : Prop :=
  length (d_ridge_vertices d) = length (d_ridge_points d) /\
  length (d_point_region d) = length (d_points d) /\
  Forall (fun '(p1, p2) => (p1 < length (d_points d))%nat /\ (p2 < length (d_points d))%nat /\ p1 <> p2 /\
    nth_error (d_points d) p1 <> nth_error (d_points d) p2) (d_ridge_points d) /\
  Forall (fun '(v1, v2) => (vertex_ok d v1 \/ v1 = -1) /\ (vertex_ok d v2 \/ v2 = -1) /\ ~ (v1 = -1 /\ v2 = -1)) (d_ridge_vertices d) /\
  Forall (Forall (fun v => vertex_ok d v \/ v = -1)) (d_regions d) /\
  Forall (fun r => 0 <= r < Z.of_nat (length (d_regions d))) (d_point_region d).

(* the region of point p, as given by the diagram *)
Definition region_of (d : diagram) (p : nat) (r : list Z) : Prop :=
  exists k, nth_error (d_point_region d) p = Some k /\ 0 <= k /\ nth_error (d_regions d) (Z.to_nat k) = Some r.

(* the ridges of p with a vertex at infinity: the other point and the other vertex *)
Definition open_ridge (p : nat) (x : nat * nat * (Z * Z)) : option (nat * Z) :=
  let '((p1, p2), (v1, v2)) := x in
  if (p1 =? p)%nat then if v1 =? -1 then Some (p2, v2) else if v2 =? -1 then Some (p2, v1) else None
  else if (p2 =? p)%nat then if v1 =? -1 then Some (p1, v2) else if v2 =? -1 then Some (p1, v1) else None
  else None.
Definition open_ridges (d : diagram) (p : nat) : list (nat * Z) :=
  concat (map (fun x => match open_ridge p x with Some y => [y] | None => [] end)
              (combine (d_ridge_points d) (d_ridge_vertices d))).

Open Scope R_scope.
Notation pt2 := (R * R)%type.
Definition dist2 (p q : pt2) : R := (fst p - fst q) * (fst p - fst q) + (snd p - snd q) * (snd p - snd q).
Definition dot (u v : pt2) : R := fst u * fst v + snd u * snd v.
Definition minus (p q : pt2) : pt2 := (fst p - fst q, snd p - snd q).
Definition middle (p q : pt2) : pt2 := ((fst p + fst q) / 2, (snd p + snd q) / 2).
Definition barycenter (l : list pt2) (c : pt2) : Prop :=
  fst c * INR (length l) = fold_right Rplus 0 (map fst l) /\
  snd c * INR (length l) = fold_right Rplus 0 (map snd l).

Definition cross (u v : pt2) : R := fst u * snd v - snd u * fst v.

(* w ends the ray that starts at v, orthogonal to ab, away from c and (unless c is aligned with
   a and b) at distance r; it stays on the bisector of a and b *)
Definition ray_end (c : pt2) (r : R) (a b v w : pt2) : Prop :=
  dot (minus w v) (minus b a) = 0 /\
  0 <= r * dot (minus w v) (minus (middle a b) c) /\
  dist2 w v <= r * r /\
  (cross (minus (middle a b) c) (minus b a) <> 0 -> dist2 w v = r * r) /\
  (dist2 v a = dist2 v b -> dist2 w a = dist2 w b).

(* the keys are increasing along l *)
Definition increasing (l : list R) : Prop := StronglySorted Rle l.
(* what np.argsort returns *)
Definition sorts (argsort : list R -> list nat) : Prop :=
  forall l, Permutation (argsort l) (seq 0 (length l)) /\ increasing (map (fun i => nth i l 0) (argsort l)).

(* p and r are a point of the diagram and its region; [out] is what becomes of it among the
   vertices [verts]: unchanged when it is finite, otherwise closed by one vertex per ridge at
   infinity and sorted by angle around its center *)
Definition same_region (d : diagram) (atan2 : R -> R -> R) (c : pt2) (radius : R) (verts : list pt2)
  (p : nat) (r out : list Z) : Prop :=
  (~ In (-1)%Z r -> out = r) /\
  (In (-1)%Z r ->
   (exists news, Permutation out (filter (fun v => (0 <=? v)%Z) r ++ news) /\
     Forall2 (fun x id => exists a b v w, nth_error (d_points d) p = Some a /\
                nth_error (d_points d) (fst x) = Some b /\
                nth_error (d_vertices d) (Z.to_nat (snd x)) = Some v /\
                (Z.of_nat (length (d_vertices d)) <= id)%Z /\
                nth_error verts (Z.to_nat id) = Some w /\ ray_end c radius a b v w)
             (open_ridges d p) news) /\
   (exists qs q, Forall2 (fun v x => nth_error verts (Z.to_nat v) = Some x) out qs /\
      barycenter qs q /\
      increasing (map (fun x => atan2 (snd x - snd q) (fst x - fst q)) qs))).

(* ---- orientation ---- *)
(* twice the signed area of a closed polygon *)
Fixpoint area_from (a0 a : pt2) (l : list pt2) : R :=
  match l with
  | [] => fst a * snd a0 - fst a0 * snd a
  | b :: l' => fst a * snd b - fst b * snd a + area_from a0 b l'
  end.
Definition twice_area (l : list pt2) : R := match l with [] => 0 | a :: l' => area_from a a l' end.

(* the coordinate along the axis is set to zero *)
Definition flattened (axis : nat) (p : pt) : pt :=
  let '(x, y, z) := p in
  match axis with O => (0, y, z) | S O => (x, 0, z) | _ => (x, y, 0) end.
Definition planar (axis : nat) (p : pt) : pt2 :=
  let '(x, y, z) := p in
  match axis with O => (y, z) | S O => (x, z) | _ => (x, y) end.

(* same polygon, possibly run through in the other direction *)
Definition same_outline (l l' : list pt2) : Prop := l' = l \/ l' = rev l.
