(* Model of pvgridder/core/geometric_objects.py (all but Polygon, see Polygon_model),
   translate of pvgridder/core/_helpers.py (550-582) and MeshStackBase._interpolate
   (core/_base.py:518-565). *)
From Coq Require Import Reals.
From Verif Require Export Prelude.
From Verif Require Import Perc_model Grid Surface_model Volume_model.
Open Scope R_scope.

Definition add3 (p q : pt) : pt :=
  let '(x, y, z) := p in let '(x', y', z') := q in (x + x', y + y', z + z').
Definition scale (k : R) (p : pt) : pt := let '(x, y, z) := p in (k * x, k * y, k * z).

(* core/_helpers.py:550-582.  The vector is the raveled array; mesh.translate (PyVista)
   moves the points only. *)
Definition translate (pts : list pt) (vector : option (list R)) : res (list pt) :=
  match vector with
  | None => Ok pts
  | Some [x; y; z] => Ok (map (fun p => add3 p (x, y, z)) pts)          (* 580 *)
  | Some [x; y] => Ok (map (fun p => add3 p (x, y, 0)) pts)             (* 574-575 *)
  | Some _ => Err ValueError                                            (* 577-578 *)
  end.

Definition sg_translate {D} (g : sgrid D) (vector : option (list R)) : res (sgrid D) :=
  let! pts := translate (sg_pts g) vector in
  Ok (mkSgrid (sg_dims g) pts (sg_pd g) (sg_cd g) (sg_ghost g)).

(* rows of three coordinates *)
Definition to_pt (l : list R) : res pt :=
  match l with [x; y; z] => Ok (x, y, z) | _ => Err ValueError end.
Definition line_pts (a b : list R) (r : resolution) (m : option string) : res (list pt) :=
  let! l := generate_line_from_two_points a b r m in mapM to_pt l.

(* Subdivision arguments: resolution and method *)
Record sub := mkSub { sb_res : resolution; sb_method : option string }.

(* The lines passed to StructuredSurface are polydata without data whose points are in the
   order of the line: passed here as arrays.  [areas] as in generate_surface_from_two_lines. *)
Section Objects.
Variable areas : shape3 -> list pt -> list R.
Variable volumes : shape3 -> list pt -> list R.

(* 1183-1221 *)
Definition StructuredSurface (line_a line_b : option (list pt)) (plane : string) (s : sub)
  : res (sgrid unit) :=
  let a := match line_a with Some l => l | None => [(0, 0, 0); (1, 0, 0)] end in
  let b := match line_b with Some l => l | None => [(0, 1, 0); (1, 1, 0)] end in
  generate_surface_from_two_lines areas (LineArr a) (LineArr b) plane (sb_res s) (sb_method s).

(* 25-91 *)
Definition AnnularSector (inner outer tmin tmax : R) (rs ts : sub) (center : option (list R))
  : res (sgrid unit) :=
  if negb (Rleb 0 inner && Rltb inner outer)%bool then Err ValueError            (* 78-79 *)
  else
    let! a := generate_arc inner tmin tmax (sb_res ts) (sb_method ts) in          (* 81-83 *)
    let! b := generate_arc outer tmin tmax (sb_res ts) (sb_method ts) in          (* 84-86 *)
    let! g := StructuredSurface (Some a) (Some b) "xy" rs in                      (* 87 *)
    sg_translate g center.                                                        (* 88 *)

(* 94-153 *)
Definition Annulus (inner outer : R) (rs ts : sub) (center : option (list R)) : res (sgrid unit) :=
  AnnularSector inner outer 0 360 rs ts center.

(* 886-941: points and triangles *)
Record tmesh := mkT { t_pts : list pt; t_cells : list (list nat) }.
Definition Sector (radius tmin tmax : R) (s : sub) (center : option (list R)) : res tmesh :=
  if Rleb radius 0 then Err ValueError                                            (* 924-925 *)
  else
    let! points := generate_arc radius tmin tmax (sb_res s) (sb_method s) in      (* 927 *)
    let n := (length points - 1)%nat in                                           (* 928 *)
    let cells := map (fun k => [0; k + 1; k + 2]%nat) (seq 0 n) in                (* 929-935 *)
    let! pts := translate ((0, 0, 0) :: points) center in                         (* 936-938 *)
    Ok (mkT pts cells).

(* 156-193 without the final clean(), which merges the first and last points of the arc *)
Definition Circle (radius : R) (s : sub) (center : option (list R)) : res tmesh :=
  Sector radius 0 360 s center.

(* 654-715.  Rows of [points]: two or three coordinates. *)
Definition Quadrilateral (points : option (list (list R))) (xs ys : sub) (center : option (list R))
  : res (sgrid unit) :=
  let points := match points with                                                 (* 697-707 *)
                | None => [[0; 0]; [1; 0]; [1; 1]; [0; 1]]
                | Some p => p end in
  match points with
  | p0 :: p1 :: rest =>
      let! a := line_pts p0 p1 (sb_res xs) (sb_method xs) in                      (* 709 *)
      match rest with
      | p2 :: p3 :: _ =>
      let! b := line_pts p3 p2 (sb_res xs) (sb_method xs) in                      (* 710 *)
      let! g := StructuredSurface (Some a) (Some b) "xy" ys in                    (* 711 *)
      sg_translate g center                                                       (* 712 *)
      | _ => Err IndexError
      end
  | _ => Err IndexError
  end.

(* 718-772 *)
Definition Rectangle (dx dy : R) (xs ys : sub) (center : option (list R)) : res (sgrid unit) :=
  Quadrilateral (Some [[0; 0]; [dx; 0]; [dx; dy]; [0; dy]]) xs ys center.

(* 1075-1117 *)
Definition Square (dx : R) (s : sub) (center : option (list R)) : res (sgrid unit) :=
  Rectangle dx dx s s center.

(* The sum of two unstructured grids is kept as the pair of its blocks: VTK merges the
   coincident points. *)
Definition sg_translate2 {D} (gs : sgrid D * sgrid D) (vector : option (list R))
  : res (sgrid D * sgrid D) :=
  let! g := sg_translate (fst gs) vector in
  let! h := sg_translate (snd gs) vector in
  Ok (g, h).

(* 775-850 *)
Definition RectangleSector (dx dy radius : R) (xs ys rs : sub) (center : option (list R))
  : res (sgrid unit * sgrid unit) :=
  if (Rltb 0 radius && Rltb radius (sqrt (dx * dx + dy * dy)))%bool then Err ValueError (* 837-838 *)
  else
    let! line_x := line_pts [dx; dy] [0; dy] (sb_res xs) (sb_method xs) in        (* 840 *)
    let! line_y := line_pts [dx; dy] [dx; 0] (sb_res ys) (sb_method ys) in        (* 841 *)
    let! line_45 := generate_arc radius 45 0 (sb_res ys) (sb_method ys) in        (* 842 *)
    let! line_90 := generate_arc radius 45 90 (sb_res xs) (sb_method xs) in       (* 843 *)
    let! y45 := StructuredSurface (Some line_y) (Some line_45) "xy" rs in         (* 844 *)
    let! x90 := StructuredSurface (Some line_x) (Some line_90) "xy" rs in         (* 845 *)
    sg_translate2 (y45, x90) center.                                              (* 846-847 *)

(* 1120-1180 *)
Definition SquareSector (dx radius : R) (xs rs : sub) (center : option (list R)) :=
  RectangleSector dx dx radius xs xs rs center.

(* 944-1011 *)
Definition SectorRectangle (radius dx dy : R) (rs ts : sub) (center : option (list R))
  : res (sgrid unit * sgrid unit) :=
  if negb (Rltb 0 radius && Rltb radius (Rmin dx dy))%bool then Err ValueError    (* 994-995 *)
  else
    let! line_x := line_pts [dx; dy] [0; dy] (sb_res ts) (sb_method ts) in        (* 997-999 *)
    let! line_y := line_pts [dx; dy] [dx; 0] (sb_res ts) (sb_method ts) in        (* 1000-1002 *)
    let! line_45 := generate_arc radius 45 0 (sb_res ts) None in                  (* 1003 *)
    let! line_90 := generate_arc radius 45 90 (sb_res ts) None in                 (* 1004 *)
    let! y45 := StructuredSurface (Some line_45) (Some line_y) "xy" rs in         (* 1005 *)
    let! x90 := StructuredSurface (Some line_90) (Some line_x) "xy" rs in         (* 1006 *)
    sg_translate2 (y45, x90) center.                                              (* 1007-1008 *)

(* 1014-1072 *)
Definition SectorSquare (radius dx : R) (rs ts : sub) (center : option (list R)) :=
  SectorRectangle radius dx dx rs ts center.

Definition as_surface (g : sgrid unit) : ssurf unit :=
  mkSsurf (sg_dims g) (sg_pts g) (sg_pd g) (sg_cd g) (Some (sg_ghost g)).

(* 340-429 *)
Definition CylindricalShellSector (inner outer tmin tmax height : R) (rs ts zs : sub)
  (center : option (list R)) : res (sgrid unit) :=
  let c := match center with Some c => c | None => [0; 0; 0] end in               (* 408 *)
  let! c := (match c with                                                         (* 409 *)
             | x :: y :: z :: rest => Ok (x :: y :: z - / 2 * height :: rest)
             | _ => Err IndexError
             end) in
  let! a := AnnularSector inner outer tmin tmax rs ts None in                     (* 411-420 *)
  let! b := sg_translate a (Some [0; 0; height]) in                               (* 421 *)
  let! g := generate_volume_structured volumes (as_surface a) (as_surface b)      (* 422-424 *)
              (sb_res zs) (sb_method zs) in
  sg_translate g (Some c).                                                        (* 425 *)

(* 262-337 *)
Definition CylindricalShell (inner outer height : R) (rs ts zs : sub) (center : option (list R)) :=
  CylindricalShellSector inner outer 0 360 height rs ts zs center.
End Objects.

(* ---------- lines ---------- *)

Definition norm (p : pt) : R := sqrt (dot p p).
Definition clip1 (x : R) : R := Rmax (-1) (Rmin x 1).

(* 238-244 (slerp); np.linspace(0, 1, n + 1)[k] = k / n *)
Definition slerp (theta : R) (s e : pt) (t : R) : pt :=
  scale (/ sin theta) (add3 (scale (sin ((1 - t) * theta)) s) (scale (sin (t * theta)) e)).

(* 248-254: [last] is points[-1] *)
Fixpoint walk (dl : R) (last : pt) (ds : list pt) : list pt :=
  match ds with
  | d1 :: ((d2 :: _) as ds') =>
      let vec := scale (/ 2) (add3 d1 d2) in                                      (* 252 *)
      let vec := scale (/ norm vec) vec in                                        (* 253 *)
      let p := add3 last (scale dl vec) in                                        (* 254 *)
      p :: walk dl p ds'
  | _ => []
  end.

(* 196-259.  Simplification: zero directions (NaN in NumPy) are not treated apart; the
   length is a Python float. *)
Definition CurvedLine (orig : pt) (length_ : R) (start : pt) (end_ : option pt) (resolution : Z)
  : res (list pt) :=
  let e := match end_ with Some e => e | None => start end in                     (* 227 *)
  let s := scale (/ norm start) start in                                          (* 230 *)
  let e := scale (/ norm e) e in                                                  (* 231 *)
  let theta := acos (clip1 (dot s e)) in                                          (* 234 *)
  if (resolution <? 0)%Z then Err ValueError
  else
    let n := Z.to_nat resolution in
    let directions := if Req_EM_T theta 0 then repeat s (n + 1)                   (* 235-245 *)
                      else map (slerp theta s e) (linspace 0 1 (n + 1)) in
    if (n =? 0)%nat then Err ZeroDivisionError                                    (* 249 *)
    else multiple_lines (orig :: walk (length_ / INR n) orig directions).         (* 248-256 *)

(* np.diff(points, axis=0) lengths: 873-877 *)
Fixpoint steps (l : list pt) : list R :=
  match l with
  | p :: ((q :: _) as l') => norm (sub3 q p) :: steps l'
  | _ => []
  end.
Fixpoint cumsum (acc : R) (l : list R) : list R :=
  match l with [] => [] | x :: l' => (acc + x) :: cumsum (acc + x) l' end.

(* np.interp(x, xp, fp) with xp nondecreasing: the segment is the last one starting at or
   before x, and values are constant out of the range *)
Fixpoint interp_at (xp fp : list R) (x : R) : R :=
  match xp, fp with
  | x0 :: ((x1 :: _) as xp'), f0 :: ((f1 :: _) as fp') =>
      if Rlt_dec x x1
      then if Rle_dec x x0 then f0 else f0 + (x - x0) * ((f1 - f0) / (x1 - x0))
      else interp_at xp' fp' x
  | _, f0 :: _ => f0
  | _, [] => 0
  end.

Fixpoint nondecreasing (l : list R) : bool :=
  match l with
  | x :: ((y :: _) as l') => Rleb x y && nondecreasing l'
  | _ => true
  end.

(* np.interp: [other] is what it returns when xp is not nondecreasing (unspecified) *)
Definition np_interp (other : list R -> list R -> list R -> list R) (xs xp fp : list R)
  : res (list R) :=
  if (length xp =? 0)%nat then Err ValueError
  else if negb (length xp =? length fp)%nat then Err ValueError
  else if nondecreasing xp then Ok (map (interp_at xp fp) xs)
  else Ok (other xs xp fp).

Definition coord (k : nat) (p : pt) : R :=
  let '(x, y, z) := p in match k with 0%nat => x | 1%nat => y | _ => z end.

(* xp.max(): xp starts with 0 *)
Definition max_of (l : list R) : R := fold_right Rmax 0 l.

(* 853-883.  Simplification: the rows have three columns. *)
Definition RegularLine other (points : list pt) (resolution : option Z) : res (list pt) :=
  let n := match resolution with                                                  (* 871 *)
           | None => Z.of_nat (length points)
           | Some r => if (r =? 0)%Z then Z.of_nat (length points) else r
           end in
  if (length points =? 0)%nat then Err ValueError
  else
    let xp := cumsum 0 (0 :: steps points) in                                     (* 873-877 *)
    if (n + 1 <? 0)%Z then Err ValueError                                         (* 878 *)
    else
      let xs := linspace 0 (max_of xp) (Z.to_nat (n + 1)) in
      let! x := np_interp other xs xp (map (coord 0) points) in                   (* 879 *)
      let! y := np_interp other xs xp (map (coord 1) points) in
      let! z := np_interp other xs xp (map (coord 2) points) in
      multiple_lines (map2 (fun xy c => (fst xy, snd xy, c)) (combine x y) z).    (* 880 *)

(* ---------- core/_base.py:518-565 ---------- *)

(* np.unique(l).size > 1 *)
Definition varies (l : list R) : bool :=
  match l with [] => false | x :: l' => existsb (fun y => negb (Reqb x y)) l' end.

Definition other_axes (axis : nat) (points : list pt) : list nat :=               (* 526-528 *)
  filter (fun i => negb (i =? axis)%nat && varies (map (coord i) points)) [0; 1; 2]%nat.

(* [linear] is LinearNDInterpolator(points[:, idx], points[:, axis])(x[:, idx]): NaN (None)
   out of the hull; [nearest] is NearestNDInterpolator.  Result: the new coordinates along
   the axis. *)
Definition interpolate other
  (linear : list (R * R) -> list R -> list (R * R) -> res (list (option R)))
  (nearest : list (R * R) -> list R -> R * R -> R)
  (axis : nat) (points base : list pt) (extrapolation : option string) : res (list R) :=
  let extra := match extrapolation with                                           (* truth of a str *)
               | None | Some EmptyString => None | Some s => Some s end in
  let zs := map (coord axis) points in
  match other_axes axis points with
  | i :: j :: _ =>                                                                (* 530 *)
      let two := fun p => (coord i p, coord j p) in
      let! tmp := linear (map two points) zs (map two base) in                    (* 531-532 *)
      if existsb (fun o => match o with None => true | _ => false end) tmp then   (* 533-535 *)
        match extra with
        | None => Err ValueError                                                  (* 536-539 *)
        | Some s =>
            if String.eqb s "nearest"%string
            then Ok (map2 (fun o p => match o with Some v => v | None => nearest (map two points) zs (two p) end)
                          tmp base)                                               (* 541-543 *)
            else Err ValueError                                                   (* 545-546 *)
        end
      else Ok (map (fun o => match o with Some v => v | None => 0 end) tmp)
  | [i] =>                                                                        (* 548-561 *)
      let x := map (coord i) base in
      let xp := map (coord i) points in
      match x, xp with
      | x0 :: _, xp0 :: _ =>
          let xl := last x x0 in
          let xpl := last xp xp0 in
          let enclosed := (Rleb xp0 x0 && Rleb x0 xpl && (Rleb xp0 xl && Rleb xl xpl))%bool in (* 553-556 *)
          if (negb enclosed && match extra with None => true | _ => false end)%bool
          then Err ValueError                                                     (* 557-559 *)
          else np_interp other x xp zs                                            (* 561 *)
      | _, _ => Err IndexError
      end
  | [] => Err IndexError                                                          (* 549 *)
  end.
