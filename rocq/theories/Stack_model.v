(* Model of core/_base.py (MeshStackBase), core/stack.py and core/extrude.py. *)
From Verif Require Export SMerge_model Groups_model.
Open Scope R_scope.

(* points[:, axis] *)
Definition pget (ax : nat) (p : pt) : R :=
  let '(x, y, z) := p in match ax with 0%nat => x | 1%nat => y | _ => z end.
Definition pset (ax : nat) (v : R) (p : pt) : pt :=
  let '(x, y, z) := p in
  match ax with 0%nat => (v, y, z) | 1%nat => (x, v, z) | _ => (x, y, v) end.

(* core/_base.py:19-47 MeshItem, for a type M of meshes.  The first item of a stack only has
   a mesh and a priority (core/_base.py:421-423): its other fields are never read. *)
Record item (M : Type) := mkItem {
  it_mesh : M; it_res : resolution; it_method : option string;
  it_prio : Z; it_thick : R; it_group : group_arg nat; it_trans : bool }.
Arguments mkItem {M}.
Arguments it_mesh {M}. Arguments it_res {M}. Arguments it_method {M}.
Arguments it_prio {M}. Arguments it_thick {M}. Arguments it_group {M}. Arguments it_trans {M}.

Definition with_mesh {M} (m : M) (i : item M) : item M :=
  mkItem m (it_res i) (it_method i) (it_prio i) (it_thick i) (it_group i) (it_trans i).

(* What the stack code needs of a class of base meshes M and of generated meshes B. *)
Record mesh_ops (M B : Type) := mkOps {
  getp : M -> list pt;                  (* mesh.points *)
  setp : list pt -> M -> M;             (* mesh.points[...] = ... *)
  ncM : M -> nat;                       (* mesh_a.n_cells *)
  gview : M -> gmesh nat;               (* group view: cells 0..n-1, CellGroup, labels *)
  set_cg : list Z -> M -> M;            (* mesh_a.cell_data["CellGroup"] = ... *)
  ncB : B -> nat;                       (* mesh_b.n_cells *)
  put_ids : string -> list Z -> B -> B  (* mesh_b.cell_data[k] = ... *) }.
Arguments mkOps {M B}.
Arguments getp {M B}. Arguments setp {M B}. Arguments ncM {M B}. Arguments gview {M B}.
Arguments set_cg {M B}. Arguments ncB {M B}. Arguments put_ids {M B}.

(* core/_base.py:446-476: body of the loop.  Point arrays of different sizes do not
   subtract (ValueError of NumPy; broadcasting of a single point is not modelled). *)
Definition cut_pair {M B} (ops : mesh_ops M B) (ax : nat) (bottom_up : bool) (i1 i2 : item M)
  : res (item M * item M) :=
  if it_trans i2 then Ok (i1, i2)                                          (* 447-448 *)
  else
    let p1 := getp ops (it_mesh i1) in
    let p2 := getp ops (it_mesh i2) in
    if negb (length p1 =? length p2)%nat then Err ValueError
    else
      let shift := map2 (fun a b =>
          let s := pget ax b - pget ax a - it_thick i2 in                  (* 450-454 *)
          if bottom_up then s else s * (-1)) p1 p2 in                      (* 456-457 *)
      if (it_prio i2 <? it_prio i1)%Z then                                 (* 459-464 *)
        let q := map2 (fun b s => if Rltb s 0 then pset ax (pget ax b - s) b else b) p2 shift in
        Ok (i1, with_mesh (setp ops q (it_mesh i2)) i2)
      else                                                                 (* 466-471 *)
        let q := map2 (fun a s => if Rltb s 0 then pset ax (pget ax a + s) a else a) p1 shift in
        Ok (with_mesh (setp ops q (it_mesh i1)) i1, i2).

(* core/_base.py:446-476: the loop over zip(items[:-1], items[1:]); the meshes of the items
   are modified in place, so the result is the list of items after the loop. *)
Fixpoint cut_loop {M B} (ops : mesh_ops M B) (ax : nat) (bottom_up : bool)
  (i1 : item M) (rest : list (item M)) : res (list (item M)) :=
  match rest with
  | [] => Ok [i1]
  | i2 :: rest' =>
      let! pr := cut_pair ops ax bottom_up i1 i2 in
      let '(j1, j2) := pr in
      let! js := cut_loop ops ax bottom_up j2 rest' in
      Ok (j1 :: js)
  end.

(* core/_base.py:483-508 and core/extrude.py:179-203: the loop generating the blocks.
   [transition] is self._transition, [name] is "StackItem" or "ExtrudeItem".
   Returns the blocks, the groups and the number of layers. *)
Fixpoint gen_loop {M B} (ops : mesh_ops M B) (o : options) (name : string)
  (extrude : M -> M -> resolution -> option string -> res B)
  (transition : M -> M -> dict -> group_arg nat -> res (B * dict))
  (i : nat) (n_layers : nat) (groups : dict) (i1 : item M) (rest : list (item M))
  : res (list B * dict * nat) :=
  match rest with
  | [] => Ok ([], groups, n_layers)
  | i2 :: rest' =>
      let! ag := initialize_group_array o (gview ops (it_mesh i1)) groups (it_group i2) "" in (* 484-487 *)
      let '(arr, groups) := ag in
      let a := set_cg ops arr (it_mesh i1) in
      let! bg :=
        (if it_trans i2 then                                               (* 489-492 *)
           let! tg := transition a (it_mesh i2) groups (it_group i2) in
           let '(b, groups) := tg in
           Ok (b, groups, 1%nat, ncB ops b, repeat (-1)%Z (ncB ops b))
         else                                                              (* 494-499 *)
           let! b := extrude a (it_mesh i2) (it_res i2) (it_method i2) in
           if (ncM ops a =? 0)%nat then Err ZeroDivisionError
           else
             let nsub := (ncB ops b / ncM ops a)%nat in
             Ok (b, groups, nsub, ncM ops a, tile (map Z.of_nat (seq 0 (ncM ops a))) nsub)) in
      let '(b, groups, nsub, repeats, column) := bg in
      let layer := repeat_each (map Z.of_nat (seq n_layers nsub)) repeats in (* 501-503 *)
      let items := repeat (Z.of_nat i) (ncB ops b) in                      (* 504 *)
      if negb ((length column =? ncB ops b) && (length layer =? ncB ops b))%nat
      then Err ValueError   (* PyVista rejects arrays of another length *)
      else
        let b := put_ids ops name items (put_ids ops "LayerId" layer
                   (put_ids ops "ColumnId" column b)) in
        let! r := gen_loop ops o name extrude transition (S i) (n_layers + nsub) groups i2 rest' in
        let '(bs, groups, n) := r in
        Ok (b :: bs, groups, n)
  end.

(* core/_base.py:434-511.  [merge] is utils merge(meshes, axis=self.axis, ...).  Returns the
   merged mesh before _clean (modelled in Groups_model and VTK), the groups, the number of
   layers and the items after the call. *)
Definition stack_generate {M B} (ops : mesh_ops M B) (o : options) (ax : nat) (bottom_up : bool)
  (extrude : M -> M -> resolution -> option string -> res B)
  (transition : M -> M -> dict -> group_arg nat -> res (B * dict))
  (merge : list B -> res B) (items : list (item M)) : res (B * dict * nat * list (item M)) :=
  match items with
  | [] | [_] => Err ValueError                                             (* 441-442 *)
  | i1 :: rest =>
      let! js := cut_loop ops ax bottom_up i1 rest in
      match js with
      | [] => Err ValueError (* impossible *)
      | j1 :: rest' =>
          let! r := gen_loop ops o "StackItem" extrude transition 0 0 [] j1 rest' in
          let '(bs, groups, n) := r in
          let! m := merge bs in
          Ok (m, groups, n, js)
      end
  end.

(* core/extrude.py:152-206, up to _clean.  There is neither cut nor transition. *)
Definition extrude_generate {M B} (ops : mesh_ops M B) (o : options)
  (extrude : M -> M -> resolution -> option string -> res B)
  (merge : list B -> res B) (items : list (item M)) : res (B * dict * nat) :=
  match items with
  | [] | [_] => Err ValueError                                             (* 172-173 *)
  | i1 :: rest =>
      let! r := gen_loop ops o "ExtrudeItem" extrude (fun _ _ _ _ => Err NotImplementedError)
                  0 0 [] i1 rest in
      let '(bs, groups, n) := r in
      let! m := merge bs in
      Ok (m, groups, n)
  end.

(* ---- structured base mesh: ssurf with its groups ---- *)
Record sbase (D : Type) := mkSbase {
  sb_surf : ssurf D; sb_cg : option (list Z); sb_labels : option dict }.
Arguments mkSbase {D}. Arguments sb_surf {D}. Arguments sb_cg {D}. Arguments sb_labels {D}.

Definition ss_setp {D} (p : list pt) (s : ssurf D) : ssurf D :=
  mkSsurf (ss_dims s) p (ss_pd s) (ss_cd s) (ss_ghost s).

(* data[k] = v in a dictionary of arrays *)
Fixpoint aput {X} (k : string) (v : X) (l : list (string * X)) : list (string * X) :=
  match l with
  | [] => [(k, v)]
  | (k', v') :: l' => if String.eqb k k' then (k, v) :: l' else (k', v') :: aput k v l'
  end.

(* [num] embeds integers in the type of the data arrays *)
Definition sops {D} (num : Z -> D) : mesh_ops (sbase D) (sgrid D) := mkOps
  (fun m => ss_pts (sb_surf m))
  (fun p m => mkSbase (ss_setp p (sb_surf m)) (sb_cg m) (sb_labels m))
  (fun m => n_cells (ss_dims (sb_surf m)))
  (fun m => mkG (seq 0 (n_cells (ss_dims (sb_surf m)))) (sb_cg m) (sb_labels m))
  (fun arr m => mkSbase
     (mkSsurf (ss_dims (sb_surf m)) (ss_pts (sb_surf m)) (ss_pd (sb_surf m))
        (aput "CellGroup" (map num arr) (ss_cd (sb_surf m))) (ss_ghost (sb_surf m)))
     (Some arr) (sb_labels m))
  (fun b => n_cells (sg_dims b))
  (fun k v b => mkSgrid (sg_dims b) (sg_pts b) (sg_pd b) (aput k (map num v) (sg_cd b)) (sg_ghost b)).

(* core/stack.py:248-261 with a structured base mesh.  core/stack.py:267-269: no transition. *)
Definition stack3d_structured {D} (num : Z -> D) (volumes : shape3 -> list pt -> list R)
  (o : options) (ax : nat) (bottom_up : bool) (items : list (item (sbase D)))
  : res (sgrid D * dict * nat * list (item (sbase D))) :=
  stack_generate (sops num) o ax bottom_up
    (fun a b r m => generate_volume_structured volumes (sb_surf a) (sb_surf b) r m)
    (fun _ _ _ _ => Err NotImplementedError)
    (fun bs => merge_structured bs (Some ax)) items.

(* core/extrude.py:152-206 with a structured base mesh; the axis is the first dimension
   equal to one (195-199; tuple.index raises ValueError when there is none, but a surface
   always has one). *)
Definition extrude_structured {D} (num : Z -> D) (volumes : shape3 -> list pt -> list R)
  (o : options) (items : list (item (sbase D))) : res (sgrid D * dict * nat) :=
  let ax := match items with
            | i :: _ => first_unit_axis (ss_dims (sb_surf (it_mesh i))) | [] => 0%nat end in
  extrude_generate (sops num) o
    (fun a b r m => generate_volume_structured volumes (sb_surf a) (sb_surf b) r m)
    (fun bs => merge_structured bs (Some ax)) items.

(* ---- unstructured base mesh ---- *)
Record ubase (D : Type) := mkUbase {
  ub_surf : usurf D; ub_cg : option (list Z); ub_labels : option dict }.
Arguments mkUbase {D}. Arguments ub_surf {D}. Arguments ub_cg {D}. Arguments ub_labels {D}.

Definition uops {D} (num : Z -> D) : mesh_ops (ubase D) (uvol D) := mkOps
  (fun m => us_pts (ub_surf m))
  (fun p m => mkUbase (mkUsurf p (us_cells (ub_surf m)) (us_pd (ub_surf m)) (us_cd (ub_surf m))
                         (us_ghost (ub_surf m))) (ub_cg m) (ub_labels m))
  (fun m => length (us_cells (ub_surf m)))
  (fun m => mkG (seq 0 (length (us_cells (ub_surf m)))) (ub_cg m) (ub_labels m))
  (fun arr m => mkUbase
     (mkUsurf (us_pts (ub_surf m)) (us_cells (ub_surf m)) (us_pd (ub_surf m))
        (aput "CellGroup" (map num arr) (us_cd (ub_surf m))) (us_ghost (ub_surf m)))
     (Some arr) (ub_labels m))
  (fun b => length (uv_types b))
  (fun k v b => mkUvol (uv_pts b) (uv_stream b) (uv_types b) (uv_pd b)
     (aput k (map num v) (uv_cd b)) (uv_ghost b) (uv_input_cells b)).

(* core/stack.py:248-261 and core/extrude.py:152-206 with an unstructured base mesh.
   [merge] is pv.merge (VTK). *)
Definition stack3d_unstructured {D} (num : Z -> D) (o : options) (ax : nat) (bottom_up invert : bool)
  (merge : list (uvol D) -> res (uvol D)) (items : list (item (ubase D)))
  : res (uvol D * dict * nat * list (item (ubase D))) :=
  stack_generate (uops num) o ax bottom_up
    (fun a b r m => generate_volume_unstructured (ub_surf a) (ub_surf b) r m invert)
    (fun _ _ _ _ => Err NotImplementedError) merge items.

(* core/extrude.py:152-206 with an unstructured base mesh; [merge] is pv.merge (VTK) *)
Definition extrude_unstructured {D} (num : Z -> D) (o : options) (invert : bool)
  (merge : list (uvol D) -> res (uvol D)) (items : list (item (ubase D)))
  : res (uvol D * dict * nat) :=
  extrude_generate (uops num) o
    (fun a b r m => generate_volume_unstructured (ub_surf a) (ub_surf b) r m invert) merge items.

(* ---- line base mesh (MeshStack2D) ---- *)
Record lbase (D : Type) := mkLbase {
  lb_line : line D; lb_nc : nat; lb_cg : option (list Z); lb_labels : option dict }.
Arguments mkLbase {D}. Arguments lb_line {D}. Arguments lb_nc {D}. Arguments lb_cg {D}.
Arguments lb_labels {D}.

Definition lops {D} (num : Z -> D) : mesh_ops (lbase D) (sgrid D) := mkOps
  (fun m => ln_pts (lb_line m))
  (fun p m => mkLbase (mkLine p (ln_ids (lb_line m)) (ln_pd (lb_line m)) (ln_cd (lb_line m))
                         (ln_ghost (lb_line m))) (lb_nc m) (lb_cg m) (lb_labels m))
  (fun m => lb_nc m)
  (fun m => mkG (seq 0 (lb_nc m)) (lb_cg m) (lb_labels m))
  (fun arr m => mkLbase
     (mkLine (ln_pts (lb_line m)) (ln_ids (lb_line m)) (ln_pd (lb_line m))
        (aput "CellGroup" (map num arr) (ln_cd (lb_line m))) (ln_ghost (lb_line m)))
     (lb_nc m) (Some arr) (lb_labels m))
  (fun b => n_cells (sg_dims b))
  (fun k v b => mkSgrid (sg_dims b) (sg_pts b) (sg_pd b) (aput k (map num v) (sg_cd b)) (sg_ghost b)).

(* core/stack.py:86 *)
Definition stack2d_plane (ax : nat) : string :=
  match ax with 0%nat => "yx" | 1%nat => "xy" | _ => "xz" end.

(* core/stack.py:76-93, without transition items *)
Definition stack2d {D} (num : Z -> D) (areas : shape3 -> list pt -> list R)
  (o : options) (ax : nat) (bottom_up : bool) (items : list (item (lbase D)))
  : res (sgrid D * dict * nat * list (item (lbase D))) :=
  stack_generate (lops num) o ax bottom_up
    (fun a b r m => generate_surface_from_two_lines areas (LinePoly (lb_line a))
                      (LinePoly (lb_line b)) (stack2d_plane ax) r m)
    (fun _ _ _ _ => Err NotImplementedError)
    (fun bs => merge_structured bs (Some ax)) items.

(* ---- building a stack ---- *)
(* core/_base.py:278-306; [dims] are the dimensions of a structured base mesh *)
Definition stack_init {M} (mesh : M) (dims : option shape3) (axis : Z) : res (M * nat) :=
  if negb ((0 <=? axis) && (axis <=? 2))%Z then Err ValueError             (* 292-293 *)
  else
    let ax := Z.to_nat axis in
    match dims with
    | Some d => if (comp ax d =? 1)%nat then Ok (mesh, ax) else Err ValueError (* 298-301 *)
    | None => Ok (mesh, ax)
    end.

Inductive add_arg :=
| ArgScalar (x : R)
| ArgCall (f : R -> R -> R -> R)      (* applied pointwise *)
| ArgArray (ndim ncols : nat) (rows : list pt)  (* an array of 1, 2, ... dimensions *)
| ArgMesh (pts : list pt).

(* State of a stack: base mesh, items, transition flag. *)
Record stack (M : Type) := mkStack {
  st_base : M; st_items : list (item M); st_flag : bool }.
Arguments mkStack {M}. Arguments st_base {M}. Arguments st_items {M}. Arguments st_flag {M}.

Record add_opts := mkAdd {
  ao_res : resolution; ao_method : option string; ao_prio : Z; ao_thick : R;
  ao_group : group_arg nat }.

(* core/_base.py:386-429.  [interpolate points base_points] is self._interpolate. *)
Definition stack_add {M B} (ops : mesh_ops M B) (ax : nat) (bottom_up : bool)
  (interpolate : list pt -> list pt -> res (list R))
  (st : stack M) (arg : add_arg) (ao : add_opts) : res (stack M) :=
  let base := st_base st in
  let place := fun (z : list R) (m : M) => setp ops (map2 (fun v p => pset ax v p) z (getp ops m)) m in
  let! mesh :=
    (match arg with
     | ArgMesh pts => let! z := interpolate pts (getp ops base) in Ok (place z base)     (* 386-387 *)
     | ArgCall f => Ok (place (map (fun '(x, y, z) => f x y z) (getp ops base)) base)    (* 389-391 *)
     | ArgScalar x =>                                                                    (* 396-406 *)
         match rev (st_items st) with
         | [] => Ok (place (map (fun _ => x) (getp ops base)) base)
         | last :: _ =>
             let d := Rabs x * (if bottom_up then 1 else -1) in
             Ok (place (map (fun p => pget ax p + d) (getp ops (it_mesh last))) (it_mesh last))
         end
     | ArgArray ndim ncols rows =>                                                       (* 408-416 *)
         if (ndim =? 2)%nat then
           if (ncols =? 3)%nat then let! z := interpolate rows (getp ops base) in Ok (place z base)
           else Err ValueError
         else Err ValueError
     end) in
  let it :=
    match st_items st with
    | [] => mkItem mesh ResNone None (ao_prio ao) 0 GNone false                          (* 423 *)
    | _ => mkItem mesh (ao_res ao) (ao_method ao) (ao_prio ao) (ao_thick ao) (ao_group ao)
             (st_flag st)                                                                (* 418-421 *)
    end in
  Ok (mkStack base (st_items st ++ [it]) false).                                         (* 425-426 *)

(* core/stack.py:106-130: split_lines(mesh)[0] becomes the base mesh *)
Definition set_transition {M} (mesh : M) (st : stack M) : stack M :=
  mkStack mesh (st_items st) true.

(* ---- extrusion items ---- *)
(* VTK mesh.center: the center of the bounding box *)
Fixpoint rmin (l : list R) (d : R) : R :=
  match l with [] => d | x :: l' => Rmin x (rmin l' d) end.
Fixpoint rmax (l : list R) (d : R) : R :=
  match l with [] => d | x :: l' => Rmax x (rmax l' d) end.
Definition mid (ax : nat) (ps : list pt) : R :=
  match ps with
  | [] => 0
  | p :: _ => (rmin (map (pget ax) ps) (pget ax p) + rmax (map (pget ax) ps) (pget ax p)) / 2
  end.
Definition center (ps : list pt) : pt := (mid 0 ps, mid 1 ps, mid 2 ps).

Definition add3 (p q : pt) : pt :=
  let '(x, y, z) := p in let '(x', y', z') := q in (x + x', y + y', z + z').
Definition scale3 (s : R) (p : pt) : pt := let '(x, y, z) := p in (s * x, s * y, s * z).

(* Rodrigues rotation of p by the angle th (radians) about the unit vector k: the matrix
   used by SciPy's Rotation and by VTK's rotate_vector. *)
Definition rodrigues (k : pt) (th : R) (p : pt) : pt :=
  add3 (add3 (scale3 (cos th) p) (scale3 (sin th) (cross k p)))
       (scale3 (dot k p * (1 - cos th)) k).
Definition norm (p : pt) : R := sqrt (dot p p).
Definition unit_of (p : pt) : pt := scale3 (/ norm p) p.

(* mesh.rotate_vector(vector, angle, point) (VTK) *)
Definition rotate_vector (v : pt) (angle : R) (c p : pt) : pt :=
  add3 (rodrigues (unit_of v) (deg2rad angle) (sub3 p c)) c.

(* core/extrude.py:95-150.  [vector] has any number of entries.  [scale], [angle] and their
   defaults (124-125). *)
Definition extrude_add (default_scale default_angle : option R)
  (last : list pt) (vector : list R) (scale angle : option R) : res (list pt) :=
  match vector with
  | [vx; vy; vz] =>
      let v := (vx, vy, vz) in
      let scale := match scale with Some s => Some s | None => default_scale end in
      let angle := match angle with Some s => Some s | None => default_angle end in
      let q := map (fun p => add3 p v) last in                                 (* 127-128 *)
      let q := match scale with                                                (* 130-131 *)
               | Some s => let c := center q in map (fun p => add3 (scale3 s (sub3 p c)) c) q
               | None => q end in
      let q := match angle with                                                (* 133-134 *)
               | Some a => let c := center q in map (rotate_vector v a c) q
               | None => q end in
      Ok q
  | _ => Err ValueError                                                        (* 121-122 *)
  end.

(* ---- add_plane ---- *)
(* Rotation.from_rotvec(angles, degrees=True).apply(p, inverse=True) *)
Definition rotvec_inv (w : pt) (p : pt) : pt :=
  if Req_EM_T (norm w) 0 then p else rodrigues (unit_of w) (- deg2rad (norm w)) p.

(* core/stack.py:217-222: func, for one point *)
Definition plane_func (ax : nat) (angles point : pt) (x y z : R) : R :=
  let w := pset ax 0 angles in                                                 (* 212 *)
  let p := pset ax 0 (sub3 (x, y, z) point) in                                 (* 218-220 *)
  pget ax (rotvec_inv w p) + pget ax point.                                    (* 222 *)

(* The angles of the caller after the call: np.asanyarray returns an ndarray argument
   itself (core/stack.py:209), whose entry is then overwritten (212). *)
Definition plane_angles_after (ax : nat) (is_ndarray : bool) (angles : pt) : pt :=
  if is_ndarray then pset ax 0 angles else angles.

(* core/stack.py:183-224: the surface added and the caller's angles *)
Definition add_plane {M B} (ops : mesh_ops M B) (ax : nat) (bottom_up : bool)
  (interpolate : list pt -> list pt -> res (list R)) (st : stack M)
  (is_ndarray : bool) (angles point : pt) (ao : add_opts) : res (stack M * pt) :=
  let! st' := stack_add ops ax bottom_up interpolate st (ArgCall (plane_func ax angles point)) ao in
  Ok (st', plane_angles_after ax is_ndarray angles).
