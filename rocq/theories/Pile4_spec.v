(* Vocabulary of the property C169. *)
From Coq Require Import Reals.
From Verif Require Import Prelude Perc_model Surface_model Surface_spec Lines_spec Groups_spec Polygon_model Stack_model Stack_spec Trans_model
  Trans_spec Pile_model Pile_spec Pile3_spec Pile4_model.
From Verif Require Objects_spec Polygon_spec Volume_spec.
Import Lines_model(lmesh, l_pts, l_cells, l_pd, l_cd).
Open Scope nat_scope.

(* calls on the first base line, then transitions, each with the calls that follow *)
Definition program_of {D} (first : list st_call) (segs : list ((Z + lmesh (R * R * R) D) * list st_call)) : list (tr_call D) :=
  map TrAdd first ++ flat_map (fun s => TrSet (fst s) :: map TrAdd (snd s)) segs.

(* the base line set by a transition: as many points as asked at equal distances along the current one, or the first line of
   a polydata *)
Definition next_points {D} (pts : list (R * R * R)) (arg : Z + lmesh (R * R * R) D) (pts' : list (R * R * R)) : Prop :=
  match arg with
  | inl n => exists k, Objects_spec.regular_count pts (Some n) = Z.of_nat (S k) /\ length pts' = S (S k) /\
      forall i P, nth_error pts' i = Some P ->
        Objects_spec.along pts (INR i / INR (S k) * Objects_spec.polyline_length pts) P
  | inr m => (wf_lines m /\ NoDup (map fst (l_cd m))) /\ exists ids rest, l_cells m = ids :: rest /\ picks (l_pts m) ids pts'
  end.

(* calls made between two transitions: [base] are the points of the base line *)
Definition regular_run (interp : list (R * R * R) -> list (R * R * R) -> res (list R)) (base : list (R * R * R)) (calls : list st_call) : Prop :=
  2 <= length base /\ calls <> [] /\ Forall (accepted interp base) calls /\ Forall regular_call (tl calls).

(* the first of them, after a transition: no distance to the previous line, and a group given by name *)
Definition opening (calls : list st_call) : Prop :=
  match calls with
  | c :: _ => match sc_arg c with ArgScalar _ => False | _ => True end /\
      (ao_group (sc_opts c) = Groups_model.GNone \/ exists s, ao_group (sc_opts c) = Groups_model.GStr s)
  | [] => False
  end.

(* base lines set by transitions, with the calls that follow *)
Inductive runs {D} interp : list (R * R * R) -> list ((Z + lmesh (R * R * R) D) * list st_call) ->
  list (list (R * R * R) * list st_call) -> Prop :=
| runs_nil pts : runs interp pts [] []
| runs_cons pts a calls rest pts' rs : next_points pts a pts' -> regular_run interp pts' calls -> opening calls ->
    runs interp pts' rest rs -> runs interp pts ((a, calls) :: rest) ((pts', calls) :: rs).

(* the calls of all the runs, the first of each run marked *)
Definition marks (rs : list (list (R * R * R) * list st_call)) : list (bool * st_call) :=
  flat_map (fun r => match snd r with c :: cs => (true, c) :: map (pair false) cs | [] => [] end) rs.

(* the lines added by the calls of one run, once cut *)
Definition run_lines interp (ax : nat) (up : bool) (r : list (R * R * R) * list st_call) (lines : list (list (R * R * R))) : Prop :=
  length lines = length (snd r) /\ Forall (fun l => length l = length (fst r)) lines /\
  forall i p, nth_error (fst r) i = Some p -> exists out, column_heights interp up (fst r) i (snd r) out /\
    forall j l h, nth_error lines j = Some l -> nth_error out j = Some h -> nth_error l i = Some (at_height ax p h).

(* several blocks are merged, one block is kept *)
Definition joined {D} (pvmerge : list (block D) -> res (block D)) (bs : list (block D)) (g : block D) : Prop :=
  match bs with [b] => g = b | _ => pvmerge bs = Ok g end.

(* a grid between two lines, subdivided as asked by a call *)
Definition strip_between {D} (ax : nat) (call : st_call) (la lb : list (R * R * R)) (ns : nat) (s : sgrid D) : Prop :=
  exists perc, resolution_to_perc (ao_res (sc_opts call)) (ao_method (sc_opts call)) = Ok perc /\ ns = length perc - 1 /\
    sg_dims s = strip_dims ax (length la) (length perc) /\ length (sg_pts s) = length la * length perc /\
    forall i k p q t, nth_error la i = Some p -> nth_error lb i = Some q -> nth_error perc k = Some t ->
      at_coord (sg_dims s) (sg_pts s) (node_at ax i k) = Some (on_way t p q).

(* the outline made by two lines, without its last point when it comes back to the first one *)
Definition rim {A} (la lb ring : list A) : Prop :=
  (around la lb ring \/ around la lb (ring ++ firstn 1 ring)) /\ nth_error ring 0 <> nth_error ring (length ring - 1).

(* the mesh of gmsh on the outline made by two lines *)
Definition mesh_between (gm : gmsh) (result : list gop -> gmsh_mesh) (la lb pts : list (R * R * R)) (tris : list (list Z)) : Prop :=
  exists t s cells, tris = flat_map snd cells /\ t = s ++ [Clear; Finalize] /\ to_pyvista (result s) = Ok (pts, cells) /\
    forall ring, rim la lb ring ->
      map fst (Polygon_spec.added t) = map (fun p => [fst (fst p); snd (fst p); snd p]) ring /\
      (Polygon_spec.numbered gm ->
         Forall2 (Polygon_spec.draws t) (Polygon_spec.drawn t) (Volume_spec.ring_edges (map fst (Polygon_spec.added t)))).

(* the group of the n cells with these arrays is named by the call *)
Definition cells_named {D} (num : Z -> D) (groups : table) (default : string) (call : st_call) (n : nat) (cd : list (string * list D)) : Prop :=
  exists cg, In ("CellGroup"%string, map num cg) cd /\ length cg = n /\
    forall c, c < n -> exists k, named groups cg c k /\ call_name default call k.
