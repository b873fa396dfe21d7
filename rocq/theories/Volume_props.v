(* Properties C09-C16: volume between two surfaces. *)
From Verif Require Import Perc_model Perc_spec Perc_proof Surface_model Surface_spec Surface_proof
  Volume_model Volume_spec Volume_proof Ring_proof UVol_proof UVol2_proof UVol3_proof Encl_spec Encl_proof.
Open Scope R_scope.

(* C09 *)
Theorem C09_structured_volume_coordinates :
  forall D volumes (sa sb : ssurf D) r m g,
  length (ss_pts sa) = size3 (ss_dims sa) ->
  generate_volume_structured volumes sa sb r m = Ok g ->
  exists axis perc,
    resolution_to_perc r m = Ok perc /\
    ss_dims sa = ss_dims sb /\
    (axis <= 2)%nat /\ comp axis (ss_dims sa) = 1%nat /\
    sg_dims g = setc axis (length perc) (ss_dims sa) /\
    length (sg_pts g) = size3 (sg_dims g) /\
    forall c t, in_shape (sg_dims g) c -> nth_error perc (comp axis c) = Some t ->
      exists x y z x' y' z',
        nth_error (ss_pts sa) (fidx (ss_dims sa) (setc axis 0 c)) = Some (x, y, z) /\
        nth_error (ss_pts sb) (fidx (ss_dims sb) (setc axis 0 c)) = Some (x', y', z') /\
        nth_error (sg_pts g) (fidx (sg_dims g) c) =
        Some (x + t * (x' - x), y + t * (y' - y), z + t * (z' - z)).
Proof. exact @vol_structured_coords'. Qed.
Print Assumptions C09_structured_volume_coordinates.

Theorem C09_incompatible_surfaces_rejected :
  forall D volumes (sa sb : ssurf D) r m,
  ss_dims sa <> ss_dims sb \/ ~ (exists! axis, (axis <= 2)%nat /\ comp axis (ss_dims sa) = 1%nat) ->
  generate_volume_structured volumes sa sb r m = Err ValueError.
Proof. exact @vol_structured_rejected. Qed.
Print Assumptions C09_incompatible_surfaces_rejected.

(* a 2 x 2 x 1 surface and its copy at z = 1 *)
Definition ex_ss (z : R) : ssurf nat :=
  mkSsurf (2, 2, 1)%nat [(0,0,z); (1,0,z); (0,1,z); (1,1,z)] [("v"%string, [1; 2; 3; 4]%nat)] [] None.
Example C09_case : exists g,
  generate_volume_structured (fun s _ => repeat 1 (n_cells s)) (ex_ss 0) (ex_ss 1) ResNone None = Ok g /\
  sg_dims g = (2, 2, 2)%nat /\ length (ss_pts (ex_ss 0)) = size3 (ss_dims (ex_ss 0)).
Proof.
  unfold generate_volume_structured. rewrite perc_default. cbn.
  eexists; split; [reflexivity|split; reflexivity].
Qed.

(* a line is no surface *)
Example C09_rejected_case : ~ (exists! axis, (axis <= 2)%nat /\ comp axis (2, 1, 1)%nat = 1%nat).
Proof.
  intros (a & _ & U). pose proof (U 1%nat (conj (le_S _ _ (le_n 1)) eq_refl)). pose proof (U 2%nat (conj (le_n 2) eq_refl)). congruence.
Qed.

(* C10 *)
Theorem C10_repeat_structured_data :
  forall D shape (data out : list D) repeats axis,
  (axis <= 2)%nat -> (0 < repeats)%nat ->
  repeat_structured_data shape data repeats axis = Ok out ->
  length data = size3 shape /\
  let shape' := setc axis (comp axis shape * repeats)%nat shape in
  length out = size3 shape' /\
  forall c, in_shape shape' c ->
    nth_error out (fidx shape' c) =
    nth_error data (fidx shape (setc axis (comp axis c / repeats)%nat c)).
Proof. exact @repeat_structured_law. Qed.
Print Assumptions C10_repeat_structured_data.

Theorem C10_defined_on_matching_size :
  forall D shape (data : list D) repeats axis,
  length data = size3 shape -> exists out, repeat_structured_data shape data repeats axis = Ok out.
Proof. exact @repeat_structured_defined. Qed.
Print Assumptions C10_defined_on_matching_size.

Theorem C10_wrong_size_rejected :
  forall D shape (data : list D) repeats axis,
  length data <> size3 shape -> repeat_structured_data shape data repeats axis = Err ValueError.
Proof. exact @repeat_structured_size. Qed.
Print Assumptions C10_wrong_size_rejected.

Theorem C10_volume_data_from_base :
  forall D volumes (sa sb : ssurf D) r m g k v axis,
  generate_volume_structured volumes sa sb r m = Ok g ->
  (axis <= 2)%nat -> comp axis (ss_dims sa) = 1%nat ->
  (In (k, v) (ss_pd sa) ->
   exists w, In (k, w) (sg_pd g) /\
     forall c, in_shape (sg_dims g) c ->
       nth_error w (fidx (sg_dims g) c) = nth_error v (fidx (ss_dims sa) (setc axis 0 c))) /\
  (In (k, v) (ss_cd sa) ->
   exists w, In (k, w) (sg_cd g) /\
     forall c, in_shape (cell_shape (sg_dims g)) c ->
       nth_error w (fidx (cell_shape (sg_dims g)) c) =
       nth_error v (fidx (cell_shape (ss_dims sa)) (setc axis 0 c))).
Proof. exact @vol_structured_data_axis. Qed.
Print Assumptions C10_volume_data_from_base.

Example C10_case : repeat_structured_data (2, 1, 2)%nat [1; 2; 3; 4]%nat 2 1
  = Ok [1; 2; 1; 2; 3; 4; 3; 4]%nat.
Proof. reflexivity. Qed.

(* C11 *)
Theorem C11_layers_of_cells :
  forall D (sa sb : usurf D) r m invert v,
  generate_volume_unstructured sa sb r m invert = Ok v ->
  exists perc cells,
    resolution_to_perc r m = Ok perc /\ (2 <= length perc)%nat /\
    decode (uv_types v) (uv_stream v) = Some cells /\
    length cells = ((length perc - 1) * length (us_cells sa))%nat /\
    length (uv_pts v) = (length perc * length (us_pts sa))%nat /\
    (forall l i t p q, nth_error perc l = Some t -> nth_error (us_pts sa) i = Some p ->
       nth_error (us_pts sb) i = Some q ->
       nth_error (uv_pts v) (l * length (us_pts sa) + i) =
       Some (let '(x, y, z) := p in let '(x', y', z') := q in
             (x + t * (x' - x), y + t * (y' - y), z + t * (z' - z)))) /\
    (forall l c base, (l < length perc - 1)%nat -> nth_error (us_cells sa) c = Some base ->
       exists cell, nth_error cells (l * length (us_cells sa) + c) = Some cell /\
         extruded invert (length (us_pts sa)) l base cell /\
         ((forall x, In x (snd base) -> (x < length (us_pts sa))%nat) ->
          forall y, In y (vcell_ids cell) -> (y < length (uv_pts v))%nat)).
Proof. exact @uvol_layers. Qed.
Print Assumptions C11_layers_of_cells.

Theorem C11_defined :
  forall D (sa sb : usurf D) r m invert perc,
  length (us_pts sa) = length (us_pts sb) -> types_agree (map fst (us_cells sa)) (map fst (us_cells sb)) ->
  (forall ct ids, In (ct, ids) (us_cells sa) ->
     ct = 5%nat \/ ct = 9%nat \/ (ct = 7%nat /\ (3 <= length ids)%nat) \/ (ct = 8%nat /\ length ids = 4%nat)) ->
  resolution_to_perc r m = Ok perc -> (2 <= length perc)%nat ->
  (forall k x, In (k, x) (us_pd sa) -> length x = length (us_pts sa)) ->
  (forall k x, In (k, x) (us_cd sa) -> length x = length (us_cells sa)) ->
  (forall g, us_ghost sa = Some g -> length g = length (us_cells sa)) ->
  exists v, generate_volume_unstructured sa sb r m invert = Ok v.
Proof. exact @uvol_defined. Qed.
Print Assumptions C11_defined.

Theorem C11_unsupported_cell_rejected :
  forall D (sa sb : usurf D) r m invert ct ids,
  In (ct, ids) (us_cells sa) -> ~ In ct [5; 7; 8; 9]%nat ->
  generate_volume_unstructured sa sb r m invert = Err ValueError.
Proof. exact @uvol_unsupported. Qed.
Print Assumptions C11_unsupported_cell_rejected.

Theorem C11_incompatible_rejected :
  forall D (sa sb : usurf D) r m invert,
  length (us_pts sa) <> length (us_pts sb) \/ ~ types_agree (map fst (us_cells sa)) (map fst (us_cells sb)) ->
  generate_volume_unstructured sa sb r m invert = Err ValueError.
Proof. exact @uvol_incompatible. Qed.
Print Assumptions C11_incompatible_rejected.
Example C11_incompatible_case : ~ types_agree [5; 9]%nat [5; 5]%nat.
Proof. intros [H|[(t & H & _)|(t & H & _)]]; discriminate. Qed.

Example C11_case : exists v,
  generate_volume_unstructured (usurf1 tri_a (5, [0; 1; 2])%nat) (usurf1 tri_b (5, [0; 1; 2])%nat)
    (ResInt 3) (Some "log"%string) true = Ok v.
Proof.
  destruct (perc_proper 3 (Some "log"%string) Log ltac:(constructor)) as (p & Hp & Hl & _).
  apply (uvol_defined _ _ _ _ _ p); cbn [usurf1 us_pts us_cells us_pd us_cd us_ghost]; auto.
  - left; reflexivity.
  - intros ct ids [E|[]]. injection E as <- <-. auto.
  - rewrite Hl; cbn; lia.
  - intros k x [].
  - intros k x [].
  - discriminate.
Qed.

(* C12 *)
Theorem C12_polyhedra_closed :
  forall D (sa sb : usurf D) r m invert v c ids perc,
  generate_volume_unstructured sa sb r m invert = Ok v ->
  resolution_to_perc r m = Ok perc ->
  nth_error (us_cells sa) c = Some (7%nat, ids) ->
  NoDup ids -> (3 <= length ids)%nat -> (forall x, In x ids -> (x < length (us_pts sa))%nat) ->
  exists cells, decode (uv_types v) (uv_stream v) = Some cells /\
    forall l, (l < length perc - 1)%nat ->
      exists faces, nth_error cells (l * length (us_cells sa) + c) = Some (Poly faces) /\
        closed_surface faces /\ (invert = true -> closed_oriented faces).
Proof. exact @uvol_closed. Qed.
Print Assumptions C12_polyhedra_closed.
Example C12_case : NoDup [0; 1; 2; 3]%nat /\ (3 <= length [0; 1; 2; 3])%nat /\
  forall x, In x [0; 1; 2; 3]%nat -> (x < length (us_pts (usurf1 sq_a (7, [0; 1; 2; 3])%nat)))%nat.
Proof. split; [apply square_convex|]. split; [simpl; lia|]. simpl; lia. Qed.

(* C13: full statement: outward for every simple polygon.  It is false for concave
   polygons (below); it holds for convex ones. *)
Theorem C13_convex_outward_partial :
  forall A (sa sb : usurf A) r m v D c ids perc,
  generate_volume_unstructured sa sb r m true = Ok v ->
  resolution_to_perc r m = Ok perc ->
  (forall i j x y, (i < j)%nat -> nth_error perc i = Some x -> nth_error perc j = Some y -> x < y) ->
  us_pts sb = map (fun p => vadd p D) (us_pts sa) ->
  nth_error (us_cells sa) c = Some (7%nat, ids) ->
  NoDup ids -> (3 <= length ids)%nat -> (forall x, In x ids -> (x < length (us_pts sa))%nat) ->
  planar_ring (at_pts (us_pts sa)) ids -> convex_ring (at_pts (us_pts sa)) D ids ->
  exists cells, decode (uv_types v) (uv_stream v) = Some cells /\
    forall l, (l < length perc - 1)%nat ->
      exists faces, nth_error cells (l * length (us_cells sa) + c) = Some (Poly faces) /\
        closed_oriented faces /\ outward (at_pts (uv_pts v)) faces.
Proof. exact @convex_outward. Qed.
Print Assumptions C13_convex_outward_partial.
Example C13_case : NoDup [0; 1; 2; 3]%nat /\ planar_ring (at_pts sq_a) [0; 1; 2; 3]%nat /\
  convex_ring (at_pts sq_a) (0, 0, 1) [0; 1; 2; 3]%nat /\
  sq_b = map (fun p => vadd p (0, 0, 1)) sq_a.
Proof. exact square_convex. Qed.

Theorem C13_concave_inward_refuted :
  exists v faces bottom sides,
    generate_volume_unstructured (usurf1 L_a (7, [0; 1; 2; 3; 4; 5])%nat)
      (usurf1 L_b (7, [0; 1; 2; 3; 4; 5])%nat) ResNone None true = Ok v /\
    decode (uv_types v) (uv_stream v) = Some [Poly faces] /\ faces = bottom :: sides /\
    0 < area_along (at_pts (uv_pts v)) (0, 0, 1) bottom.
Proof. exact concave_inward. Qed.
Print Assumptions C13_concave_inward_refuted.

(* any plane polygon, convex or not: the faces enclose the volume of the prism, turned outwards exactly when the
   first corner turns like the polygon *)
Theorem C13_enclosed_partial :
  forall A (sa sb : usurf A) r m v D c i0 i1 i2 rest perc,
  let ids := i0 :: i1 :: i2 :: rest in
  generate_volume_unstructured sa sb r m true = Ok v ->
  resolution_to_perc r m = Ok perc ->
  (forall i j x y, (i < j)%nat -> nth_error perc i = Some x -> nth_error perc j = Some y -> x < y) ->
  us_pts sb = map (fun p => vadd p D) (us_pts sa) ->
  nth_error (us_cells sa) c = Some (7%nat, ids) ->
  NoDup ids -> (forall x, In x ids -> (x < length (us_pts sa))%nat) ->
  planar_ring (at_pts (us_pts sa)) ids ->
  exists cells, decode (uv_types v) (uv_stream v) = Some cells /\
    forall l x y, nth_error perc l = Some x -> nth_error perc (S l) = Some y ->
      exists faces, nth_error cells (l * length (us_cells sa) + c) = Some (Poly faces) /\
        closed_oriented faces /\
        let volume := (y - x) * (area_along (at_pts (us_pts sa)) D ids / 2) in
        (0 <= turn (at_pts (us_pts sa)) D i0 i1 i2 -> enclosed_volume (at_pts (uv_pts v)) faces = volume) /\
        (turn (at_pts (us_pts sa)) D i0 i1 i2 < 0 -> enclosed_volume (at_pts (uv_pts v)) faces = - volume).
Proof. exact @enclosed. Qed.
Print Assumptions C13_enclosed_partial.
Example C13_enclosed_case : planar_ring (at_pts L_a) [0; 1; 2; 3; 4; 5]%nat /\
  turn (at_pts L_a) (0, 0, 1) 0 1 2 < 0 /\ area_along (at_pts L_a) (0, 0, 1) [0; 1; 2; 3; 4; 5]%nat / 2 = 3.
Proof.
  split; [|split; [unfold turn; cbn; lra|unfold area_along; cbn; lra]].
  intros p q r w Hp Hq Hr Hw.
  assert (Z : forall i, In i [0; 1; 2; 3; 4; 5]%nat -> snd (at_pts L_a i) = 0).
  { intros i [<-|[<-|[<-|[<-|[<-|[<-|[]]]]]]]; reflexivity. }
  apply Z in Hp, Hq, Hr, Hw. destruct (at_pts L_a p) as [[? ?] ?], (at_pts L_a q) as [[? ?] ?], (at_pts L_a r) as [[? ?] ?], (at_pts L_a w) as [[? ?] ?].
  cbn in *. subst. ring.
Qed.

(* C14: full statement: uv_input_cells v = us_cells sa.  False for polygons. *)
Theorem C14_input_cells_partial :
  forall D (sa sb : usurf D) r m invert v,
  generate_volume_unstructured sa sb r m invert = Ok v ->
  length (uv_input_cells v) = length (us_cells sa) /\
  forall c ct ids, nth_error (us_cells sa) c = Some (ct, ids) ->
    exists ids', nth_error (uv_input_cells v) c = Some (ct, ids') /\
      ((ct <> 7%nat \/ invert = false) -> ids' = ids) /\
      (ids' = ids \/ ids' = rev ids).
Proof. exact @input_cells. Qed.
Print Assumptions C14_input_cells_partial.

Theorem C14_input_modified_refuted :
  exists v, generate_volume_unstructured (usurf1 sq_a (7, [0; 1; 2; 3])%nat)
              (usurf1 sq_b (7, [0; 1; 2; 3])%nat) ResNone None true = Ok v /\
    uv_input_cells v = [(7, [3; 2; 1; 0])]%nat.
Proof. exact input_reversed. Qed.
Print Assumptions C14_input_modified_refuted.

(* C15: full statement: cell c of layer l is flagged iff flat_at ... l.  The code tests
   layer 0 only; the exact law follows, and two counterexamples. *)
Theorem C15_flags_from_first_layer_partial :
  forall D (sa sb : usurf D) r m invert v perc,
  generate_volume_unstructured sa sb r m invert = Ok v ->
  resolution_to_perc r m = Ok perc ->
  length (uv_ghost v) = ((length perc - 1) * length (us_cells sa))%nat /\
  forall l c base, (l < length perc - 1)%nat -> nth_error (us_cells sa) c = Some base ->
    (flat_at (uv_pts v) (length (us_pts sa)) 0 (snd base) ->
       nth_error (uv_ghost v) (l * length (us_cells sa) + c) = Some 32%nat) /\
    (~ flat_at (uv_pts v) (length (us_pts sa)) 0 (snd base) ->
       nth_error (uv_ghost v) (l * length (us_cells sa) + c) =
       match us_ghost sa with None => Some 0%nat | Some g => nth_error g c end).
Proof. exact @ghost_law. Qed.
Print Assumptions C15_flags_from_first_layer_partial.

Theorem C15_zero_thickness_flagged :
  forall D (sa sb : usurf D) r m invert v perc c base,
  generate_volume_unstructured sa sb r m invert = Ok v ->
  resolution_to_perc r m = Ok perc ->
  nth_error (us_cells sa) c = Some base ->
  (forall x, In x (snd base) ->
     (x < length (us_pts sa))%nat /\ at_pts (us_pts sa) x = at_pts (us_pts sb) x) ->
  forall l, (l < length perc - 1)%nat ->
    nth_error (uv_ghost v) (l * length (us_cells sa) + c) = Some 32%nat.
Proof. exact @flat_flagged. Qed.
Print Assumptions C15_zero_thickness_flagged.

Theorem C15_thick_cell_flagged_refuted :
  exists v, generate_volume_unstructured (usurf1 tri_a (5, [0; 1; 2])%nat) (usurf1 tri_b (5, [0; 1; 2])%nat)
              (ResArr [0; 0; 1]) None true = Ok v /\
    ~ flat_at (uv_pts v) 3 1 [0; 1; 2]%nat /\ nth_error (uv_ghost v) 1 = Some 32%nat.
Proof. exact flag_spreads. Qed.
Print Assumptions C15_thick_cell_flagged_refuted.

Theorem C15_flat_cell_missed_refuted :
  exists v, generate_volume_unstructured (usurf1 tri_a (5, [0; 1; 2])%nat) (usurf1 tri_b (5, [0; 1; 2])%nat)
              (ResArr [0; 1; 1]) None true = Ok v /\
    flat_at (uv_pts v) 3 1 [0; 1; 2]%nat /\ nth_error (uv_ghost v) 1 = Some 0%nat.
Proof. exact flag_missed. Qed.
Print Assumptions C15_flat_cell_missed_refuted.

(* C16 *)
Theorem C16_unstructured_data_from_base :
  forall D (sa sb : usurf D) r m invert v perc k x,
  generate_volume_unstructured sa sb r m invert = Ok v ->
  resolution_to_perc r m = Ok perc ->
  (In (k, x) (us_pd sa) -> exists w, In (k, w) (uv_pd v) /\ length w = length (uv_pts v) /\
     forall l i, (l < length perc)%nat -> (i < length (us_pts sa))%nat ->
       nth_error w (l * length (us_pts sa) + i) = nth_error x i) /\
  (In (k, x) (us_cd sa) -> exists w, In (k, w) (uv_cd v) /\
     length w = ((length perc - 1) * length (us_cells sa))%nat /\
     forall l c, (l < length perc - 1)%nat -> (c < length (us_cells sa))%nat ->
       nth_error w (l * length (us_cells sa) + c) = nth_error x c).
Proof. exact @uvol_data. Qed.
Print Assumptions C16_unstructured_data_from_base.

(* a triangle and a polygon that share an edge, in two layers; the triangle has no thickness *)
Definition ex_us (z : R) : usurf nat :=
  mkUsurf [(0, 0, 0); (1, 0, 0); (0, 1, 0); (1, 1, z); (2, 0, z)] [(5, [0; 1; 2]); (7, [1; 4; 3; 2])]%nat
    [("v"%string, [1; 2; 3; 4; 5]%nat)] [("c"%string, [6; 7]%nat)] (Some [0; 1]%nat).
Example C14_C15_C16_case : exists v,
  generate_volume_unstructured (ex_us 0) (ex_us 1) (ResArr [0; / 2; 1]) None false = Ok v /\
  resolution_to_perc (ResArr [0; / 2; 1]) None = Ok [0; / 2; 1] /\
  (forall x, In x [0; 1; 2]%nat -> (x < length (us_pts (ex_us 0)))%nat /\ at_pts (us_pts (ex_us 0)) x = at_pts (us_pts (ex_us 1)) x) /\
  uv_input_cells v = us_cells (ex_us 0) /\ uv_pd v = [("v"%string, [1; 2; 3; 4; 5; 1; 2; 3; 4; 5; 1; 2; 3; 4; 5]%nat)] /\
  uv_cd v = [("c"%string, [6; 7; 6; 7]%nat)] /\ nth_error (uv_ghost v) 2 = Some 32%nat.
Proof.
  assert (P : resolution_to_perc (ResArr [0; / 2; 1]) None = Ok [0; / 2; 1]).
  { unfold resolution_to_perc. rewrite np_sort_id; [reflexivity|]. repeat constructor; lra. }
  assert (H : forall x, In x [0; 1; 2]%nat -> (x < length (us_pts (ex_us 0)))%nat /\ at_pts (us_pts (ex_us 0)) x = at_pts (us_pts (ex_us 1)) x).
  { intros x [<-|[<-|[<-|[]]]]; (split; [cbn; lia|reflexivity]). }
  assert (E : exists v, generate_volume_unstructured (ex_us 0) (ex_us 1) (ResArr [0; / 2; 1]) None false = Ok v /\
    uv_input_cells v = us_cells (ex_us 0) /\ uv_pd v = [("v"%string, [1; 2; 3; 4; 5; 1; 2; 3; 4; 5; 1; 2; 3; 4; 5]%nat)] /\
    uv_cd v = [("c"%string, [6; 7; 6; 7]%nat)]).
  { unfold generate_volume_unstructured. rewrite P. eexists. split; [cbn; reflexivity|]. repeat split. }
  destruct E as (v & Ev & E1 & E2 & E3). exists v. repeat (split; [assumption|]).
  exact (C15_zero_thickness_flagged _ _ _ _ _ _ _ _ 0%nat _ Ev P eq_refl H 1%nat ltac:(cbn; lia)).
Qed.
