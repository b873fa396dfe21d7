(* Properties C71-C72: interactive selections. *)
From Coq Require Import Reals Lra Sorted Ascii.
From Verif Require Import Prelude Surface_model Interactive_model Interactive_spec Interactive_proof.
Open Scope nat_scope.

(* C71: one click per event, on the first id of the picked array *)
Theorem C71_selection_toggles :
  forall known_view view preference events clicks,
  (forall v, view = Some v -> v <> ""%string -> names_view known_view v) ->
  Forall2 (fun e c => exists r, (if String.eqb preference "cell" then ev_cells e else ev_points e) = c :: r) events clicks ->
  exists ids drawn camera, interactive_selection known_view view preference events = Ok (ids, drawn, camera) /\
    (forall v, view = Some v -> v <> ""%string -> exists c, camera = Some c /\ looks v c) /\
    (view = None \/ view = Some ""%string -> camera = None) /\
    NoDup ids /\ length drawn = length ids /\ NoDup drawn /\
    (forall i, In i ids <-> Nat.odd (clicks_on i clicks) = true) /\
    (forall x y a b, In x ids -> In y ids -> last_click clicks x a -> last_click clicks y b ->
       comes_before ids x y <-> a < b).
Proof. exact @selection_toggles. Qed.
Print Assumptions C71_selection_toggles.

Example C71_example : interactive_selection (fun v => String.eqb v "xy") (Some "-xy"%string) "cell"
    [mkEv [4%Z] []; mkEv [7; 2]%Z []; mkEv [4%Z] []; mkEv [4%Z] []; mkEv [5%Z] []; mkEv [5%Z] []]
  = Ok ([7; 4]%Z, [1; 2], Some ("xy"%string, true)).
Proof. reflexivity. Qed.

Theorem C71_unknown_view :
  forall known_view v preference events,
  v <> ""%string -> ~ names_view known_view v ->
  interactive_selection known_view (Some v) preference events = Err ValueError.
Proof. exact @selection_unknown_view. Qed.
Print Assumptions C71_unknown_view.

(* C72: full statement: for every view with a plane.  It holds for the views of the xy plane and is false for the others (below) *)
Theorem C72_horizontal_partial :
  forall known_view polygon centers points view preference clicks proj inside,
  names_view known_view view -> horizontal_view view -> view_plane view proj ->
  polygon (map proj clicks) = Ok inside ->
  exists ids camera, interactive_lasso_selection known_view polygon centers points view preference clicks
    = Ok (ids, map proj clicks, camera) /\ looks view camera /\
    lasso_selects proj inside (if String.eqb preference "cell" then centers else points) ids.
Proof. exact @lasso_horizontal. Qed.
Print Assumptions C72_horizontal_partial.

(* C72: for every plane the outline is the projection of the clicks, but the items are selected by
   their x and y coordinates *)
Theorem C72_outline_partial :
  forall known_view polygon centers points view preference clicks proj inside,
  names_view known_view view -> view_plane view proj ->
  polygon (map proj clicks) = Ok inside ->
  exists ids camera, interactive_lasso_selection known_view polygon centers points view preference clicks
    = Ok (ids, map proj clicks, camera) /\ looks view camera /\
    lasso_selects (fun p => let '(x, y, z) := p in (x, y)) inside
      (if String.eqb preference "cell" then centers else points) ids.
Proof. exact @lasso_outline. Qed.
Print Assumptions C72_outline_partial.

Example C72_outline_example :
  view_plane "-zy" (fun p => let '(x, y, z) := p in (y, z)) /\ names_view (fun v => String.eqb v "zy") "-zy".
Proof. split; [apply vp_minus, vp_zy|apply nv_minus; reflexivity]. Qed.

Example C72_example : horizontal_view "-xy" /\ names_view (fun v => String.eqb v "xy") "-xy".
Proof. split; [apply hv_nxy|apply nv_minus; reflexivity]. Qed.

(* C72: in the view xz cell 0, whose center is in the lasso, is not selected, and cell 1, whose center is not, is *)
Theorem C72_view_plane_refuted :
  forall known_view polygon,
  known_view "xz"%string = true -> unit_square_inside polygon ->
  exists centers clicks proj inside ids,
    view_plane "xz" proj /\ polygon (map proj clicks) = Ok inside /\
    interactive_lasso_selection known_view polygon centers [] "xz" "cell" clicks = Ok (ids, map proj clicks, ("xz"%string, false)) /\
    ids = [1] /\ (forall p, nth_error centers 0 = Some p -> inside (proj p) = true) /\
    (forall p, nth_error centers 1 = Some p -> inside (proj p) = false).
Proof. exact @lasso_xz_wrong. Qed.
Print Assumptions C72_view_plane_refuted.

Example C72_refuted_example : exists polygon, unit_square_inside polygon.
Proof.
  exists (fun _ => Ok (fun q => let '(x, y) := q in if Rlt_dec 0 x then if Rlt_dec x 1 then if Rlt_dec 0 y then
    if Rlt_dec y 1 then true else false else false else false else false)).
  eexists. split; [reflexivity|]. intros x y. cbn.
  destruct (Rlt_dec 0 x), (Rlt_dec x 1), (Rlt_dec 0 y), (Rlt_dec y 1); split; try discriminate; try lra; tauto.
Qed.

Theorem C72_unknown_view :
  forall known_view polygon centers points view preference clicks,
  ~ names_view known_view view ->
  interactive_lasso_selection known_view polygon centers points view preference clicks = Err ValueError.
Proof. exact @lasso_unknown_view. Qed.
Print Assumptions C72_unknown_view.
