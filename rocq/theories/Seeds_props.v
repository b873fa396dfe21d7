From Coq Require Import Reals Lra Lia Sorted Ascii.
From Verif Require Import Prelude Perc_model Grid Surface_model Volume_model Groups_model Lines_model Lines_spec
  Voronoi_model Objects_model Objects_spec Objects1_proof Objects5_proof Seeds_model Seeds_spec
  Seeds1_proof Seeds2_proof Seeds3_proof Seeds4_proof Seeds5_proof Seeds6_proof Seeds7_proof.
From Verif Require Groups_proof.
Open Scope R_scope.

(* C107: full statement: a circle is accepted if and only if its constraint radius is not less than its radius (false, below).  It must also be less than twice the radius *)
Theorem C107_accepted_partial :
  forall areas swap axis s radius arg cr res p center c plain prio group,
  constraint_of radius arg cr -> subdivides (mkSub res None) p -> (2 <= length p)%nat -> offset center c ->
  (exists s', add_circle areas swap axis s radius arg res center plain prio group = (s', Ok tt)) <->
  0 < radius /\ radius <= cr < 2 * radius.
Proof. exact @circle_accepted. Qed.
Print Assumptions C107_accepted_partial.

Example C107_example : constraint_of 2 None 3 /\ subdivides (mkSub ResNone None) [0; 1] /\ offset None (0, 0, 0) /\ 0 < 2 /\ 2 <= 3 < 2 * 2.
Proof. split; [right; split; [reflexivity|lra]|]. split; [exact sub_none|]. split; [constructor|lra]. Qed.

(* C107: any other radius is rejected, whatever the other arguments *)
Theorem C107_rejected :
  forall areas swap axis s radius arg cr res center plain prio group,
  constraint_of radius arg cr -> ~ (0 < radius /\ radius <= cr < 2 * radius) ->
  add_circle areas swap axis s radius arg res center plain prio group = (s, Err ValueError).
Proof. exact @circle_bad. Qed.
Print Assumptions C107_rejected.

Example C107_rejected_example : constraint_of 2 (Some 1) 1 /\ ~ (0 < 2 /\ 2 <= 1 < 2 * 2).
Proof. split; [now left|lra]. Qed.

(* C107: a circle that is refused leaves the mesh as it was *)
Theorem C107_atomic :
  forall areas swap axis s radius arg res center plain prio group s' e,
  add_circle areas swap axis s radius arg res center plain prio group = (s', Err e) -> s' = s.
Proof. exact @circle_atomic. Qed.
Print Assumptions C107_atomic.

Example C107_atomic_example : forall areas swap, exists e,
  add_circle areas swap 2 (mkSeeds [] []) 2 (Some 1) ResNone None false 0 "" = (mkSeeds [] [], Err e).
Proof. intros areas swap. eexists. apply (circle_bad areas swap 2 _ 2 (Some 1) 1); [now left|lra]. Qed.

(* C107: a constraint radius larger than the radius that is rejected *)
Theorem C107_large_refuted :
  forall areas swap,
  exists axis s radius cr, radius <= cr /\ 0 < radius /\
  add_circle areas swap axis s radius (Some cr) ResNone None false 0 "" = (s, Err ValueError).
Proof. exact @circle_large_rejected. Qed.
Print Assumptions C107_large_refuted.

(* C108: full statement: for every axis (false, below).  The cells of the two items meet along the chords of the circle, and the ends of each chord are as far from the center of the inner cell as from that of the outer cell *)
Theorem C108_chords_partial :
  forall areas swap s radius arg cr res p center x y z plain prio group,
  constraint_of radius arg cr -> 0 < radius -> radius < cr < 2 * radius ->
  subdivides (mkSub res None) p -> (2 <= length p)%nat -> offset center (x, y, z) ->
  exists s' it1 it2, add_circle areas swap 2 s radius arg res center plain prio group = (s', Ok tt) /\
    s_items s' = s_items s ++ [it1; it2] /\
    length (cells_of it1) = (2 * (length p - 1))%nat /\ length (cells_of it2) = (length p - 1)%nat /\
    vi_prio it1 = prio /\ vi_group it1 = group /\ vi_prio it2 = 0%Z /\ vi_group it2 = ""%string /\
    forall k t t', nth_error p k = Some t -> nth_error p (S k) = Some t' ->
      exists inner outer, In inner (cells_of it1) /\ nth_error (cells_of it2) k = Some outer /\
        (forall q, In q inner -> xyz 2 q = 0 /\ dist3 (x, y, 0) q <= radius) /\
        (forall q, In q outer -> xyz 2 q = 0 /\ radius <= dist3 (x, y, 0) q <= cr) /\
        let P := polar (x, y, 0) radius (360 * t) in
        let Q := polar (x, y, 0) radius (360 * t') in
        In P inner /\ In Q inner /\ In P outer /\ In Q outer /\
        dist3 P (mean_point inner) = dist3 P (mean_point outer) /\
        dist3 Q (mean_point inner) = dist3 Q (mean_point outer).
Proof. exact @circle_chords. Qed.
Print Assumptions C108_chords_partial.

Example C108_example : constraint_of 2 (Some 3) 3 /\ 2 < 3 < 2 * 2 /\ offset (Some [1; 2]) (1, 2, 0) /\ nth_error [0; 1] 0 = Some 0.
Proof. split; [now left|]. split; [lra|]. split; [constructor|reflexivity]. Qed.

(* C108: for the axes x and y the circle is flattened onto a line *)
Theorem C108_other_axes :
  forall areas swap axis s radius arg cr res p center x y z plain prio group,
  (axis <= 1)%nat ->
  constraint_of radius arg cr -> 0 < radius -> radius < cr < 2 * radius ->
  subdivides (mkSub res None) p -> (2 <= length p)%nat -> offset center (x, y, z) ->
  exists s' it1 it2, add_circle areas swap axis s radius arg res center plain prio group = (s', Ok tt) /\
    s_items s' = s_items s ++ [it1; it2] /\ cells_of it1 <> [] /\
    forall cell q, In cell (cells_of it1) \/ In cell (cells_of it2) -> In q cell -> xyz axis q = 0 /\ xyz 2 q = z.
Proof. exact @circle_flat. Qed.
Print Assumptions C108_other_axes.

Example C108_other_axes_example : (0 <= 1)%nat /\ constraint_of 2 None 3 /\ offset (Some [1; 2; 3]) (1, 2, 3).
Proof. split; [lia|]. split; [right; split; [reflexivity|lra]|constructor]. Qed.

(* C108: a circle all of whose cells are segments *)
Theorem C108_axis_refuted :
  forall areas swap,
  exists axis s radius s' it1 it2, 0 < radius /\
  add_circle areas swap axis s radius None (ResInt 8) None false 0 "" = (s', Ok tt) /\
  s_items s' = s_items s ++ [it1; it2] /\ cells_of it1 <> [] /\
  forall cell, In cell (cells_of it1) \/ In cell (cells_of it2) -> forall q q', In q cell -> In q' cell ->
    xyz 0 q = xyz 0 q' /\ xyz 2 q = xyz 2 q'.
Proof. exact @circle_flat_refuted. Qed.
Print Assumptions C108_axis_refuted.

(* C109: full statement: for every center accepted (false, below).  With a center in the plane, the cells fused are those whose center is inside the circle *)
Theorem C109_plain_partial :
  forall areas swap s radius arg cr res p center x y prio group,
  constraint_of radius arg cr -> 0 < radius -> radius <= cr < 2 * radius ->
  subdivides (mkSub res None) p -> (2 <= length p)%nat -> offset center (x, y, 0) ->
  exists s' f, add_circle areas swap 2 s radius arg res center true prio group = (s', Ok tt) /\
    s_fuse s' = s_fuse s ++ [f] /\
    forall u v, f (u, v, 0) = true <-> (u - x) * (u - x) + (v - y) * (v - y) < radius * radius.
Proof. exact @circle_plain. Qed.
Print Assumptions C109_plain_partial.

Example C109_example : constraint_of 2 None 3 /\ 2 <= 3 < 2 * 2 /\ offset (Some [1; 2]) (1, 2, 0).
Proof. split; [right; split; [reflexivity|lra]|]. split; [lra|constructor]. Qed.

(* C109: a center out of the plane, whose circle is drawn in the plane but in which nothing is fused *)
Theorem C109_center_refuted :
  forall areas swap,
  exists s radius center s' f, 0 < radius /\
  add_circle areas swap 2 s radius None ResNone (Some center) true 0 "" = (s', Ok tt) /\
  s_fuse s' = s_fuse s ++ [f] /\ exists x y z, center = [x; y; z] /\ forall u v, f (u, v, 0) = false.
Proof. exact @circle_plain_refuted. Qed.
Print Assumptions C109_center_refuted.

(* C110: full statement: also without group name when the constraint radius is larger than the radius (false, below) *)
Theorem C110_groups_partial :
  forall areas swap axis s radius arg cr res p center c plain prio group o,
  constraint_of radius arg cr -> 0 < radius -> radius <= cr < 2 * radius ->
  subdivides (mkSub res None) p -> (2 <= length p)%nat -> offset center c ->
  exists s' it1 rest, add_circle areas swap axis s radius arg res center plain prio group = (s', Ok tt) /\
    s_items s' = s_items s ++ it1 :: rest /\
    (group <> ""%string -> (forall name, group <> String "~"%char name) -> forall m, clipped (vi_mesh it1) m ->
       all_in_group o m (vi_group it1) group) /\
    (group = ""%string -> cr = radius -> forall m, clipped (vi_mesh it1) m ->
       all_in_group o m (vi_group it1) (default_group o)) /\
    (forall it2, In it2 rest -> forall m, clipped (vi_mesh it2) m -> all_in_group o m (vi_group it2) (default_group o)).
Proof.
  intros areas swap axis s radius arg cr res p center c plain prio group o H1 H2 H3 H4 H5 H6.
  destruct (circle_group areas swap axis s radius arg cr res p center c plain prio group o H1 H2 H3 H4 H5 H6)
    as (s' & it1 & rest & A & B & C & D & E).
  exists s', it1, rest. split; [exact A|]. split; [exact B|]. split; [|split; [exact D|exact E]].
  intros Hg Hn. apply C; [exact Hg|]. apply Groups_proof.tilde_None. exact Hn.
Qed.
Print Assumptions C110_groups_partial.

Example C110_example : constraint_of 2 (Some 2) 2 /\ 2 <= 2 < 2 * 2 /\ (forall name, "well"%string <> String "~"%char name) /\ "well"%string <> ""%string.
Proof. split; [now left|]. split; [lra|]. split; discriminate. Qed.

(* C110: the cells inside a circle without group name are in group "default" though the default group of the mesh has another name *)
Theorem C110_default_refuted :
  forall areas swap,
  exists axis s radius o s' it1 it2,
  add_circle areas swap axis s radius None ResNone None false 0 "" = (s', Ok tt) /\
  s_items s' = s_items s ++ [it1; it2] /\ cells_of it1 <> [] /\
  default_group o <> "default"%string /\
  all_in_group o (vi_mesh it1) (vi_group it1) "default" /\
  all_in_group o (vi_mesh it2) (vi_group it2) (default_group o).
Proof. exact @circle_group_wrong. Qed.
Print Assumptions C110_default_refuted.

(* C111: two items per polyline, in order: a strip of sections of the given width, centered on the points and perpendicular to the line *)
Theorem C111_strips :
  forall areas {D} axis s (arg : list pt + lmesh pt D) ls width pref padding cs ce res p priority group,
  polylines arg ls -> Forall (fun l => (2 <= length l)%nat) ls -> resolution_to_perc res None = Ok p -> (2 <= length p)%nat ->
  exists P its, widened p P /\
    add_polyline areas axis s arg width pref padding cs ce res priority group = (mkSeeds (s_items s ++ its) (s_fuse s), Ok tt) /\
    drawn_all (fun l => draws axis width pref padding cs ce P l (match priority with Some p => p | None => 0%Z end) group) ls its.
Proof. exact @polyline_ok. Qed.
Print Assumptions C111_strips.

Example C111_example : @polylines unit (inl [(0, 0, 0); (1, 1, 0); (2, 0, 0)]) [[(0, 0, 0); (1, 1, 0); (2, 0, 0)]] /\
  resolution_to_perc ResNone None = Ok [0; 1] /\ left_normal (0, 0) (2, 0) (0, 1).
Proof. split; [constructor; cbn; lia|]. split; [exact sub_none|]. unfold left_normal. cbn. lra. Qed.

(* C112: whatever the constraints, the first item is the strip of the line drawn at the positions asked for *)
Theorem C112_core_strip :
  forall axis width pref padding cs ce points prio group it1 it2 p P,
  (2 <= length points)%nat -> (2 <= length p)%nat -> widened p P ->
  draws axis width pref padding cs ce P points prio group it1 it2 ->
  exists Q N, drawn (padding_of width padding) pref (map (project axis) points) Q /\ length N = length Q /\
    (forall k a b, (k < length Q)%nat -> around Q k a b -> a <> b -> left_normal a b (nth k N (0, 0))) /\
    cells_of it1 = map (strip_cell axis width Q N p) (cell_indices (length Q - 1) (length p - 1)).
Proof. exact @core_strip. Qed.
Print Assumptions C112_core_strip.

Example C112_example : (2 <= length [(0, 0, 0); (1, 1, 0)])%nat /\ widened [0; 1] [-1; 0; 1; 2] /\
  cell_indices 2 1 = [(0, 0); (1, 0)]%nat.
Proof.
  split; [cbn; lia|]. split; [|reflexivity]. split; [reflexivity|]. split.
  - intros [|[|[|k]]] x H; cbn in H |- *; congruence.
  - intros k a b c [->|H] Ha Hb Hc.
    + cbn in Ha, Hb, Hc. injection Ha as <-. injection Hb as <-. injection Hc as <-. ring.
    + injection H as ->. cbn in Ha, Hb, Hc. injection Ha as <-. injection Hb as <-. injection Hc as <-. ring.
Qed.

(* C113: where the line is straight, the centers on both sides of an edge between the two items are mirror images in that edge: along the sides of the strip and across both ends *)
Theorem C113_mirrors :
  forall axis width pref padding cs ce points prio group it1 it2 p P,
  (2 <= length points)%nat -> (2 <= length p)%nat -> widened p P ->
  draws axis width pref padding cs ce P points prio group it1 it2 ->
  exists Q E, drawn (padding_of width padding) pref (map (project axis) points) Q /\ prolonged cs ce Q E /\
  (forall i e f, (cs <= i)%nat -> (S i + ce < length E)%nat -> nth_error E i = Some e -> nth_error E (S i) = Some f ->
     straight E (i - 1) (i + 2) -> exists n, left_normal e f n /\
     forall t, nth_error p 0 = Some t \/ nth_error p (length p - 1) = Some t ->
       mirrored it1 it2 (embed axis (across width e n t)) (embed axis (across width f n t))) /\
  (forall i e, (i = cs /\ 0 < cs \/ S i = cs + length Q /\ 0 < ce)%nat -> nth_error E i = Some e ->
     straight E (i - 2) (i + 2) -> exists n, (forall a b, around E i a b -> left_normal a b n) /\
     forall j t t', nth_error p j = Some t -> nth_error p (S j) = Some t' ->
       mirrored it1 it2 (embed axis (across width e n t)) (embed axis (across width e n t'))).
Proof. exact @polyline_mirrors. Qed.
Print Assumptions C113_mirrors.

Example C113_example : straight [(0, 0); (1, 0); (2, 0); (4, 0)] 0 3.
Proof.
  split; [lia|]. exists (1, 0). split; [intros [= H]; lra|].
  intros [|[|[|l]]] a b Hl Ha Hb; cbn in Ha, Hb; try lia; injection Ha as <-; injection Hb as <-; cbn.
  - exists 1. lra.
  - exists 1. lra.
  - exists 2. lra.
Qed.

(* C114: full statement: with preference point the centers are the points of the polyline, with preference cell the middles of its segments (false, below).  With preference point they are the middles of the segments *)
Theorem C114_point_partial :
  forall axis width padding cs ce points prio group it1 it2 P,
  (2 <= length points)%nat -> widened [0; 1] P ->
  draws axis width PrefPoint padding cs ce P points prio group it1 it2 ->
  length (cells_of it1) = (length points - 1)%nat /\
  forall k a b, nth_error points k = Some a -> nth_error points (S k) = Some b ->
    exists c, nth_error (cells_of it1) k = Some c /\ mean_point c = in_plane axis (vtimes (/ 2) (vplus a b)).
Proof. exact @point_sites. Qed.
Print Assumptions C114_point_partial.

Example C114_example : nth_error [(0, 0, 0); (2, 4, 0)] 1 = Some (2, 4, 0) /\
  in_plane 2 (scale (/ 2) (add3 (0, 0, 0) (2, 4, 0))) = (1, 2, 0).
Proof. split; [reflexivity|]. unfold in_plane, scale, add3. repeat apply f_equal2; lra. Qed.

(* C114: with preference cell there is one center per point, close to it *)
Theorem C114_cell_partial :
  forall axis width padding cs ce points prio group it1 it2 P,
  (2 <= length points)%nat -> widened [0; 1] P ->
  draws axis width PrefCell padding cs ce P points prio group it1 it2 ->
  length (cells_of it1) = length points /\
  (forall k a b c, nth_error points k = Some a -> nth_error points (S k) = Some b -> nth_error points (S (S k)) = Some c ->
    exists cl, nth_error (cells_of it1) (S k) = Some cl /\
      mean_point cl = in_plane axis (vtimes (/ 4) (vplus (vplus a c) (vtimes 2 b)))) /\
  (forall a b, nth_error points 0 = Some a -> nth_error points 1 = Some b ->
    exists cl, nth_error (cells_of it1) 0 = Some cl /\
      mean_point cl = embed axis (halfway (beyond (padding_of width padding) (project axis a) (project axis b))
                                          (halfway (project axis a) (project axis b)))) /\
  (forall a b, nth_error points (length points - 2) = Some a -> nth_error points (length points - 1) = Some b ->
    exists cl, nth_error (cells_of it1) (length points - 1) = Some cl /\
      mean_point cl = embed axis (halfway (halfway (project axis a) (project axis b))
                                          (beyond (padding_of width padding) (project axis b) (project axis a)))).
Proof. exact @cell_sites. Qed.
Print Assumptions C114_cell_partial.

Example C114_cell_example : forall areas : shape3 -> list pt -> list R,
  exists P it1 it2, widened [0; 1] P /\
  draws 2 1 PrefCell None 1 1 P [(0, 0, 0); (2, 4, 0); (4, 0, 0)] 0 "" it1 it2 /\ length (cells_of it1) = 3%nat.
Proof.
  intros areas.
  destruct (@C111_strips areas unit 2 (mkSeeds [] []) (inl [(0, 0, 0); (2, 4, 0); (4, 0, 0)])
              [[(0, 0, 0); (2, 4, 0); (4, 0, 0)]] 1 PrefCell None 1 1 ResNone [0; 1] None "")
    as (P & its & HP & _ & HD).
  - constructor; cbn; lia.
  - repeat constructor.
  - exact sub_none.
  - cbn; lia.
  - inversion HD as [|l ls a b its' H1 H2]; subst. exists P, a, b. split; [exact HP|]. split; [exact H1|].
    refine (proj1 (C114_cell_partial _ _ _ _ _ _ _ _ _ _ _ _ HP H1)). cbn. lia.
Qed.

(* C114: a line such that no center is a point with preference point, and all are with preference cell *)
Theorem C114_preference_refuted :
  forall areas,
  exists pts, forall s,
  (exists it1 it2, add_polyline (D := unit) areas 2 s (inl pts) 2 PrefPoint None 1 1 ResNone None "" =
      (mkSeeds (s_items s ++ [it1; it2]) (s_fuse s), Ok tt) /\
    forall c p, In c (cells_of it1) -> In p pts -> mean_point c <> p) /\
  (exists it1 it2, add_polyline (D := unit) areas 2 s (inl pts) 2 PrefCell None 1 1 ResNone None "" =
      (mkSeeds (s_items s ++ [it1; it2]) (s_fuse s), Ok tt) /\ map mean_point (cells_of it1) = pts).
Proof. exact @preference_refuted. Qed.
Print Assumptions C114_preference_refuted.

(* C115: items are only appended, and those appended are in the plane of the mesh, whatever the outcome *)
Theorem C115_mesh :
  forall axis s m poly prio group,
  exists its,
  s_items (add_mesh axis s m poly prio group) = s_items s ++ its /\ Forall (flat axis) its.
Proof. exact @mesh_in_plane. Qed.
Print Assumptions C115_mesh.

Example C115_example : flat 1 (mkVI (mkG [[(1, 0, 2); (3, 0, 4)]] None None) false "" 0%Z) /\
  ~ flat 1 (mkVI (mkG [[(1, 5, 2)]] None None) false "" 0%Z).
Proof.
  split; [repeat constructor|]. intros H. inversion H as [|? ? H1 H2]; subst. inversion H1 as [|? ? H3 H4]; subst. cbn in H3. lra.
Qed.

Theorem C115_points :
  forall axis s rows prio group,
  exists its,
  s_items (fst (add_points axis s rows prio group)) = s_items s ++ its /\ Forall (flat axis) its.
Proof. exact @points_in_plane. Qed.
Print Assumptions C115_points.

Theorem C115_circle :
  forall areas swap axis s radius cr res center plain prio group,
  exists its,
  s_items (fst (add_circle areas swap axis s radius cr res center plain prio group)) = s_items s ++ its /\ Forall (flat axis) its.
Proof. exact @circle_in_plane. Qed.
Print Assumptions C115_circle.

Theorem C115_polyline :
  forall areas {D} axis s (arg : list pt + lmesh pt D) width pref padding cs ce res priority group,
  exists its,
  s_items (fst (add_polyline areas axis s arg width pref padding cs ce res priority group)) = s_items s ++ its /\ Forall (flat axis) its.
Proof. exact @polyline_in_plane. Qed.
Print Assumptions C115_polyline.

Example C115_polyline_example : forall areas : shape3 -> list pt -> list R,
  exists it1 it2, s_items (fst (@add_polyline unit areas 1 (mkSeeds [] []) (inl [(0, 5, 0); (2, 5, 4); (4, 7, 0)]) 1
    PrefCell None 1 1 ResNone None "")) = [it1; it2] /\ flat 1 it1 /\ flat 1 it2.
Proof.
  intros areas.
  destruct (@C111_strips areas unit 1 (mkSeeds [] []) (inl [(0, 5, 0); (2, 5, 4); (4, 7, 0)])
              [[(0, 5, 0); (2, 5, 4); (4, 7, 0)]] 1 PrefCell None 1 1 ResNone [0; 1] None "")
    as (P & its & HP & HA & HD).
  - constructor; cbn; lia.
  - repeat constructor.
  - exact sub_none.
  - cbn; lia.
  - inversion HD as [|l ls a b its' H1 H2]; subst. inversion H2; subst. exists a, b. rewrite HA. split; [reflexivity|].
    destruct (@C115_polyline areas unit 1 (mkSeeds [] []) (inl [(0, 5, 0); (2, 5, 4); (4, 7, 0)]) 1 PrefCell None 1 1 ResNone None "")
      as (its & E & HF). rewrite HA in E. cbn in E. subst its. inversion HF as [|? ? F1 F2]; subst. inversion F2; subst. auto.
Qed.

(* C116: full statement: for any number of polylines (false, below) *)
Theorem C116_single_partial :
  forall areas {D} axis s (arg : list pt + lmesh pt D) ls width pref padding cs ce res priority group s' e,
  polylines arg ls -> (length ls <= 1)%nat ->
  add_polyline areas axis s arg width pref padding cs ce res priority group = (s', Err e) -> s' = s.
Proof. exact @polyline_atomic. Qed.
Print Assumptions C116_single_partial.

Example C116_example : @polylines unit (inl [(0, 0, 0); (1, 1, 0)]) [[(0, 0, 0); (1, 1, 0)]] /\
  forall areas, exists e, add_polyline (D := unit) areas 2 (mkSeeds [] []) (inl [(0, 0, 0); (1, 1, 0)]) 1 PrefCell None 1 1 ResOther None "" = (mkSeeds [] [], Err e).
Proof. split; [constructor; cbn; lia|]. intros areas. eexists. reflexivity. Qed.

(* C116: the items of the first polylines remain when a later one is refused *)
Theorem C116_several_refuted :
  forall areas s,
  exists (m : lmesh pt unit) ls s' e,
  polylines (inr m) ls /\
  add_polyline areas 2 s (inr m) 1 PrefCell None 1 1 ResNone None "" = (s', Err e) /\ length (s_items s') = (length (s_items s) + 2)%nat.
Proof. exact @polyline_not_atomic. Qed.
Print Assumptions C116_several_refuted.
