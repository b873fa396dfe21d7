From Coq Require Import Reals Lra Permutation Sorted.
From Verif Require Import Prelude Groups_model Groups_spec Surface_model Lines_spec Lines_model Voronoi_model Voronoi_spec
  Voronoi1_proof Voronoi2_proof Voronoi3_proof Voronoi4_proof Voronoi5_proof Voronoi6_proof Regions_proof.
Open Scope nat_scope.

(* two wells over a background mesh of three unit intervals *)
Definition ex_items : list (vitem Z) :=
  [mkVI (imesh [1]%Z) false "a" 1; mkVI (imesh [1; 2]%Z) false "b" 1].
Example ex_well_formed : well_formed ibase ex_items.
Proof.
  split; [exact I|]. intros it [<-|[<-|[]]]; (split; [exact I|]); intros s; discriminate.
Qed.

(* a diagram whose regions are all the same triangle *)
Definition ex_vo : voptions :=
  mkVO 2 None 1%R "CCW" (fun v => mkD v [] [] (repeat 0%Z (length v)) [[0; 1; 2]%Z] [(0, 0); (1, 0); (0, 1)]%R)
       (fun l => seq 0 (length l)) (fun _ _ => 0%R) (fun _ => None) true (fun _ => true) (fun l => l).

(* the diagram of three points *)
Definition ex_diagram : diagram :=
  mkD [(0, 0); (1, 0); (0, 1)]%R [(0, 1); (0, 2); (1, 2)] [(-1, 0); (-1, 0); (-1, 0)]%Z
      [0; 1; 2]%Z [[-1; 0]; [-1; 0]; [-1; 0]]%Z [(/ 2, / 2)]%R.

(* C66: one cell per retained candidate; cells, groups and coordinates are in the order of the
   candidates (background first, then the items by priority and insertion) *)
Theorem C66_arrays_aligned :
  forall A (g : vgeo A) o b items vo m, well_formed b items ->
  (forall vpts, length (d_point_region (v_diagram vo vpts)) = length vpts) ->
  voronoi_mesh g o b items vo = Ok m ->
  exists S sel, candidates g b items S /\ StronglySorted lt sel /\
    length (vm_cells m) = length sel /\ length (vm_groups m) = length sel /\ length (vm_xyz m) = length sel /\
    (forall k i, nth_error sel k = Some i -> exists s name, nth_error S i = Some s /\ ~ covered g b items s /\
       nth_error (vm_xyz m) k = Some (flattened (v_axis vo) (s_pt s)) /\
       named (vm_labels m) (vm_groups m) k name /\ site_name o b items s name) /\
    ((forall vs, v_pairs vo vs = None) ->
     forall i s, nth_error S i = Some s -> ~ covered g b items s -> In i sel).
Proof. exact @voronoi_cells. Qed.
Print Assumptions C66_arrays_aligned.

Example C66_example : exists m, voronoi_mesh igeo iopt ibase ex_items ex_vo = Ok m /\
  vm_cells m = [[0; 1; 2]; [3; 4; 5]; [6; 7; 8]] /\ vm_groups m = [0; 2; 2]%Z /\
  vm_labels m = [("default", 0); ("a", 1); ("b", 2)]%Z%string /\
  vm_xyz m = map icenter [0; 1; 2]%Z.
Proof.
  assert (L : forall l, length (orient "CCW" l) = length l).
  { intro l. unfold orient. destruct (_ : bool); [apply rev_length|reflexivity]. }
  eexists. split.
  - unfold voronoi_mesh, ex_items. run. reflexivity.
  - cbn [vm_cells vm_groups vm_labels vm_xyz]. rewrite app_length, !L. repeat split.
Qed.

Theorem C66_accepted :
  forall A (g : vgeo A) o b items, well_formed b items ->
  (forall it, In it items -> gm_cells (vi_mesh it) <> [] \/ vi_poly it = true) ->
  exists r, scatter g o b items = Ok r.
Proof. exact @scatter_defined. Qed.
Print Assumptions C66_accepted.

(* C67 *)
Theorem C67_active_iff_not_covered :
  forall A (g : vgeo A) o b items, well_formed b items -> forall st t,
  scatter g o b items = Ok (st, t) ->
  exists S, candidates g b items S /\ vs_pts st = map s_pt S /\
    length (vs_active st) = length S /\ length (vs_groups st) = length S /\ length (vs_prio st) = length S /\
    numbered t /\
    forall k s, nth_error S k = Some s ->
      (nth_error (vs_active st) k = Some true <-> ~ covered g b items s) /\
      (nth_error (vs_active st) k = Some true ->
       exists name, named t (vs_groups st) k name /\ site_name o b items s name).
Proof. exact @scatter_spec. Qed.
Print Assumptions C67_active_iff_not_covered.

Example C67_example : exists st t,
  scatter igeo iopt ibase [mkVI (imesh [1]%Z) false "a" 2; mkVI (imesh [1; 2]%Z) false "b" (-2); mkVI (imesh [2]%Z) false "c" 1] = Ok (st, t) /\
  vs_pts st = map icenter [0; 1; 2; 2; 1; 1; 2]%Z /\ vs_active st = [true; false; false; false; true; true; true].
Proof. eexists _, _. split; [run; reflexivity|]. split; reflexivity. Qed.

(* C68: the candidates of items with a cell in the background mesh lie in it.  Missing: items without any (see C68_points_inside_refuted) *)
Theorem C68_points_inside_partial :
  forall A (g : vgeo A) o b items st t,
  well_formed b items ->
  scatter g o b items = Ok (st, t) ->
  (forall it, In it items -> exists c, In c (gm_cells (vi_mesh it)) /\ inside g (gm_cells (vb_mesh b)) (vg_center g c)) ->
  exists S, candidates g b items S /\ vs_pts st = map s_pt S /\
    forall s, In s S -> s_owner s <> Background -> inside g (gm_cells (vb_mesh b)) (s_pt s).
Proof. exact @active_inside. Qed.
Print Assumptions C68_points_inside_partial.

Example C68_example : exists st t,
  scatter igeo iopt ibase [mkVI (imesh [1; 7]%Z) false "a" 2] = Ok (st, t) /\ vs_pts st = map icenter [0; 1; 2; 1]%Z.
Proof. eexists _, _. split; [run; reflexivity|]. reflexivity. Qed.

(* C68: an item entirely out of the background mesh keeps its points, and they are active *)
Theorem C68_points_inside_refuted :
  exists st t, scatter igeo iopt ibase [mkVI (imesh [7]%Z) false "well" 0] = Ok (st, t) /\
    nth_error (vs_pts st) 3 = Some (icenter 7) /\ nth_error (vs_active st) 3 = Some true /\
    ~ inside igeo (gm_cells (vb_mesh ibase)) (icenter 7).
Proof. exact @outside_kept. Qed.
Print Assumptions C68_points_inside_refuted.

(* C69 *)
Theorem C69_regions_valid :
  forall d, proper_diagram d -> forall argsort atan2 infinity ptp, sorts argsort -> d_points d <> [] ->
  (forall p r, region_of d p r -> In (-1)%Z r -> open_ridges d p <> []) ->
  exists outs ext c radius,
    tessellation argsort atan2 d infinity ptp = Ok (outs, d_vertices d ++ ext) /\
    length outs = length (d_points d) /\ barycenter (d_points d) c /\
    ((infinity = Some radius /\ radius <> 0%R) \/ (infinity = None \/ infinity = Some 0%R) /\ radius = (1000 * ptp)%R) /\
    forall p r, region_of d p r -> exists out, nth_error outs p = Some out /\
      same_region d atan2 c radius (d_vertices d ++ ext) p r out /\
      Forall (fun v => 0 <= v < Z.of_nat (length (d_vertices d ++ ext)))%Z out.
Proof. exact tessellation_spec. Qed.
Print Assumptions C69_regions_valid.

Example C69_example : proper_diagram ex_diagram /\
  forall p r, region_of ex_diagram p r -> In (-1)%Z r -> open_ridges ex_diagram p <> [].
Proof.
  assert (V : vertex_ok ex_diagram 0%Z) by (unfold vertex_ok; cbn; lia).
  split.
  - unfold proper_diagram, ex_diagram. cbn [d_ridge_vertices d_ridge_points d_point_region d_points d_regions length].
    split; [reflexivity|]. split; [reflexivity|]. split; [|split; [|split]].
    + apply Forall_cons; [|apply Forall_cons; [|apply Forall_cons; [|apply Forall_nil]]];
        (split; [lia|]; split; [lia|]; split; [lia|]; cbn; intros [=]; lra).
    + apply Forall_cons; [|apply Forall_cons; [|apply Forall_cons; [|apply Forall_nil]]];
        (split; [now right|]; split; [now left|]; lia).
    + apply Forall_cons; [|apply Forall_cons; [|apply Forall_cons; [|apply Forall_nil]]];
        (apply Forall_cons; [now right|]; apply Forall_cons; [now left|]; apply Forall_nil).
    + apply Forall_cons; [lia|]. apply Forall_cons; [lia|]. apply Forall_cons; [lia|]. apply Forall_nil.
  - intros p r (k & Hp & _ & _) _. destruct p as [|[|[|p]]]; try (cbn; discriminate).
    cbn in Hp. destruct p; discriminate.
Qed.

(* C69: no tessellation when a point whose region is unbounded has no ridge *)
Theorem C69_missing_ridges :
  forall argsort atan2 d infinity ptp p r,
  region_of d p r -> In (-1)%Z r -> (forall p1 p2, In (p1, p2) (d_ridge_points d) -> p1 <> p /\ p2 <> p) ->
  (forall x, tessellation argsort atan2 d infinity ptp <> Ok x) /\
  ((forall q, q < p -> exists r', region_of d q r' /\ ~ In (-1)%Z r') -> tessellation argsort atan2 d infinity ptp = Err KeyError).
Proof. exact @tessellation_fails. Qed.
Print Assumptions C69_missing_ridges.

(* one point without ridge whose region is unbounded *)
Example C69_missing_example :
  region_of (mkD [(0, 0)%R] [] [] [0%Z] [[-1]%Z] []) 0 [-1]%Z.
Proof. exists 0%Z. split; [reflexivity|]. split; [lia|reflexivity]. Qed.

(* C70: cells whose first three points have an open shoelace sum of the sign of the area.  Missing: the others (see C70_orientation_refuted) *)
Theorem C70_orientation_partial :
  forall a b c l,
  (0 < (fst a * snd b - fst b * snd a + (fst b * snd c - fst c * snd b)) * twice_area (a :: b :: c :: l))%R ->
  (0 < twice_area (orient "CCW" (a :: b :: c :: l)) /\ twice_area (orient "CW" (a :: b :: c :: l)) < 0)%R.
Proof. exact @orient_first3. Qed.
Print Assumptions C70_orientation_partial.

Example C70_example :
  (0 < (0 * 0 - 1 * 0 + (1 * 1 - 1 * 0)) * twice_area [(0, 0); (1, 0); (1, 1); (0, 1)])%R.
Proof. cbn. lra. Qed.

Theorem C70_same_outline :
  forall ori l,
  same_outline l (orient ori l).
Proof. exact @orient_same. Qed.
Print Assumptions C70_same_outline.

(* C70: a counterclockwise triangle is turned clockwise *)
Theorem C70_orientation_refuted : exists l, (0 < twice_area l /\ twice_area (orient "CCW" l) < 0)%R.
Proof. eexists. exact orient_flips. Qed.
Print Assumptions C70_orientation_refuted.

(* C93: without negative priorities a higher priority discards, and nothing of lower priority does.  Missing: equal priorities do not keep the point, and negative priorities count by their absolute value *)
Theorem C93_higher_priority_partial :
  forall A (g : vgeo A) o b items st t,
  well_formed b items ->
  (forall it, In it items -> (0 <= vi_prio it)%Z) ->
  scatter g o b items = Ok (st, t) ->
  exists S, candidates g b items S /\ vs_pts st = map s_pt S /\
    forall k s j a, nth_error S k = Some s -> s_owner s = Item j -> nth_error items j = Some a ->
      ((exists i it, nth_error items i = Some it /\ (vi_prio a < vi_prio it)%Z /\ covers g (gm_cells (vb_mesh b)) it (s_pt s)) ->
       nth_error (vs_active st) k = Some false) /\
      (nth_error (vs_active st) k = Some false ->
       exists i it, nth_error items i = Some it /\ (vi_prio a <= vi_prio it)%Z /\ covers g (gm_cells (vb_mesh b)) it (s_pt s)).
Proof. exact @higher_priority_wins. Qed.
Print Assumptions C93_higher_priority_partial.

Example C93_example : exists st t,
  scatter igeo iopt ibase [mkVI (imesh [1]%Z) false "a" 3; mkVI (imesh [1]%Z) false "b" 2] = Ok (st, t) /\
  vs_pts st = map icenter [0; 1; 2; 1; 1]%Z /\ vs_active st = [true; false; true; false; true].
Proof. eexists _, _. split; [run; reflexivity|]. split; reflexivity. Qed.

(* C93: the point of the first item (index 3) is discarded by an item of the same priority *)
Theorem C93_strictly_refuted :
  exists st t, scatter igeo iopt ibase [mkVI (imesh [1]%Z) false "a" 1; mkVI (imesh [1; 2]%Z) false "b" 1] = Ok (st, t) /\
    vs_pts st = map icenter [0; 1; 2; 1; 1; 2]%Z /\ vs_active st = [true; false; false; false; true; true].
Proof. exact @equal_priority_discards. Qed.
Print Assumptions C93_strictly_refuted.

(* C93: the point of the item of priority 1 (index 3, added second) is discarded by the item of priority -5, whose point (index 4) stays *)
Theorem C93_higher_refuted :
  exists st t, scatter igeo iopt ibase [mkVI (imesh [1]%Z) false "a" (-5); mkVI (imesh [1]%Z) false "b" 1] = Ok (st, t) /\
    vs_pts st = map icenter [0; 1; 2; 1; 1]%Z /\ vs_groups st = [0; 0; 0; 0; 2]%Z /\ t = [("default", 0); ("b", 1); ("a", 2)]%Z%string /\
    vs_active st = [true; false; true; false; true].
Proof. exact @negative_priority. Qed.
Print Assumptions C93_higher_refuted.

(* C94: without boundary polygon nothing is returned; a call that would succeed is rejected *)
Theorem C94_no_boundary_rejected :
  forall A (g : vgeo A) o b items vo m,
  let vo' := mkVO (v_axis vo) (v_infinity vo) (v_ptp vo) (v_orientation vo) (v_diagram vo) (v_argsort vo)
               (v_atan2 vo) (v_pairs vo) false (v_valid vo) (v_clip vo) in
  voronoi_mesh g o b items vo' <> Ok m /\
  (voronoi_mesh g o b items vo = Ok m -> voronoi_mesh g o b items vo' = Err ValueError).
Proof. exact @voronoi_no_boundary. Qed.
Print Assumptions C94_no_boundary_rejected.

(* C94: cell k is the clipped region of its own point *)
Theorem C94_outlines :
  forall A (g : vgeo A) o b items vo m,
  well_formed b items ->
  (forall vpts, vpts <> [] -> proper_diagram (v_diagram vo vpts) /\ d_points (v_diagram vo vpts) = vpts /\
     forall p r, region_of (v_diagram vo vpts) p r -> In (-1)%Z r -> open_ridges (v_diagram vo vpts) p <> []) ->
  sorts (v_argsort vo) -> (forall vs, v_pairs vo vs = None) ->
  voronoi_mesh g o b items vo = Ok m -> vm_xyz m <> [] ->
  (forall vpts, length (d_point_region (v_diagram vo vpts)) = length vpts) ->
  let d := v_diagram vo (map (planar (v_axis vo)) (vm_xyz m)) in
  exists verts c radius, barycenter (d_points d) c /\ (exists ext, verts = d_vertices d ++ ext) /\
    ((v_infinity vo = Some radius /\ radius <> 0%R) \/ (v_infinity vo = None \/ v_infinity vo = Some 0%R) /\ radius = (1000 * v_ptp vo)%R) /\
    forall k cell r, nth_error (vm_cells m) k = Some cell -> region_of d k r ->
      exists out ps qs, same_region d (v_atan2 vo) c radius verts k r out /\
        Forall2 (fun v q => nth_error verts (Z.to_nat v) = Some q) out ps /\
        same_outline (v_clip vo ps) qs /\ picks (vm_points m) cell qs.
Proof. exact @voronoi_outlines. Qed.
Print Assumptions C94_outlines.

(* a sort of the indices by their keys *)
Definition ex_key (l : list R) (i : nat) : R := nth i l 0%R.
Fixpoint ex_insert (l : list R) (i : nat) (is : list nat) : list nat :=
  match is with
  | [] => [i]
  | j :: js => if Rle_dec (ex_key l i) (ex_key l j) then i :: is else j :: ex_insert l i js
  end.
Definition ex_argsort (l : list R) : list nat := fold_right (ex_insert l) [] (seq 0 (length l)).

Example ex_sorts : sorts ex_argsort.
Proof.
  assert (P : forall l i is, Permutation (ex_insert l i is) (i :: is)).
  { intros l i is. induction is as [|j js IH]; cbn; [reflexivity|]. destruct (Rle_dec _ _); [reflexivity|].
    etransitivity; [apply perm_skip; exact IH|apply perm_swap]. }
  assert (S : forall l i is, increasing (map (ex_key l) is) -> increasing (map (ex_key l) (ex_insert l i is))).
  { intros l i is. induction is as [|j js IH]; intros H; cbn.
    - constructor; [constructor|constructor].
    - destruct (Rle_dec (ex_key l i) (ex_key l j)) as [L|L].
      + cbn [map] in *. constructor; [exact H|]. apply StronglySorted_inv in H as [_ H]. constructor; [exact L|].
        eapply Forall_impl; [|exact H]. cbn. intros; lra.
      + cbn [map] in *. apply StronglySorted_inv in H as [H1 H2]. constructor; [apply IH; exact H1|].
        rewrite Forall_forall in *. intros x Hx. apply in_map_iff in Hx as (k & <- & Hk).
        eapply Permutation_in in Hk; [|apply P]. destruct Hk as [<-|Hk]; [lra|]. apply H2, in_map, Hk. }
  intros l. unfold ex_argsort. generalize (seq 0 (length l)) as is. induction is as [|i is IH]; cbn; [split; constructor|].
  destruct IH as [IH1 IH2]. split; [rewrite P; now constructor|]. apply S. exact IH2.
Qed.

Definition ex_vo2 : voptions :=
  mkVO 2 None 1%R "CCW" (fun v => mkD v [] [] (repeat 0%Z (length v)) [[0; 1; 2]%Z] [(0, 0); (1, 0); (0, 1)]%R)
       ex_argsort (fun _ _ => 0%R) (fun _ => None) true (fun _ => true) (fun l => l).

Example C94_example : well_formed ibase ex_items /\
  (forall vpts, vpts <> [] -> proper_diagram (v_diagram ex_vo2 vpts) /\ d_points (v_diagram ex_vo2 vpts) = vpts /\
     forall p r, region_of (v_diagram ex_vo2 vpts) p r -> In (-1)%Z r -> open_ridges (v_diagram ex_vo2 vpts) p <> []) /\
  sorts (v_argsort ex_vo2) /\ (forall vs, v_pairs ex_vo2 vs = None) /\
  (forall vpts, length (d_point_region (v_diagram ex_vo2 vpts)) = length vpts) /\
  exists m, voronoi_mesh igeo iopt ibase ex_items ex_vo2 = Ok m /\ vm_xyz m = map icenter [0; 1; 2]%Z.
Proof.
  assert (L : forall l, length (orient "CCW" l) = length l).
  { intro l. unfold orient. destruct (_ : bool); [apply rev_length|reflexivity]. }
  split; [exact ex_well_formed|]. split.
  { intros v Hv. split; [|split; [reflexivity|]].
    - split; [reflexivity|]. split; [cbn; apply repeat_length|]. cbn [v_diagram ex_vo2 d_ridge_points d_ridge_vertices d_regions d_point_region].
      split; [constructor|]. split; [constructor|]. split.
      + apply Forall_cons; [|apply Forall_nil].
        rewrite Forall_forall. intros x Hx. left. unfold vertex_ok. cbn in Hx |- *. lia.
      + rewrite Forall_forall. intros x Hx. apply repeat_spec in Hx. subst. cbn. lia.
    - intros p r (k & _ & _ & Hr) Hm. cbn in Hr. destruct (Z.to_nat k) as [|[|?]]; cbn in Hr; try discriminate.
      injection Hr as <-. cbn in Hm. lia. }
  split; [exact ex_sorts|]. split; [reflexivity|]. split; [intros; cbn; apply repeat_length|].
  eexists. split.
  - unfold voronoi_mesh, ex_items. run. reflexivity.
  - reflexivity.
Qed.
