From Coq Require Import Reals Lra Permutation Sorted.
From Verif Require Import Prelude Groups_model Groups_spec Surface_model Lines_spec Lines_model Polygon_model Voronoi_model Voronoi_spec
  Voronoi1_proof Voronoi2_proof Voronoi3_proof Voronoi4_proof Voronoi5_proof Voronoi6_proof Unstr_spec
  VFinal_model VFinal_spec VFinal_proof VFinal2_proof.
Open Scope nat_scope.

(* three triangles apart from each other; two circles, around the first two and around the last two *)
Definition rx_tri (i : nat) : list pt2 := let x := IZR (2 * Z.of_nat i) in [(x, 0); (x + 1, 0); (x, 1)]%R.
Definition rx_vo : voptions :=
  mkVO 2 None 1%R "CCW"
    (fun v => mkD v [] [] (map Z.of_nat (seq 0 (length v))) (map (fun i => map Z.of_nat (seq (3 * i) 3)) (seq 0 (length v)))
                (flat_map rx_tri (seq 0 (length v))))
    (fun l => seq 0 (length l)) (fun _ _ => 0%R) (fun _ => None) true (fun _ => true) (fun l => l).
Definition rx_low (p : pt) : bool := let '(x, y, z) := p in if Rlt_dec x 3 then true else false.
Definition rx_high (p : pt) : bool := let '(x, y, z) := p in if Rlt_dec 1 x then true else false.
Definition rx_tools : vtools :=
  mkVT (fun ps => hd (0, 0, 0)%R ps) (fun _ _ => 2)
       (fun f ids => [flat_map (fun i => cell_points f (nth i (f_cells f) (0, []))) ids]) (fun x => x) (fun x => x).
Definition rx_mesh : vmesh :=
  mkVM (rx_tri 0 ++ rx_tri 1 ++ rx_tri 2) [[0; 1; 2]; [3; 4; 5]; [6; 7; 8]] [0; 0; 0]%Z [("default", 0)]%Z%string (map icenter [0; 1; 2]%Z).

Lemma rx_orient x : (0 <= x)%R -> orient "CCW" [(x, 0); (x + 1, 0); (x, 1)]%R = [(x, 0); (x + 1, 0); (x, 1)]%R.
Proof.
  intros H. unfold orient, signed_area. cbn [String.eqb Ascii.eqb Bool.eqb andb orb firstn open_shoelace fst snd].
  destruct (Rlt_dec _ 0); [lra|]. reflexivity.
Qed.
Lemma rx_voronoi : voronoi_mesh igeo iopt ibase [] rx_vo = Ok rx_mesh.
Proof.
  unfold voronoi_mesh, scatter, start, iopt. cbn -[icenter ifind orient IZR]. lazy -[icenter orient IZR Rplus Rmult insert_axis drop_axis mean2 far_radius rx_mesh].
  rewrite !rx_orient by lra. reflexivity.
Qed.

Lemma rx_polygon i ps : polygon_at rx_mesh i ps <-> i < 3 /\ ps = rx_tri i.
Proof.
  unfold polygon_at. cbn [rx_mesh vm_cells vm_points]. split.
  - intros (cell & Hc & Hp).
    destruct i as [|[|[|[|]]]]; try discriminate; injection Hc as <-; (split; [auto|]);
      refine (Lines1_proof.picks_fun _ _ _ _ Hp _); repeat constructor.
  - intros [Hi ->]. destruct i as [|[|[|]]]; [| | |exfalso; Lia.lia]; eexists; (split; [reflexivity|]); repeat constructor.
Qed.
Lemma rx_enclosed circle i :
  enclosed rx_tools 2 rx_mesh circle i <-> i < 3 /\ circle (IZR (2 * Z.of_nat i), 0, 0)%R = true.
Proof.
  unfold enclosed. split.
  - intros (ps & Hp & H). apply rx_polygon in Hp as [Hi ->]. auto.
  - intros [Hi H]. exists (rx_tri i). split; [now apply rx_polygon|exact H].
Qed.
Lemma rx_enclosed_low i : enclosed rx_tools 2 rx_mesh rx_low i <-> i = 0 \/ i = 1.
Proof.
  rewrite rx_enclosed. unfold rx_low. split.
  - intros [Hi H]. destruct i as [|[|[|]]]; auto; [|Lia.lia]. cbn in H. destruct (Rlt_dec 4 3); [lra|discriminate].
  - intros [-> | ->]; (split; [Lia.lia|]); cbn; destruct (Rlt_dec _ _); auto; lra.
Qed.
Lemma rx_enclosed_high i : enclosed rx_tools 2 rx_mesh rx_high i <-> i = 1 \/ i = 2.
Proof.
  rewrite rx_enclosed. unfold rx_high. split.
  - intros [Hi H]. destruct i as [|[|[|]]]; auto; [|Lia.lia]. cbn in H. destruct (Rlt_dec 1 0); [lra|discriminate].
  - intros [-> | ->]; (split; [Lia.lia|]); cbn; destruct (Rlt_dec _ _); auto; lra.
Qed.
Lemma rx_cells f : mesh_of 2 rx_mesh f ->
  map (cell_points f) (f_cells f) = map (fun i => map (lifted 2) (rx_tri i)) [0; 1; 2] /\
  f_pts f = flat_map (fun i => map (lifted 2) (rx_tri i)) [0; 1; 2].
Proof.
  intros (Fp & Fc & _). split; [|exact Fp]. cbn [rx_mesh vm_cells] in Fc.
  destruct (f_cells f) as [|[t0 c0] [|[t1 c1] [|[t2 c2] [|]]]]; try discriminate.
  cbn in Fc. injection Fc as -> -> ->. unfold cell_points. rewrite Fp. reflexivity.
Qed.
Lemma rx_boundary f ids : mesh_of 2 rx_mesh f -> (forall i, In i ids -> i < 3) ->
  k_boundary rx_tools f ids = [flat_map (fun i => map (lifted 2) (rx_tri i)) ids].
Proof.
  intros Hf Hi. cbn [rx_tools k_boundary]. f_equal. destruct (rx_cells f Hf) as [E _].
  induction ids as [|i ids IH]; [reflexivity|]. cbn [flat_map]. f_equal; [|apply IH; intros; apply Hi; now right].
  specialize (Hi i (or_introl eq_refl)).
  rewrite <- (map_nth (cell_points f)), E. destruct i as [|[|[|]]]; [reflexivity..|Lia.lia].
Qed.
Lemma rx_listing circle ids : listing (enclosed rx_tools 2 rx_mesh circle) ids -> NoDup ids /\ forall i, In i ids -> i < 3.
Proof.
  intros [S H]. split.
  - clear H. induction S as [|x l _ IH Hx]; constructor; auto. intros Hi. rewrite Forall_forall in Hx. specialize (Hx _ Hi). Lia.lia.
  - intros i Hi. apply H, rx_enclosed in Hi. tauto.
Qed.
Lemma rx_tri_In i p : In p (map (lifted 2) (rx_tri i)) <->
  (let x := IZR (2 * Z.of_nat i) in p = (x, 0, 0) \/ p = (x + 1, 0, 0) \/ p = (x, 1, 0))%R.
Proof. cbn. intuition congruence. Qed.
Lemma rx_NoDup ids : NoDup ids -> NoDup (flat_map (fun i => map (lifted 2) (rx_tri i)) ids).
Proof.
  induction 1 as [|i ids Hi _ IH]; [constructor|]. cbn [flat_map]. apply Lines5_proof.NoDup_app; [|exact IH|].
  - cbn. repeat constructor; cbn; intros H; repeat (destruct H as [H|H]); try contradiction; injection H; intros; lra.
  - intros p Hp Hq. apply in_flat_map in Hq as (j & Hj & Hq). apply rx_tri_In in Hp, Hq. cbv zeta in *.
    assert (i <> j) by congruence. clear Hi IH.
    assert (IZR (2 * Z.of_nat i) = IZR (2 * Z.of_nat j) \/ IZR (2 * Z.of_nat i) = IZR (2 * Z.of_nat j + 1)
         \/ IZR (2 * Z.of_nat i + 1) = IZR (2 * Z.of_nat j) \/ IZR (2 * Z.of_nat i + 1) = IZR (2 * Z.of_nat j + 1)) as Q.
    { rewrite !plus_IZR. destruct Hp as [->|[->| ->]]; destruct Hq as [Hq|[Hq|Hq]]; injection Hq; intros; try lra; auto. }
    destruct Q as [Q|[Q|[Q|Q]]]; apply eq_IZR in Q; Lia.lia.
Qed.
Lemma rx_simple circles : simple_boundary rx_tools 2 rx_mesh circles.
Proof.
  intros f c ids poly Hf _ Hl Hb. apply rx_listing in Hl as [Hn Hr]. rewrite (rx_boundary f ids Hf Hr) in Hb.
  injection Hb as <-. now apply rx_NoDup.
Qed.
Lemma rx_joined circle : joined rx_tools 2 rx_mesh circle.
Proof.
  intros f ids Hf Hl. apply rx_listing in Hl as [_ Hr]. split; [reflexivity|].
  exists (flat_map (fun i => map (lifted 2) (rx_tri i)) ids). split; [now apply rx_boundary|].
  intros q Hq. rewrite (proj2 (rx_cells f Hf)). apply in_flat_map in Hq as (i & Hi & Hq). apply in_flat_map. exists i.
  split; [|exact Hq]. specialize (Hr i Hi). destruct i as [|[|[|]]]; cbn; auto. Lia.lia.
Qed.
Lemma rx_diagram vpts : length (d_point_region (v_diagram rx_vo vpts)) = length vpts.
Proof. cbn. now rewrite map_length, seq_length. Qed.
Lemma rx_tidies : tidies 0 (fun x => x).
Proof.
  intros pts cells. exists (fun i => i). split.
  - cbn. induction cells as [|[a l] cells IH]; [reflexivity|]. cbn. rewrite map_id, <- IH. reflexivity.
  - intros c i p _ _ Hp. exists p. split; [exact Hp|]. destruct p as [[x y] z]. cbn. rewrite !Rminus_eq_0, Rabs_R0. lra.
Qed.

Lemma ex_base_formed : well_formed ibase [].
Proof. split; [|intros ? []]. reflexivity. Qed.

(* [C147] the mesh returned by VoronoiMesh2D has one cell per retained candidate point *)
Theorem C147_returned_cells :
  forall A (g : vgeo A) o b items fuse vo t tol0 tol r,
  well_formed b items -> (forall vpts, length (d_point_region (v_diagram vo vpts)) = length vpts) ->
  tidies tol0 (k_tidy t) -> tidies tol (k_clean t) ->
  generate_voronoi g o b items fuse vo t = Ok r ->
  exists S sel, candidates g b items S /\ StronglySorted lt sel /\
    length (vr_cells r) = length sel /\ length (vr_groups r) = length sel /\ length (vr_xyz r) = length sel /\
    (forall k i, nth_error sel k = Some i -> exists s name, nth_error S i = Some s /\ ~ covered g b items s /\
       nth_error (vr_xyz r) k = Some (flattened (v_axis vo) (s_pt s)) /\
       named (vr_labels r) (vr_groups r) k name /\ site_name o b items s name) /\
    Groups_spec.numbered (vr_labels r) /\
    (forall name, In name (map fst (vr_labels r)) <-> exists k, named (vr_labels r) (vr_groups r) k name) /\
    (fuse = [] -> (forall vs, v_pairs vo vs = None) ->
     forall i s, nth_error S i = Some s -> ~ covered g b items s -> In i sel).
Proof. intros. eapply returned_cells; eauto. Qed.
Print Assumptions C147_returned_cells.

Lemma rx_defined circles : (forall c, In c circles -> exists i, enclosed rx_tools 2 rx_mesh c i) ->
  exists r, generate_voronoi igeo iopt ibase [] circles rx_vo rx_tools = Ok r.
Proof.
  intros H. apply (circles_defined igeo iopt ibase [] circles rx_vo rx_tools rx_mesh ex_base_formed rx_diagram rx_voronoi (rx_simple circles)).
  split; [discriminate|]. intros c Hc. split; [auto|apply rx_joined].
Qed.
Lemma rx_kept circles r : generate_voronoi igeo iopt ibase [] circles rx_vo rx_tools = Ok r ->
  exists kept, remaining (0 + 0) rx_tools 2 circles rx_mesh r kept.
Proof.
  intros H. exact (circles_kept igeo iopt ibase [] circles rx_vo rx_tools 0 0 rx_mesh r
    ex_base_formed rx_diagram (Rle_refl 0) rx_tidies rx_tidies rx_voronoi H).
Qed.
Example C147_example : well_formed ibase [] /\ tidies 0 (k_tidy rx_tools) /\ tidies 0 (k_clean rx_tools) /\
  exists r, generate_voronoi igeo iopt ibase [] [] rx_vo rx_tools = Ok r /\ length (vr_cells r) = 3.
Proof.
  split; [exact ex_base_formed|]. do 2 (split; [exact rx_tidies|]). destruct (rx_defined []) as (r & Hr); [intros ? []|].
  exists r. split; [exact Hr|].
  destruct (rx_kept _ _ Hr)
    as (kept & Sk & Hk & L & _). rewrite L. rewrite (sorted_same kept [0; 1; 2]); [reflexivity|exact Sk|repeat constructor|].
  intros i. rewrite Hk. cbn. split.
  - intros [Hi _]. Lia.lia.
  - intros Hi. split; [Lia.lia|intros ? []].
Qed.

(* [C148] every circle becomes a cell of the mesh returned *)
Theorem C148_remaining_cells :
  forall A (g : vgeo A) o b items circles vo t tol0 tol m r,
  well_formed b items -> (forall vpts, length (d_point_region (v_diagram vo vpts)) = length vpts) ->
  (0 <= tol0)%R -> tidies tol0 (k_tidy t) -> tidies tol (k_clean t) ->
  voronoi_mesh g o b items vo = Ok m ->
  generate_voronoi g o b items circles vo t = Ok r ->
  exists kept, remaining (tol0 + tol) t (v_axis vo) circles m r kept.
Proof. intros. eapply circles_kept; eauto. Qed.
Print Assumptions C148_remaining_cells.

(* missing: circles sharing a cell (see C148_circle_lost_refuted) *)
Theorem C148_circles_partial :
  forall A (g : vgeo A) o b items circles vo t tol0 tol m r,
  well_formed b items -> (forall vpts, length (d_point_region (v_diagram vo vpts)) = length vpts) ->
  (0 <= tol0)%R -> tidies tol0 (k_tidy t) -> tidies tol (k_clean t) ->
  voronoi_mesh g o b items vo = Ok m ->
  apart t (v_axis vo) m circles -> simple_boundary t (v_axis vo) m circles ->
  generate_voronoi g o b items circles vo t = Ok r ->
  fused_circles (tol0 + tol) t (v_axis vo) circles m r.
Proof. intros. eapply circles_fused; eauto. Qed.
Print Assumptions C148_circles_partial.

Theorem C148_defined :
  forall A (g : vgeo A) o b items circles vo t m,
  well_formed b items -> (forall vpts, length (d_point_region (v_diagram vo vpts)) = length vpts) ->
  voronoi_mesh g o b items vo = Ok m -> simple_boundary t (v_axis vo) m circles ->
  ((exists r, generate_voronoi g o b items circles vo t = Ok r) <->
   vm_points m <> [] /\
   forall circle, In circle circles -> (exists i, enclosed t (v_axis vo) m circle i) /\ joined t (v_axis vo) m circle).
Proof. intros. now apply circles_defined. Qed.
Print Assumptions C148_defined.

Example C148_example : well_formed ibase [] /\ voronoi_mesh igeo iopt ibase [] rx_vo = Ok rx_mesh /\
  apart rx_tools 2 rx_mesh [rx_low] /\ simple_boundary rx_tools 2 rx_mesh [rx_low] /\
  exists r, generate_voronoi igeo iopt ibase [] [rx_low] rx_vo rx_tools = Ok r /\ length (vr_cells r) = 2.
Proof.
  split; [exact ex_base_formed|]. split; [exact rx_voronoi|].
  assert (He : forall c, In c [rx_low] -> exists i, enclosed rx_tools 2 rx_mesh c i).
  { intros c [<-|[]]. exists 0. apply rx_enclosed_low. now left. }
  split; [split; [exact He|]|].
  { intros [|[|j]] [|[|j']] c c' i H H'; cbn in *; congruence || (destruct j; discriminate) || (destruct j'; discriminate). }
  split; [apply rx_simple|]. destruct (rx_defined [rx_low] He) as (r & Hr). exists r. split; [exact Hr|].
  destruct (rx_kept _ _ Hr)
    as (kept & Sk & Hk & L & _). rewrite L. rewrite (sorted_same kept [0; 2]); [reflexivity|exact Sk|repeat constructor|].
  intros i. rewrite Hk. cbn [rx_mesh vm_cells length In]. split.
  - intros [Hi H]. destruct i as [|[|[|]]]; auto; [|Lia.lia]. exfalso.
    destruct (H rx_low (or_introl eq_refl)) as [_ Hm]; [apply rx_enclosed_low; auto|].
    specialize (Hm 0 (proj2 (rx_enclosed_low 0) (or_introl eq_refl))). Lia.lia.
  - intros Hi. split; [Lia.lia|]. intros c [<-|[]] Hc. split; [exact Hc|]. intros j Hj. apply rx_enclosed_low in Hc, Hj. Lia.lia.
Qed.

(* cells 0 and 1 in the first circle, 1 and 2 in the second: only cell 0 is left and the second
   circle has no cell *)
Theorem C148_circle_lost_refuted :
  exists A (g : vgeo A) o b items circles vo t m r,
    well_formed b items /\ (forall vpts, length (d_point_region (v_diagram vo vpts)) = length vpts) /\
    tidies 0 (k_tidy t) /\ tidies 0 (k_clean t) /\
    voronoi_mesh g o b items vo = Ok m /\ simple_boundary t (v_axis vo) m circles /\
    generate_voronoi g o b items circles vo t = Ok r /\
    (exists p, In p (vm_xyz m) /\ length (vr_xyz r) = 1 /\ ~ In p (vr_xyz r)) /\
    forall tol, ~ fused_circles tol t (v_axis vo) circles m r.
Proof.
  set (cs := [rx_low; rx_high]).
  assert (He : forall c, In c cs -> exists i, enclosed rx_tools 2 rx_mesh c i).
  { intros c [<-|[<-|[]]]; [exists 0; apply rx_enclosed_low; now left|exists 1; apply rx_enclosed_high; now left]. }
  destruct (rx_defined cs He) as (r & Hr).
  exists _, igeo, iopt, ibase, [], cs, rx_vo, rx_tools, rx_mesh, r.
  split; [exact ex_base_formed|]. split; [exact rx_diagram|]. do 2 (split; [exact rx_tidies|]).
  split; [exact rx_voronoi|]. split; [apply rx_simple|]. split; [exact Hr|].
  assert (Hkept : forall tol kept, remaining tol rx_tools 2 cs rx_mesh r kept -> kept = [0]).
  { intros tol kept (Sk & Hk & _). apply sorted_same; [exact Sk|repeat constructor|].
    intros i. rewrite Hk. cbn [rx_mesh vm_cells length In]. split.
    - intros [Hi H]. destruct i as [|[|[|]]]; auto; [| |Lia.lia]; exfalso.
      + destruct (H rx_low (or_introl eq_refl)) as [_ Hm]; [apply rx_enclosed_low; auto|].
        specialize (Hm 0 (proj2 (rx_enclosed_low 0) (or_introl eq_refl))). Lia.lia.
      + destruct (H rx_high (or_intror (or_introl eq_refl))) as [_ Hm]; [apply rx_enclosed_high; auto|].
        specialize (Hm 1 (proj2 (rx_enclosed_high 1) (or_introl eq_refl))). Lia.lia.
    - intros [<-|[]]. split; [Lia.lia|]. intros c [<-|[<-|[]]] Hc; (split; [exact Hc|]); intros j Hj.
      + Lia.lia.
      + apply rx_enclosed_high in Hc. Lia.lia. }
  assert (Hlost : forall tol kept, remaining tol rx_tools 2 cs rx_mesh r kept ->
    ~ exists k i, nth_error kept k = Some i /\ first_of (enclosed rx_tools 2 rx_mesh rx_high) i).
  { intros tol kept Hk (k & i & Hi & [Hf _]). rewrite (Hkept _ _ Hk) in Hi. apply rx_enclosed_high in Hf.
    destruct k as [|k]; [injection Hi as <-; Lia.lia|destruct k; discriminate]. }
  split.
  - destruct (rx_kept _ _ Hr)
      as (kept & Hk). pose proof Hk as (_ & _ & _ & Px & _). rewrite (Hkept _ _ Hk) in Px.
    inversion Px as [|? x ? l Hx Hl]; subst. inversion Hl; subst. exists (icenter 1). split; [cbn; auto|]. split; [reflexivity|].
    cbn in Hx. injection Hx as <-. intros [Hi|[]]. unfold icenter in Hi. injection Hi. intros. lra.
  - intros tol (kept & Hk & H). apply (Hlost tol kept Hk). destruct (H rx_high) as (k & i & _ & _ & _ & _ & ? & ? & _); [cbn; auto|]. eauto.
Qed.
Print Assumptions C148_circle_lost_refuted.
