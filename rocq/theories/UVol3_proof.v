(* Input mesh, ghosts and data of unstructured volumes (C14-C16), counterexamples. *)
From Verif Require Import Perc_spec Perc_proof Surface_spec Surface_proof Volume_model Volume_spec
  Ring_proof UVol_proof UVol2_proof.
Open Scope R_scope.

Lemma isclose_iff x y : isclose x y = true <-> Rabs (x - y) <= / 10^8 + / 10^5 * Rabs y.
Proof. unfold isclose. destruct (Rleb_spec (Rabs (x - y)) (/ 10^8 + / 10^5 * Rabs y)); split; auto; discriminate. Qed.

Lemma pt_close_iff p q : pt_close p q = true <-> near p q.
Proof.
  destruct p as [[x y] z], q as [[x' y'] z']; unfold pt_close, near.
  rewrite !andb_true_iff, !isclose_iff. tauto.
Qed.

Lemma all_close_iff (P : nat -> pt) np c :
  all_close (map P c) (map P (shift np c)) = true <->
  forall x, In x c -> near (P x) (P (x + np)%nat).
Proof.
  unfold all_close. induction c as [|y c IH]; cbn [map shift combine forallb In fst snd].
  - split; [tauto|reflexivity].
  - rewrite andb_true_iff, pt_close_iff. unfold shift in IH. rewrite IH. split.
    + intros [H1 H2] x [<-|Hx]; auto.
    + intros H; split; auto.
Qed.

Lemma extrude_cell_col invert np points tc ty s col c' :
  extrude_cell invert np points tc = Ok (ty, s, col, c') ->
  col = true <-> forall x, In x (snd tc) -> near (nth x points origin) (nth (x + np) points origin).
Proof.
  destruct tc as [ct cell]; unfold extrude_cell, extruded_celltype. cbn [snd].
  destruct (Nat.eqb_spec ct PIXEL) as [->|N1].
  { cbn -[all_close plain_stream shift app]. destruct cell as [|a [|b [|c [|d [|]]]]]; try discriminate.
    cbn -[all_close plain_stream shift app]. intros (_ & _ & <- & _)%quad_inj.
    change ([nth a points origin; nth b points origin; nth d points origin; nth c points origin])
      with (map (fun i => nth i points origin) [a; b; d; c]).
    rewrite (all_close_iff (fun i => nth i points origin)).
    split; intros H x Hx; apply H; simpl in *; tauto. }
  destruct (Nat.eqb_spec ct POLYGON) as [->|N2].
  { cbn [POLYHEDRON VOXEL Nat.eqb]. unfold bind at 1.
    destruct (polyhedron_faces invert np points cell) as [[c fs]|] eqn:Hp; unfold bind; [|discriminate].
    intros (_ & _ & <- & _)%quad_inj. apply (all_close_iff (fun i => nth i points origin)). }
  destruct (Nat.eqb_spec ct QUAD) as [->|N3].
  { cbn -[all_close plain_stream shift]. intros (_ & _ & <- & _)%quad_inj.
    apply (all_close_iff (fun i => nth i points origin)). }
  destruct (Nat.eqb_spec ct TRIANGLE) as [->|N4]; [|discriminate].
  cbn -[all_close plain_stream shift]. intros (_ & _ & <- & _)%quad_inj.
  apply (all_close_iff (fun i => nth i points origin)).
Qed.

(* the exact law of the ghost array *)
Lemma ghost_law {D} (sa sb : usurf D) r m invert v perc :
  generate_volume_unstructured sa sb r m invert = Ok v ->
  resolution_to_perc r m = Ok perc ->
  length (uv_ghost v) = ((length perc - 1) * length (us_cells sa))%nat /\
  forall l c base, (l < length perc - 1)%nat -> nth_error (us_cells sa) c = Some base ->
    (flat_at (uv_pts v) (length (us_pts sa)) 0 (snd base) ->
       nth_error (uv_ghost v) (l * length (us_cells sa) + c) = Some 32%nat) /\
    (~ flat_at (uv_pts v) (length (us_pts sa)) 0 (snd base) ->
       nth_error (uv_ghost v) (l * length (us_cells sa) + c) =
       match us_ghost sa with None => Some 0%nat | Some g => nth_error g c end).
Proof.
  intros H Hp; apply uvol_inv in H.
  destruct H as (_ & _ & perc' & ecs & Hp' & Hn & Hpts & HF & _ & _ & _ & _ & _ & _ & (gh & Hgl & Hgh & Hg) & _).
  assert (perc' = perc) as -> by congruence.
  set (n := (length perc - 1)%nat) in *. set (nc := length (us_cells sa)) in *.
  assert (length (map ec_col ecs) = nc) as Hce by (rewrite map_length; symmetry; apply (Forall2_len _ _ _ HF)).
  split; [rewrite Hg, mask_set_length, Hgl; lia|].
  intros l c base Hl Hc.
  assert (c < nc)%nat as Hcn by (apply nth_error_Some; unfold nc; congruence).
  destruct (Forall2_nth_error _ _ _ _ _ HF Hc) as (e & He & Hx).
  assert (nth_error (tile (map ec_col ecs) n) (l * nc + c) = Some (ec_col e)) as Hcol.
  { rewrite <- Hce. rewrite tile_nth_error by (rewrite ?Hce; auto).
    rewrite nth_error_map, He. reflexivity. }
  destruct e as [[[ty s] col] c']. apply extrude_cell_col in Hx.
  cbn [ec_col] in Hcol.
  assert (flat_at (uv_pts v) (length (us_pts sa)) 0 (snd base) <-> col = true) as Hiff.
  { rewrite Hx. unfold flat_at. split; intros HH x Hxx; specialize (HH x Hxx);
      rewrite Nat.mul_0_l, Nat.add_0_r, Nat.mul_1_l in *; exact HH. }
  assert (nth_error gh (l * nc + c) = match us_ghost sa with None => Some 0%nat | Some g => nth_error g c end) as Hgv.
  { rewrite Hgh in Hgl |- *. destruct (us_ghost sa) as [g|].
    - assert (length g = nc) as Eg. { rewrite tile_length in Hgl. unfold n in *. nia. }
      rewrite <- Eg. apply tile_nth_error; rewrite ?Eg; auto.
    - apply repeat_nth_error. nia. }
  rewrite Hg, mask_set_nth_error, Hcol by (rewrite tile_length, Hce; unfold n; lia). split.
  - intros Hf. apply Hiff in Hf as ->. reflexivity.
  - intros Hf. destruct col; [exfalso; apply Hf, Hiff; auto|]. exact Hgv.
Qed.

Lemma near_refl p : near p p.
Proof.
  assert (forall x, Rabs (x - x) <= / 10^8 + / 10^5 * Rabs x) as H.
  { intros x. rewrite Rminus_diag_eq, Rabs_R0 by auto. pose proof (Rabs_pos x). lra. }
  destruct p as [[x y] z]; repeat split; apply H.
Qed.

(* a cell that is exactly flat in some layer is flagged in every layer *)
Lemma flat_flagged {D} (sa sb : usurf D) r m invert v perc c base :
  generate_volume_unstructured sa sb r m invert = Ok v ->
  resolution_to_perc r m = Ok perc ->
  nth_error (us_cells sa) c = Some base ->
  (forall x, In x (snd base) -> (x < length (us_pts sa))%nat /\ at_pts (us_pts sa) x = at_pts (us_pts sb) x) ->
  forall l, (l < length perc - 1)%nat ->
    nth_error (uv_ghost v) (l * length (us_cells sa) + c) = Some 32%nat.
Proof.
  intros Hg Hp Hc Hflat l Hl.
  destruct (ghost_law _ _ _ _ _ _ _ Hg Hp) as [_ HG]. destruct (HG l c base Hl Hc) as [HG1 _].
  apply HG1. intros x Hx. destruct (Hflat x Hx) as [Hlt E].
  pose proof (uvol_inv _ _ _ _ _ _ Hg) as [Hll _].
  apply uvol_cells in Hg.
  destruct Hg as (perc' & cells & Hp' & Hn & _ & _ & _ & Hpts & _) .
  assert (perc' = perc) as -> by congruence.
  assert (forall p : nat, (p < length perc)%nat ->
     at_pts (uv_pts v) (x + p * length (us_pts sa)) = at_pts (us_pts sa) x) as HH.
  { intros p Hpl. destruct (nth_error perc p) as [t|] eqn:Et; [|apply nth_error_None in Et; lia].
    assert (nth_error (us_pts sa) x = Some (at_pts (us_pts sa) x)) as Ha by (apply nth_error_nth'; auto).
    destruct (nth_error (us_pts sb) x) as [q|] eqn:Eb.
    - assert (q = at_pts (us_pts sa) x) as -> by (rewrite E; symmetry; apply nth_error_nth; auto).
      rewrite Nat.add_comm. apply nth_error_nth. rewrite (Hpts p x t _ _ Et Ha Eb). f_equal.
      destruct (at_pts (us_pts sa) x) as [[x0 y0] z0]; unfold lerp, lerp1. f_equal; [f_equal|]; ring.
    - apply nth_error_None in Eb. exfalso. lia. }
  rewrite !HH by lia. apply near_refl.
Qed.

(* ------------------------------------------------------------------ *)
(* C14 *)
Lemma input_cells {D} (sa sb : usurf D) r m invert v :
  generate_volume_unstructured sa sb r m invert = Ok v ->
  length (uv_input_cells v) = length (us_cells sa) /\
  forall c ct ids, nth_error (us_cells sa) c = Some (ct, ids) ->
    exists ids', nth_error (uv_input_cells v) c = Some (ct, ids') /\
      ((ct <> 7%nat \/ invert = false) -> ids' = ids) /\
      (ids' = ids \/ ids' = rev ids).
Proof.
  intros H; apply uvol_inv in H.
  destruct H as (_ & _ & perc & ecs & Hp & Hn & Hpts & HF & _ & _ & _ & _ & _ & _ & _ & Hin).
  pose proof (Forall2_len _ _ _ HF) as Hl.
  split; [rewrite Hin, map2_length; lia|].
  intros c ct ids Hc. destruct (Forall2_nth_error _ _ _ _ _ HF Hc) as (e & He & Hx).
  rewrite Hin, map2_nth_error, Hc, He. destruct e as [[[ty s] col] c']. cbn [fst snd].
  exists c'. split; [reflexivity|].
  apply extrude_cell_spec in Hx. destruct Hx as (H1 & H2 & _). cbn [fst snd] in *.
  destruct (Nat.eq_dec ct 7) as [->|N].
  - pose proof (H2 eq_refl) as Hpf. apply polyhedron_faces_ring in Hpf as [[->|[-> ->]] _]; auto.
    split; [intros [[]|]; [reflexivity|discriminate]|auto].
  - rewrite H1 by auto. auto.
Qed.

(* ------------------------------------------------------------------ *)
(* C16 *)
Lemma uvol_data {D} (sa sb : usurf D) r m invert v perc k x :
  generate_volume_unstructured sa sb r m invert = Ok v ->
  resolution_to_perc r m = Ok perc ->
  (In (k, x) (us_pd sa) -> exists w, In (k, w) (uv_pd v) /\ length w = length (uv_pts v) /\
     forall l i, (l < length perc)%nat -> (i < length (us_pts sa))%nat ->
       nth_error w (l * length (us_pts sa) + i) = nth_error x i) /\
  (In (k, x) (us_cd sa) -> exists w, In (k, w) (uv_cd v) /\
     length w = ((length perc - 1) * length (us_cells sa))%nat /\
     forall l c, (l < length perc - 1)%nat -> (c < length (us_cells sa))%nat ->
       nth_error w (l * length (us_cells sa) + c) = nth_error x c).
Proof.
  intros H Hp; apply uvol_inv in H.
  destruct H as (Hlen & _ & perc' & ecs & Hp' & Hn & Hpts & HF & _ & _ & Epd & Ecd & Hpd & Hcd & _ & _).
  assert (perc' = perc) as -> by congruence. split; intros HIn.
  - exists (tile x (length perc)). rewrite Epd. split.
    { apply in_map_iff. exists (k, x); auto. }
    pose proof (Hpd _ _ HIn) as Hl. split; [auto|].
    rewrite tile_length, Hpts, layer_points_length in Hl by auto.
    assert (length x = length (us_pts sa)) as E by nia.
    intros l i Hl' Hi. rewrite <- E. apply tile_nth_error; lia.
  - exists (tile x (length perc - 1)). rewrite Ecd. split.
    { apply in_map_iff. exists (k, x); auto. }
    pose proof (Hcd _ _ HIn) as Hl. split; [lia|].
    rewrite tile_length in Hl. assert (length x = length (us_cells sa)) as E by nia.
    intros l i Hl' Hi. rewrite <- E. apply tile_nth_error; lia.
Qed.

(* ------------------------------------------------------------------ *)
(* concrete runs *)
Definition usurf1 (pts : list pt) (tc : nat * list nat) : usurf nat := mkUsurf pts [tc] [] [] None.

Lemma uvol_single pa pb tc r m invert perc e :
  length pa = length pb -> extruded_celltype (fst tc) <> None ->
  resolution_to_perc r m = Ok perc -> (2 <= length perc)%nat ->
  extrude_cell invert (length pa) (flat_map (fun t => map2 (lerp t) pa pb) perc) tc = Ok e ->
  exists v, generate_volume_unstructured (usurf1 pa tc) (usurf1 pb tc) r m invert = Ok v /\
    uv_pts v = flat_map (fun t => map2 (lerp t) pa pb) perc /\
    uv_input_cells v = [(fst tc, snd e)] /\
    uv_ghost v = mask_set 32%nat (tile [ec_col e] (length perc - 1)) (repeat 0%nat (length perc - 1)) /\
    uv_types v = tile [ec_type e] (length perc - 1) /\
    uv_stream v = flat_map (fun i => ec_stream e i) (seq 0 (length perc - 1)).
Proof.
  intros Hl Hct Hp Hn He. unfold generate_volume_unstructured, usurf1.
  cbn [us_pts us_cells us_pd us_cd us_ghost]. rewrite Hl, Nat.eqb_refl. cbn [negb forallb].
  destruct (extruded_celltype (fst tc)); [|congruence]. cbn [andb negb map types_close forallb].
  rewrite !Nat.eqb_refl. cbn [negb andb]. rewrite Hp. unfold bind at 1.
  destruct (Nat.eqb_spec (length perc - 1) 0); [lia|].
  cbn [mapM]. rewrite <- Hl, He. unfold bind; cbn [mapM].
  rewrite Nat.mul_1_l. eexists; split; [reflexivity|].
  cbn [uv_pts uv_input_cells uv_ghost uv_types uv_stream map map2].
  do 4 (split; [reflexivity|]). apply flat_map_ext. intros i; cbn [flat_map]. rewrite app_nil_r. reflexivity.
Qed.

Lemma perc_default : resolution_to_perc ResNone None = Ok [0; 1].
Proof.
  rewrite perc_none, (to_perc_closed 1 None Constant) by constructor.
  change (Z.to_nat (Z.max 1 1)) with 1%nat. cbn [seq map].
  rewrite pfun_0, pfun_n by lia. reflexivity.
Qed.

Lemma lerp_01 (a b : pt) : lerp 0 a b = a /\ lerp 1 a b = b.
Proof.
  destruct a as [[? ?] ?], b as [[? ?] ?]; unfold lerp, lerp1; split; (f_equal; [f_equal|]); ring.
Qed.

Lemma layers_01 pa pb : length pa = length pb ->
  flat_map (fun t => map2 (lerp t) pa pb) [0; 1] = pa ++ pb.
Proof.
  intros Hl. cbn [flat_map]. rewrite app_nil_r. f_equal.
  - revert pb Hl; induction pa as [|p pa IH]; intros [|q pb] H; simpl in *; try lia; auto.
    rewrite (proj1 (lerp_01 p q)), IH by lia; auto.
  - revert pb Hl; induction pa as [|p pa IH]; intros [|q pb] H; simpl in *; try lia; auto.
    rewrite (proj2 (lerp_01 p q)), IH by lia; auto.
Qed.

(* a counter-clockwise square extruded upwards: its connectivity is reversed in place *)
Definition sq_a : list pt := [(0,0,0); (1,0,0); (1,1,0); (0,1,0)].
Definition sq_b : list pt := [(0,0,1); (1,0,1); (1,1,1); (0,1,1)].

Lemma input_reversed :
  exists v, generate_volume_unstructured (usurf1 sq_a (7, [0; 1; 2; 3])%nat) (usurf1 sq_b (7, [0; 1; 2; 3])%nat)
              ResNone None true = Ok v /\
    uv_input_cells v = [(7, [3; 2; 1; 0])]%nat.
Proof.
  assert (exists e, extrude_cell true (length sq_a) (flat_map (fun t => map2 (lerp t) sq_a sq_b) [0; 1])
                (7, [0; 1; 2; 3])%nat = Ok e /\ snd e = [3; 2; 1; 0]%nat) as (e & He & E).
  { rewrite layers_01 by reflexivity. unfold extrude_cell, polyhedron_faces.
    cbn -[Rleb all_close poly_stream Rminus Rmult Rplus].
    match goal with |- context [Rleb 0 ?z] => destruct (Rleb_spec 0 z) as [H|H] end.
    - unfold bind. eexists; split; reflexivity.
    - exfalso; apply H. lra. }
  destruct (uvol_single sq_a sq_b (7, [0; 1; 2; 3])%nat ResNone None true [0; 1] e) as (v & Hv & _ & Hi & _).
  { reflexivity. } { discriminate. } { apply perc_default. } { simpl; lia. } { exact He. }
  exists v. split; [exact Hv|]. rewrite Hi, E. reflexivity.
Qed.

(* an L-shaped polygon given counter-clockwise, starting at the vertex before the
   concave one: its stored bottom face keeps pointing along the extrusion *)
Definition L_a : list pt := [(2,1,0); (1,1,0); (1,2,0); (0,2,0); (0,0,0); (2,0,0)].
Definition L_b : list pt := map (fun p => vadd p (0,0,1)) L_a.

Lemma concave_inward :
  exists v faces bottom sides,
    generate_volume_unstructured (usurf1 L_a (7, [0; 1; 2; 3; 4; 5])%nat)
      (usurf1 L_b (7, [0; 1; 2; 3; 4; 5])%nat) ResNone None true = Ok v /\
    decode (uv_types v) (uv_stream v) = Some [Poly faces] /\ faces = bottom :: sides /\
    0 < area_along (at_pts (uv_pts v)) (0, 0, 1) bottom.
Proof.
  assert (exists e, extrude_cell true (length L_a) (flat_map (fun t => map2 (lerp t) L_a L_b) [0; 1])
                (7, [0; 1; 2; 3; 4; 5])%nat = Ok e /\ snd e = [0; 1; 2; 3; 4; 5]%nat) as (e & He & E).
  { rewrite layers_01 by reflexivity. unfold extrude_cell, polyhedron_faces.
    cbn -[Rleb all_close poly_stream Rminus Rmult Rplus].
    match goal with |- context [Rleb 0 ?z] => destruct (Rleb_spec 0 z) as [H|H] end.
    - exfalso. apply (Rle_not_lt _ _ H). lra.
    - unfold bind. eexists; split; reflexivity. }
  destruct (uvol_single L_a L_b (7, [0; 1; 2; 3; 4; 5])%nat ResNone None true [0; 1] e)
    as (v & Hv & Hpts & Hi & _).
  { reflexivity. } { discriminate. } { apply perc_default. } { simpl; lia. } { exact He. }
  exists v. pose proof Hv as Hc. apply uvol_cells in Hc.
  destruct Hc as (perc & cells & Hp & Hn & Hdec & Hlen & _ & _ & Hcells).
  rewrite perc_default in Hp. apply Ok_inj in Hp; subst perc.
  destruct (Hcells 0%nat 0%nat (7, [0; 1; 2; 3; 4; 5])%nat ltac:(simpl; lia) eq_refl)
    as (cell & Hcell & _ & _ & ring & Hring & _ & H7).
  rewrite Hi, E in Hring. cbn [nth_error fst] in Hring. injection Hring as <-.
  destruct (H7 eq_refl) as [-> _].
  cbn [length usurf1 us_cells] in Hlen, Hcell. 
  destruct cells as [|c0 [|]]; try discriminate. cbn in Hcell. injection Hcell as ->.
  exists (prism true 6 0 [0; 1; 2; 3; 4; 5]%nat). do 2 eexists.
  split; [exact Hv|]. split; [exact Hdec|]. split; [reflexivity|].
  rewrite Hpts, layers_01 by reflexivity. unfold at_pts. cbn. lra.
Qed.

(* positions [0; 0; 1]: only the first layer is flat, but both are flagged *)
Definition tri_a : list pt := [(0,0,0); (1,0,0); (0,1,0)].
Definition tri_b : list pt := [(0,0,1); (1,0,1); (0,1,1)].

Lemma not_near_01 : ~ near (0, 0, 0) (0, 0, 1).
Proof.
  unfold near. intros (_ & _ & H). rewrite Rabs_R1 in H.
  replace (0 - 1) with (-(1)) in H by ring. rewrite Rabs_Ropp, Rabs_R1 in H. lra.
Qed.

Lemma tri_run (l : list R) : length l = 3%nat -> StronglySorted Rle l ->
  exists v, generate_volume_unstructured (usurf1 tri_a (5, [0; 1; 2])%nat) (usurf1 tri_b (5, [0; 1; 2])%nat)
              (ResArr l) None true = Ok v /\
    uv_pts v = flat_map (fun t => map2 (lerp t) tri_a tri_b) l.
Proof.
  intros Hl Hs.
  destruct (extrude_cell true (length tri_a) (flat_map (fun t => map2 (lerp t) tri_a tri_b) l)
                (5, [0; 1; 2])%nat) as [e|] eqn:He; [|discriminate].
  destruct (uvol_single tri_a tri_b (5, [0; 1; 2])%nat (ResArr l) None true l e) as (v & Hv & Hp & _).
  { reflexivity. } { discriminate. } { unfold resolution_to_perc. rewrite np_sort_id by auto; reflexivity. } { lia. } { exact He. }
  eauto.
Qed.

Lemma flag_spreads :
  exists v, generate_volume_unstructured (usurf1 tri_a (5, [0; 1; 2])%nat) (usurf1 tri_b (5, [0; 1; 2])%nat)
              (ResArr [0; 0; 1]) None true = Ok v /\
    ~ flat_at (uv_pts v) 3 1 [0; 1; 2]%nat /\ nth_error (uv_ghost v) 1 = Some 32%nat.
Proof.
  assert (StronglySorted Rle [0; 0; 1]) as Hs by (repeat constructor; lra).
  destruct (tri_run [0; 0; 1] eq_refl Hs) as (v & Hv & Hpts). exists v. split; [exact Hv|].
  assert (uv_pts v = tri_a ++ tri_a ++ tri_b) as Hp'.
  { rewrite Hpts. cbn [flat_map tri_a tri_b map2 app].
    rewrite !(fun a b => proj1 (lerp_01 a b)), !(fun a b => proj2 (lerp_01 a b)). reflexivity. }
  split.
  - intros H. specialize (H 0%nat (or_introl eq_refl)). rewrite Hp' in H. unfold at_pts in H. cbn -[near] in H.
    exact (not_near_01 H).
  - destruct (ghost_law _ _ _ _ _ _ [0; 0; 1] Hv) as [_ HG].
    { unfold resolution_to_perc. rewrite np_sort_id by auto; reflexivity. }
    destruct (HG 1%nat 0%nat (5, [0; 1; 2])%nat ltac:(simpl; lia) eq_refl) as [HG1 _].
    apply HG1. rewrite Hp'. intros x Hx. cbn [snd] in Hx.
    destruct Hx as [<-|[<-|[<-|[]]]]; apply near_refl.
Qed.

(* positions [0; 1; 1]: the second layer is flat but not flagged *)
Lemma flag_missed :
  exists v, generate_volume_unstructured (usurf1 tri_a (5, [0; 1; 2])%nat) (usurf1 tri_b (5, [0; 1; 2])%nat)
              (ResArr [0; 1; 1]) None true = Ok v /\
    flat_at (uv_pts v) 3 1 [0; 1; 2]%nat /\ nth_error (uv_ghost v) 1 = Some 0%nat.
Proof.
  assert (StronglySorted Rle [0; 1; 1]) as Hs by (repeat constructor; lra).
  destruct (tri_run [0; 1; 1] eq_refl Hs) as (v & Hv & Hpts). exists v. split; [exact Hv|].
  assert (uv_pts v = tri_a ++ tri_b ++ tri_b) as Hp'.
  { rewrite Hpts. cbn [flat_map tri_a tri_b map2 app].
    rewrite !(fun a b => proj1 (lerp_01 a b)), !(fun a b => proj2 (lerp_01 a b)). reflexivity. }
  split.
  - rewrite Hp'. intros x Hx. destruct Hx as [<-|[<-|[<-|[]]]]; apply near_refl.
  - destruct (ghost_law _ _ _ _ _ _ [0; 1; 1] Hv) as [_ HG].
    { unfold resolution_to_perc. rewrite np_sort_id by auto; reflexivity. }
    destruct (HG 1%nat 0%nat (5, [0; 1; 2])%nat ltac:(simpl; lia) eq_refl) as [_ HG1].
    apply HG1. intros H. specialize (H 0%nat (or_introl eq_refl)). rewrite Hp' in H.
    unfold at_pts in H. cbn -[near] in H. exact (not_near_01 H).
Qed.

(* ------------------------------------------------------------------ *)
(* statements used in Volume_props *)
Lemma uvol_layers {D} (sa sb : usurf D) r m invert v :
  generate_volume_unstructured sa sb r m invert = Ok v ->
  exists perc cells,
    resolution_to_perc r m = Ok perc /\ (2 <= length perc)%nat /\
    decode (uv_types v) (uv_stream v) = Some cells /\
    length cells = ((length perc - 1) * length (us_cells sa))%nat /\
    length (uv_pts v) = (length perc * length (us_pts sa))%nat /\
    (forall l i t p q, nth_error perc l = Some t -> nth_error (us_pts sa) i = Some p ->
       nth_error (us_pts sb) i = Some q ->
       nth_error (uv_pts v) (l * length (us_pts sa) + i) =
       Some (let '(x, y, z) := p in let '(x', y', z') := q in
             (x + t * (x' - x), y + t * (y' - y), z + t * (z' - z)))) /\
    (forall l c base, (l < length perc - 1)%nat -> nth_error (us_cells sa) c = Some base ->
       exists cell, nth_error cells (l * length (us_cells sa) + c) = Some cell /\
         extruded invert (length (us_pts sa)) l base cell /\
         ((forall x, In x (snd base) -> (x < length (us_pts sa))%nat) ->
          forall y, In y (vcell_ids cell) -> (y < length (uv_pts v))%nat)).
Proof.
  intros H. apply uvol_cells in H. destruct H as (perc & cells & H1 & H2 & H3 & H4 & H5 & H6 & H7).
  exists perc, cells. do 5 (split; [assumption|]). split.
  - intros l i t p q Ht Hp Hq. rewrite (H6 l i t p q Ht Hp Hq).
    destruct p as [[? ?] ?], q as [[? ?] ?]; reflexivity.
  - intros l c base Hl Hc. destruct (H7 l c base Hl Hc) as (cell & Ha & Hb & Hd & _); eauto.
Qed.

Lemma uvol_closed {D} (sa sb : usurf D) r m invert v c ids perc :
  generate_volume_unstructured sa sb r m invert = Ok v ->
  resolution_to_perc r m = Ok perc ->
  nth_error (us_cells sa) c = Some (7%nat, ids) ->
  NoDup ids -> (3 <= length ids)%nat -> (forall x, In x ids -> (x < length (us_pts sa))%nat) ->
  exists cells, decode (uv_types v) (uv_stream v) = Some cells /\
    forall l, (l < length perc - 1)%nat ->
      exists faces, nth_error cells (l * length (us_cells sa) + c) = Some (Poly faces) /\
        closed_surface faces /\ (invert = true -> closed_oriented faces).
Proof.
  intros H Hp Hc Hnd Hlen Hr. apply uvol_cells in H.
  destruct H as (perc' & cells & H1 & H2 & H3 & H4 & H5 & H6 & H7).
  assert (perc' = perc) as -> by congruence.
  exists cells; split; [auto|]. intros l Hl.
  destruct (H7 l c _ Hl Hc) as (cell & Ha & Hb & _).
  destruct (extruded_polygon_closed _ _ _ _ _ Hb Hnd Hlen Hr) as (faces & -> & Hcl & Hor).
  exists faces; auto.
Qed.

(* existence of runs for every polygonal surface with at least three vertices per cell *)
Lemma uvol_defined {D} (sa sb : usurf D) r m invert perc :
  length (us_pts sa) = length (us_pts sb) -> types_agree (map fst (us_cells sa)) (map fst (us_cells sb)) ->
  (forall ct ids, In (ct, ids) (us_cells sa) ->
     ct = 5%nat \/ ct = 9%nat \/ (ct = 7%nat /\ (3 <= length ids)%nat) \/ (ct = 8%nat /\ length ids = 4%nat)) ->
  resolution_to_perc r m = Ok perc -> (2 <= length perc)%nat ->
  (forall k x, In (k, x) (us_pd sa) -> length x = length (us_pts sa)) ->
  (forall k x, In (k, x) (us_cd sa) -> length x = length (us_cells sa)) ->
  (forall g, us_ghost sa = Some g -> length g = length (us_cells sa)) ->
  exists v, generate_volume_unstructured sa sb r m invert = Ok v.
Proof.
  intros Hl Hty Hct Hp Hn Hpd Hcd Hgh. unfold generate_volume_unstructured.
  rewrite <- Hl, Nat.eqb_refl. cbn [negb].
  assert (forallb (fun tc => match extruded_celltype (fst tc) with Some _ => true | None => false end)
            (us_cells sa) = true) as ->.
  { apply forallb_forall. intros [ct ids] Hin. cbn [fst]. 
    destruct (Hct _ _ Hin) as [->|[->|[[-> _]|[-> _]]]]; reflexivity. }
  cbn [negb].
  apply types_close_spec in Hty. rewrite Hty.
  cbn [negb]. rewrite Hp. unfold bind at 1.
  destruct (Nat.eqb_spec (length perc - 1) 0); [lia|].
  assert (forall {A B} (f : A -> res B) l, (forall x, In x l -> exists y, f x = Ok y) -> exists r, mapM f l = Ok r) as HM.
  { clear. intros A B f l; induction l as [|x l IH]; intros H; cbn [mapM]; [eauto|].
    destruct (H x (or_introl eq_refl)) as (y & ->). destruct IH as (r & ->); [intros; apply H; right; auto|].
    cbn; eauto. }
  match goal with |- context [mapM ?f (us_cells sa)] => destruct (HM _ _ f (us_cells sa)) as (ecs & ->) end.
  { intros [ct ids] Hin. unfold extrude_cell. destruct (Hct _ _ Hin) as [->|[->|[[-> H3]|[-> H3]]]];
      cbn -[all_close plain_stream poly_stream polyhedron_faces shift].
    - eauto.
    - eauto.
    - unfold polyhedron_faces. destruct invert; [|cbn -[all_close poly_stream shift]; eauto].
      destruct ids as [|i0 [|i1 [|i2 ids]]]; cbn [length] in H3; try lia.
      match goal with |- context [Rleb ?x ?y] => destruct (Rleb x y) end;
        cbn -[all_close poly_stream shift]; eauto.
    - destruct ids as [|? [|? [|? [|? [|]]]]]; try discriminate. cbn -[all_close plain_stream shift]. eauto. }
  unfold bind at 1.
  match goal with |- context [mapM ?f (us_pd sa)] => destruct (HM _ _ f (us_pd sa)) as (pd & ->) end.
  { intros [k x] Hin. unfold assign_data. cbn [fst snd].
    rewrite tile_length, layer_points_length, (Hpd _ _ Hin), Nat.eqb_refl by auto. eauto. }
  unfold bind at 1.
  match goal with |- context [mapM ?f (us_cd sa)] => destruct (HM _ _ f (us_cd sa)) as (cd & ->) end.
  { intros [k x] Hin. unfold assign_data. cbn [fst snd].
    rewrite tile_length, (Hcd _ _ Hin), Nat.mul_comm, Nat.eqb_refl by auto. eauto. }
  unfold bind at 1. destruct (us_ghost sa) as [g|].
  - rewrite tile_length, (Hgh g eq_refl), Nat.mul_comm, Nat.eqb_refl. cbn [bind]. eauto.
  - cbn [bind]; eauto.
Qed.

(* an instance of the hypotheses of convex_outward *)
Lemma square_convex : NoDup [0; 1; 2; 3]%nat /\ planar_ring (at_pts sq_a) [0; 1; 2; 3]%nat /\
  convex_ring (at_pts sq_a) (0, 0, 1) [0; 1; 2; 3]%nat /\
  sq_b = map (fun p => vadd p (0, 0, 1)) sq_a.
Proof.
  split; [repeat constructor; simpl; intuition lia|]. split.
  - intros p q r w Hp Hq Hr Hw. simpl in *.
    destruct Hp as [<-|[<-|[<-|[<-|[]]]]], Hq as [<-|[<-|[<-|[<-|[]]]]], Hr as [<-|[<-|[<-|[<-|[]]]]],
      Hw as [<-|[<-|[<-|[<-|[]]]]]; unfold at_pts; cbn; ring.
  - split.
    + exists 1. split; [auto|]. intros u v w Huv Hw N1 N2. cbn in Huv, Hw.
      destruct Huv as [E|[E|[E|[E|[]]]]]; apply pair_equal_spec in E as [<- <-];
        destruct Hw as [<-|[<-|[<-|[<-|[]]]]]; try congruence; unfold turn, at_pts; cbn; lra.
    + unfold sq_a, sq_b; cbn [map vadd]. repeat (f_equal; [repeat f_equal; ring|]). 
      repeat f_equal; ring.
Qed.
