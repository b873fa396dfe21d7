From Verif Require Import RealAux Perc_model Surface_model Surface_spec Volume_model Volume_spec Groups_model Groups_spec
  Stack_model Stack_spec Final_model Final_spec Line_spec Line3_proof Stack6_proof Anticline_model Anticline_spec Anticline_proof.
From Coq Require Import Lra.
Open Scope R_scope.

Lemma load_ok {D} (num : Z -> D) int (Hint : forall z, int (num z) = z) areas
  (Har : forall dims pts, length (areas dims pts) = n_cells dims) interpolate arrays :
  (forall k v, In (k, v) arrays -> length v = 42%nat) ->
  exists g labels js, load_anticline_2d num int areas interpolate arrays = Ok (g, labels) /\
    stack2d_mesh num int areas (mk_options "" []) 2 true (layer_items arrays (linspace (-314 / 100) (314 / 100) 42)) = Ok (g, labels, js).
Proof.
  intros Harr.
  destruct (line_mesh_defined num int Hint areas Har 2 (le_n 2) 41 (mk_options "" []) true
              (layer_items arrays (linspace (-314 / 100) (314 / 100) 42))) as (g & labels & js & H).
  { cbn; lia. }
  { apply items_wf; auto using station_len. }
  { apply items_span. }
  exists g, labels, js. split; [|exact H].
  unfold load_anticline_2d. destruct (stack_items num interpolate arrays (linspace (-314 / 100) (314 / 100) 42)) as (st & Est & Ei).
  change (anticline_line arrays) with (lay arrays (linspace (-314 / 100) (314 / 100) 42) (fun _ => 0)).
  rewrite Est. cbn [bind]. rewrite Ei, H. reflexivity.
Qed.

(* C158: the anticline has 41 columns of 14 cells; its nodes are at equal distances between the horizons, and its
   layers have their names *)
Theorem C158_anticline :
  forall (D : Type) (num : Z -> D) (int : D -> Z) (Hint : forall z, int (num z) = z)
    (areas : shape3 -> list pt -> list R) (Har : forall dims pts, length (areas dims pts) = n_cells dims)
    interpolate arrays,
  (forall k v, In (k, v) arrays -> length v = 42%nat) ->
  exists g labels, load_anticline_2d num int areas interpolate arrays = Ok (g, labels) /\
    sg_dims g = (42, 1, 15)%nat /\ length (sg_pts g) = (42 * 15)%nat /\
    (forall i j n k, (i < 42)%nat -> nth_error sublayers j = Some n -> (k <= n)%nat ->
       at_coord (sg_dims g) (sg_pts g) (i, 0, list_sum (firstn j sublayers) + k)%nat =
       Some (station i, 0, horizon (station i) j + INR k / INR n * (horizon (station i) (S j) - horizon (station i) j))) /\
    exists cg names, In ("CellGroup"%string, cg) (sg_cd g) /\
      get_cell_group (Some (map int cg)) (Some labels) = Ok (Some (inl names)) /\ length names = (41 * 14)%nat /\
      (forall k, In k (map fst labels) <-> In k layer_names) /\
      forall i l j, (i < 41)%nat -> layer_in sublayers l j -> (l < 14)%nat ->
        at_coord (41, 1, 14)%nat names (i, 0, l)%nat = nth_error layer_names j.
Proof.
  intros D num int Hint areas Har interpolate arrays Harr.
  destruct (load_ok num int Hint areas Har interpolate arrays Harr) as (g & labels & js & E & H).
  exists g, labels. split; [exact E|].
  destruct (anticline_nodes num int Hint areas Har arrays Harr _ station_len g labels js H) as (Hd & Hl & HN).
  destruct (anticline_names num int Hint areas Har arrays Harr _ station_len g labels js H) as (cg & names & H1 & H2 & H3 & H4 & H5).
  split; [exact Hd|]. split; [exact Hl|]. split.
  { intros i j n k Hi Hn Hk. rewrite Hd. exact (HN i (station i) j n k (station_nth i Hi) Hn Hk). }
  exists cg, names. split; [exact H1|]. split; [exact H2|]. split; [exact H3|]. split; [|exact H5].
  intros k. rewrite H4. split; intros Hk.
  - apply In_nth_error in Hk as [q Hq].
    assert (Hq' : (q < 41 * 14)%nat) by (rewrite <- H3; apply nth_error_Some; congruence).
    assert (HJ : forall l, (l < 14)%nat -> exists j, layer_in sublayers l j).
    { intros l Hl'. unfold layer_in.
      destruct (le_lt_dec 10 l); [exists 4%nat; cbn; lia|]. destruct (le_lt_dec 8 l); [exists 3%nat; cbn; lia|].
      destruct (le_lt_dec 6 l); [exists 2%nat; cbn; lia|]. destruct (le_lt_dec 4 l); [exists 1%nat; cbn; lia|].
      exists 0%nat; cbn; lia. }
    destruct (HJ (q / 41)%nat ltac:(apply Nat.div_lt_upper_bound; lia)) as [j Hj].
    pose proof (H5 (q mod 41)%nat (q / 41)%nat j ltac:(apply Nat.mod_upper_bound; lia) Hj ltac:(apply Nat.div_lt_upper_bound; lia)) as Hn.
    unfold at_coord, fidx in Hn. cbn [fst snd] in Hn.
    replace (q mod 41 + 41 * (0 + 1 * (q / 41)))%nat with q in Hn by (pose proof (Nat.div_mod q 41); lia).
    rewrite Hq in Hn. symmetry in Hn. apply nth_error_In in Hn. exact Hn.
  - apply In_nth_error in Hk as [j Hj].
    assert (Hj5 : (j < 5)%nat) by (change 5%nat with (length layer_names); apply nth_error_Some; congruence).
    assert (Hl' : layer_in sublayers (list_sum (firstn j sublayers)) j /\ (list_sum (firstn j sublayers) < 14)%nat).
    { unfold layer_in. destruct j as [|[|[|[|[|]]]]]; try lia; cbn; lia. }
    rewrite <- (H5 0%nat _ j ltac:(lia) (proj1 Hl') (proj2 Hl')) in Hj. apply nth_error_In in Hj. exact Hj.
Qed.
Print Assumptions C158_anticline.

(* its inactive cells are the 20 cells of the last layer where the crest is above the top *)
Theorem C158_inactive :
  forall (D : Type) (num : Z -> D) (int : D -> Z) (Hint : forall z, int (num z) = z)
    (areas : shape3 -> list pt -> list R) (Har : forall dims pts, length (areas dims pts) = n_cells dims)
    interpolate arrays,
  (forall k v, In (k, v) arrays -> length v = 42%nat) -> measures_flat areas ->
  exists g labels, load_anticline_2d num int areas interpolate arrays = Ok (g, labels) /\
    forall i l, (i < 41)%nat -> (l < 14)%nat ->
      (((18 <= i <= 22) /\ 10 <= l)%nat -> flag_at (41, 1, 14)%nat (sg_ghost g) (i, 0, l)%nat = 32%nat) /\
      (~ ((18 <= i <= 22) /\ 10 <= l)%nat -> flag_at (41, 1, 14)%nat (sg_ghost g) (i, 0, l)%nat = 0%nat).
Proof.
  intros D num int Hint areas Har interpolate arrays Harr Hflat.
  destruct (load_ok num int Hint areas Har interpolate arrays Harr) as (g & labels & js & E & H).
  exists g, labels. split; [exact E|]. intros i l Hi Hl.
  assert (HJ : exists j, layer_in sublayers l j /\ (10 <= l <-> j = 4)%nat /\ (j < 5)%nat).
  { unfold layer_in.
    destruct (le_lt_dec 10 l); [exists 4%nat; cbn; lia|]. destruct (le_lt_dec 8 l); [exists 3%nat; cbn; lia|].
    destruct (le_lt_dec 6 l); [exists 2%nat; cbn; lia|]. destruct (le_lt_dec 4 l); [exists 1%nat; cbn; lia|].
    exists 0%nat; cbn; lia. }
  destruct HJ as (j & Hj & H10 & Hj5).
  destruct (anticline_ghosts num int Hint areas Har arrays Harr _ station_len g labels js H Hflat i l j _ _
              (station_nth i ltac:(lia)) (station_nth (i + 1) ltac:(lia)) (station_step i) Hj Hl) as [A1 A2].
  split.
  - intros [Hc Hl10]. apply A1. apply H10 in Hl10. subst j. split; apply crest; lia.
  - intros HN. apply A2. intros [T1 T2]. destruct (Nat.eq_dec j 4) as [->|Hne].
    + apply HN. apply crest in T1; [|lia]. apply crest in T2; [|lia]. lia.
    + apply (others i j); [lia|lia|auto].
Qed.
Print Assumptions C158_inactive.

(* a measure of the cells: twice the squares of the areas of their triangles *)
Definition square_area (a b c : pt) : R :=
  let '(ax, ay, az) := a in let '(bx, by_, bz) := b in let '(cx, cy, cz) := c in
  Rsqr ((by_ - ay) * (cz - az) - (bz - az) * (cy - ay)) + Rsqr ((bz - az) * (cx - ax) - (bx - ax) * (cz - az)) +
  Rsqr ((bx - ax) * (cy - ay) - (by_ - ay) * (cx - ax)).
Definition sx_areas (d : shape3) (pts : list pt) : list R :=
  let '(nx, _, _) := d in
  map (fun q => let i := (q mod (nx - 1))%nat in let k := (q / (nx - 1))%nat in
         let P u v := nth (u + nx * v)%nat pts origin in
         square_area (P i k) (P (i + 1)%nat k) (P (i + 1)%nat (k + 1)%nat) + square_area (P i k) (P (i + 1)%nat (k + 1)%nat) (P i (k + 1)%nat))
    (seq 0 (n_cells d)).

Lemma square_flat a b c : 0 <= square_area a b c /\ (square_area a b c = 0 <-> flat_triangle a b c).
Proof.
  destruct a as [[ax ay] az], b as [[bx by_] bz], c as [[cx cy] cz]. unfold square_area, flat_triangle.
  match goal with |- context [Rsqr ?u + Rsqr ?v + Rsqr ?w] =>
    pose proof (Rle_0_sqr u); pose proof (Rle_0_sqr v); pose proof (Rle_0_sqr w);
    split; [lra|split; [intros E; assert (Rsqr u = 0) as E1 by lra; assert (Rsqr v = 0) as E2 by lra; assert (Rsqr w = 0) as E3 by lra;
      apply Rsqr_0_uniq in E1, E2, E3; repeat split; lra|intros (E1 & E2 & E3)]]
  end.
  rewrite E1, E2, E3, !Rminus_diag_eq by reflexivity. unfold Rsqr. ring.
Qed.

Lemma sx_measures : (forall dims pts, length (sx_areas dims pts) = n_cells dims) /\ measures_flat sx_areas.
Proof.
  split; [intros [[nx ny] nz] pts; unfold sx_areas; now rewrite map_length, seq_length|].
  intros nx nz pts i k a b c d Hi Hk Ha Hb Hc Hd w Hw.
  unfold at_coord, fidx, sx_areas, cell_shape in *. cbn [fst snd] in *.
  rewrite nth_error_map in Hw. destruct (nth_error (seq 0 (n_cells (nx, 1, nz)%nat)) _) as [q|] eqn:Eq; [|discriminate].
  cbn [option_map] in Hw. injection Hw as <-.
  assert (Eq' : q = (i + (nx - 1) * k)%nat).
  { assert (HL : ((i + Nat.max 1 (nx - 1) * (0 + Nat.max 1 (1 - 1) * k)) < length (seq 0 (n_cells (nx, 1, nz)))%nat)%nat)
      by (apply nth_error_Some; congruence).
    rewrite (nth_error_nth' _ 0%nat HL) in Eq. rewrite seq_length in HL. rewrite seq_nth in Eq by exact HL.
    assert (E0 : q = (0 + (i + Nat.max 1 (nx - 1) * (0 + Nat.max 1 (1 - 1) * k)))%nat) by congruence.
    rewrite E0. replace (Nat.max 1 (nx - 1)) with (nx - 1)%nat by lia.
    replace (0 + Nat.max 1 (1 - 1) * k)%nat with k by (cbn; lia). reflexivity. }
  subst q. clear Eq.
  replace ((i + (nx - 1) * k) mod (nx - 1))%nat with i by (rewrite Nat.mul_comm, Nat.mod_add, Nat.mod_small; lia).
  replace ((i + (nx - 1) * k) / (nx - 1))%nat with k by (rewrite Nat.mul_comm, Nat.div_add, Nat.div_small; lia).
  assert (HN : forall u v p, nth_error pts (u + nx * (0 + 1 * v))%nat = Some p -> nth (u + nx * v)%nat pts origin = p).
  { intros u v p Hp. apply nth_error_nth. rewrite <- Hp. f_equal. lia. }
  rewrite (HN _ _ _ Ha), (HN _ _ _ Hb), (HN _ _ _ Hc), (HN _ _ _ Hd).
  destruct (square_flat a b c) as [P1 F1], (square_flat a c d) as [P2 F2]. rewrite <- F1, <- F2. lra.
Qed.

Example C158_example : exists g labels, load_anticline_2d zz zz sx_areas (fun _ _ => Ok []) [] = Ok (g, labels) /\
  flag_at (41, 1, 14)%nat (sg_ghost g) (20, 0, 12)%nat = 32%nat /\ flag_at (41, 1, 14)%nat (sg_ghost g) (20, 0, 9)%nat = 0%nat /\
  at_coord (42, 1, 15)%nat (sg_pts g) (41, 0, 14)%nat = Some (station 41, 0, 34 / 10).
Proof.
  destruct sx_measures as [HL HM].
  destruct (C158_inactive Z zz zz (fun z => eq_refl) sx_areas HL (fun _ _ => Ok []) [] ltac:(intros ? ? []) HM) as (g & labels & E & HG).
  destruct (C158_anticline Z zz zz (fun z => eq_refl) sx_areas HL (fun _ _ => Ok []) [] ltac:(intros ? ? [])) as (g' & labels' & E' & Hd & _ & HN & _).
  rewrite E in E'. injection E' as <- <-. exists g, labels. split; [exact E|].
  split; [apply HG; lia|]. split; [apply HG; lia|].
  rewrite Hd in HN. pose proof (HN 41%nat 4%nat 4%nat 4%nat ltac:(lia) eq_refl (le_n _)) as HT.
  change (list_sum (firstn 4 sublayers) + 4)%nat with 14%nat in HT. rewrite HT. f_equal. apply injective_projections; [reflexivity|].
  cbn [snd]. unfold Rdiv at 1. rewrite Rinv_r by (cbn; lra). cbn [horizon nth]. ring.
Qed.
