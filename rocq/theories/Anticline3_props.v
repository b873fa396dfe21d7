From Verif Require Import RealAux Perc_model Surface_model Surface_spec Volume_model Volume_spec Groups_model Groups_spec
  Stack_model Stack_spec Final_model Final_spec Line_spec Line3_proof Stack6_proof Sweep_model Sweep_spec Sweep_proof
  Anticline_model Anticline_spec Anticline_proof Anticline_props Anticline3_model Anticline3_spec Anticline3_proof.
From Coq Require Import Lra.
Open Scope R_scope.

Lemma load3_ok {D} (num : Z -> D) int (Hint : forall z, int (num z) = z) areas
  (Har : forall dims pts, length (areas dims pts) = n_cells dims) volumes interpolate arrays :
  (forall k v, In (k, v) arrays -> length v = 42%nat) ->
  exists g2 labels2 js g labels,
    stack2d_mesh num int areas (mk_options "" []) 2 true (layer_items arrays (linspace (-314 / 100) (314 / 100) 42)) = Ok (g2, labels2, js) /\
    extrude_program num int volumes (mk_options "" []) None None (flat_mesh int g2 labels2) [depth_call] = Ok (g, labels) /\
    load_anticline_3d num int areas volumes interpolate arrays = Ok (g, labels).
Proof.
  intros Harr. destruct (load_ok num int Hint areas Har interpolate arrays Harr) as (g2 & labels2 & js & E & H2).
  destruct (sweep_defined num int Hint volumes (mk_options "" []) 1 (42, 1, 15)%nat ltac:(lia) flat_unit (flat_mesh int g2 labels2)
              (flat_wf num int Hint areas Har arrays Harr g2 labels2 js H2)
              [depth_call] _ _ ltac:(discriminate) depth_moves) as (g & labels & H).
  exists g2, labels2, js, g, labels. split; [exact H2|]. split; [exact H|].
  unfold load_anticline_3d. rewrite E. cbn [bind]. exact H.
Qed.

(* C161: the anticline in three dimensions is the plane one repeated at eleven equal distances along y; the layers keep
   their names *)
Theorem C161_anticline :
  forall (D : Type) (num : Z -> D) (int : D -> Z) (Hint : forall z, int (num z) = z)
    (areas : shape3 -> list pt -> list R) (Har : forall dims pts, length (areas dims pts) = n_cells dims)
    (volumes : shape3 -> list pt -> list R) (Hvol : forall dims pts, length (volumes dims pts) = n_cells dims)
    interpolate arrays,
  (forall k v, In (k, v) arrays -> length v = 42%nat) ->
  exists g labels, load_anticline_3d num int areas volumes interpolate arrays = Ok (g, labels) /\
    sg_dims g = (42, 11, 15)%nat /\ length (sg_pts g) = (42 * 11 * 15)%nat /\
    (forall i r j n k, (i < 42)%nat -> (r < 11)%nat -> nth_error sublayers j = Some n -> (k <= n)%nat ->
       at_coord (sg_dims g) (sg_pts g) (i, r, list_sum (firstn j sublayers) + k)%nat =
       Some (station i, INR r * (628 / 1000),
             horizon (station i) j + INR k / INR n * (horizon (station i) (S j) - horizon (station i) j))) /\
    exists cg names, In ("CellGroup"%string, cg) (sg_cd g) /\
      get_cell_group (Some (map int cg)) (Some labels) = Ok (Some (inl names)) /\ length names = (41 * 10 * 14)%nat /\
      (forall k, In k (map fst labels) <-> In k layer_names) /\
      forall i r l j, (i < 41)%nat -> (r < 10)%nat -> layer_in sublayers l j -> (l < 14)%nat ->
        at_coord (41, 10, 14)%nat names (i, r, l)%nat = nth_error layer_names j.
Proof.
  intros D num int Hint areas Har volumes Hvol interpolate arrays Harr.
  destruct (load3_ok num int Hint areas Har volumes interpolate arrays Harr) as (g2 & labels2 & js & g & labels & H2 & H & E).
  exists g, labels. split; [exact E|].
  destruct (solid_nodes num int Hint areas Har volumes arrays Harr g2 labels2 js H2 g labels H) as (Hd & Hl & HN).
  split; [exact Hd|]. split; [exact Hl|]. split; [exact HN|].
  destruct (solid_names num int Hint areas Har volumes Hvol arrays Harr g2 labels2 js H2 g labels H) as (cg & names & H1 & G2 & H3 & H4 & H5).
  exists cg, names. split; [exact H1|]. split; [exact G2|]. split; [exact H3|]. split; [|exact H5].
  assert (HJ : forall l, (l < 14)%nat -> exists j, layer_in sublayers l j).
  { intros l Hl'. unfold layer_in.
    destruct (le_lt_dec 10 l); [exists 4%nat; cbn; lia|]. destruct (le_lt_dec 8 l); [exists 3%nat; cbn; lia|].
    destruct (le_lt_dec 6 l); [exists 2%nat; cbn; lia|]. destruct (le_lt_dec 4 l); [exists 1%nat; cbn; lia|].
    exists 0%nat; cbn; lia. }
  intros k. rewrite H4. split; intros Hk.
  - apply In_nth_error in Hk as [q Hq].
    assert (Hq' : (q < 41 * 10 * 14)%nat) by (rewrite <- H3; apply nth_error_Some; congruence).
    destruct (HJ (q / 41 / 10)%nat) as [j Hj].
    { rewrite Nat.div_div by lia. apply Nat.div_lt_upper_bound; lia. }
    pose proof (H5 (q mod 41)%nat (q / 41 mod 10)%nat (q / 41 / 10)%nat j ltac:(apply Nat.mod_upper_bound; lia)
                  ltac:(apply Nat.mod_upper_bound; lia) Hj ltac:(rewrite Nat.div_div by lia; apply Nat.div_lt_upper_bound; lia)) as Hn.
    unfold at_coord, fidx in Hn. cbn [fst snd] in Hn.
    replace (q mod 41 + 41 * (q / 41 mod 10 + 10 * (q / 41 / 10)))%nat with q in Hn.
    + rewrite Hq in Hn. symmetry in Hn. eapply nth_error_In; exact Hn.
    + pose proof (Nat.div_mod q 41 ltac:(lia)). pose proof (Nat.div_mod (q / 41) 10 ltac:(lia)). lia.
  - apply In_nth_error in Hk as [j Hj].
    assert (Hj5 : (j < 5)%nat) by (change 5%nat with (length layer_names); apply nth_error_Some; congruence).
    assert (HL : exists l, (l < 14)%nat /\ layer_in sublayers l j).
    { exists (list_sum (firstn j sublayers)). unfold layer_in. destruct j as [|[|[|[|[|]]]]]; try lia; cbn; lia. }
    destruct HL as (l & Hl' & Hlj). pose proof (H5 0%nat 0%nat l j ltac:(lia) ltac:(lia) Hlj Hl') as Hn. rewrite Hj in Hn.
    eapply nth_error_In; exact Hn.
Qed.
Print Assumptions C161_anticline.

(* its inactive cells are those of the uppermost layer below the crest, in all the rows *)
Theorem C161_inactive :
  forall (D : Type) (num : Z -> D) (int : D -> Z) (Hint : forall z, int (num z) = z)
    (areas : shape3 -> list pt -> list R) (Har : forall dims pts, length (areas dims pts) = n_cells dims)
    (volumes : shape3 -> list pt -> list R) (Hvol : forall dims pts, length (volumes dims pts) = n_cells dims)
    interpolate arrays,
  (forall k v, In (k, v) arrays -> length v = 42%nat) -> measures_flat areas -> measures_slabs volumes ->
  exists g labels, load_anticline_3d num int areas volumes interpolate arrays = Ok (g, labels) /\
    forall i r l, (i < 41)%nat -> (r < 10)%nat -> (l < 14)%nat ->
      (((18 <= i <= 22) /\ 10 <= l)%nat -> flag_at (41, 10, 14)%nat (sg_ghost g) (i, r, l)%nat = 32%nat) /\
      (~ ((18 <= i <= 22) /\ 10 <= l)%nat -> flag_at (41, 10, 14)%nat (sg_ghost g) (i, r, l)%nat = 0%nat).
Proof.
  intros D num int Hint areas Har volumes Hvol interpolate arrays Harr Hflat Hslab.
  destruct (load3_ok num int Hint areas Har volumes interpolate arrays Harr) as (g2 & labels2 & js & g & labels & H2 & H & E).
  exists g, labels. split; [exact E|]. intros i r l Hi Hr Hl.
  assert (HJ : exists j, layer_in sublayers l j /\ (10 <= l <-> j = 4)%nat /\ (j < 5)%nat).
  { unfold layer_in.
    destruct (le_lt_dec 10 l); [exists 4%nat; cbn; lia|]. destruct (le_lt_dec 8 l); [exists 3%nat; cbn; lia|].
    destruct (le_lt_dec 6 l); [exists 2%nat; cbn; lia|]. destruct (le_lt_dec 4 l); [exists 1%nat; cbn; lia|].
    exists 0%nat; cbn; lia. }
  destruct HJ as (j & Hj & H10 & Hj5).
  destruct (solid_flags num int Hint areas Har volumes Hvol arrays Harr g2 labels2 js H2 g labels H Hflat Hslab i r l j Hi Hr Hl Hj) as [A1 A2].
  split.
  - intros [Hc Hl10]. apply A1. apply H10 in Hl10. subst j. split; apply crest; lia.
  - intros HN. apply A2. intros [T1 T2]. destruct (Nat.eq_dec j 4) as [->|Hne].
    + apply HN. apply crest in T1; [|lia]. apply crest in T2; [|lia]. lia.
    + apply (others i j); [lia|lia|auto].
Qed.
Print Assumptions C161_inactive.

(* a measure of the cells: the volume of a prism with a trapezium as base *)
Definition vx_volumes (d : shape3) (pts : list pt) : list R :=
  let '(nx, ny, _) := d in
  map (fun q => let i := (q mod (nx - 1))%nat in let r := (q / (nx - 1) mod (ny - 1))%nat in let k := (q / (nx - 1) / (ny - 1))%nat in
         let P u v w := nth (u + nx * (v + ny * w))%nat pts origin in
         let X (p : pt) := fst (fst p) in let Y (p : pt) := snd (fst p) in let Z (p : pt) := snd p in
         (X (P (i + 1)%nat r k) - X (P i r k)) * (Y (P i (r + 1)%nat k) - Y (P i r k)) *
         ((Z (P i r (k + 1)%nat) - Z (P i r k) + (Z (P (i + 1)%nat r (k + 1)%nat) - Z (P (i + 1)%nat r k))) / 2))
    (seq 0 (n_cells d)).

Lemma vx_index nx ny nz i r k : (i + 1 < nx)%nat -> (r + 1 < ny)%nat -> (k + 1 < nz)%nat ->
  nth_error (seq 0 (n_cells (nx, ny, nz))) (fidx (cell_shape (nx, ny, nz)) (i, r, k)) =
  Some (i + (nx - 1) * (r + (ny - 1) * k))%nat.
Proof.
  intros Hi Hr Hk. unfold n_cells, cell_shape, fidx, size3. cbn [fst snd].
  replace (Nat.max 1 (nx - 1)) with (nx - 1)%nat by lia. replace (Nat.max 1 (ny - 1)) with (ny - 1)%nat by lia.
  replace (Nat.max 1 (nz - 1)) with (nz - 1)%nat by lia.
  remember (nx - 1)%nat as X. remember (ny - 1)%nat as Y. remember (nz - 1)%nat as Z.
  assert (G1 : (r + Y * k + 1 <= Y * Z)%nat).
  { assert (Y * (k + 1) <= Y * Z)%nat by (apply Nat.mul_le_mono_l; lia). lia. }
  assert (HL : (i + X * (r + Y * k) < X * Y * Z)%nat).
  { assert (X * (r + Y * k + 1) <= X * (Y * Z))%nat by (apply Nat.mul_le_mono_l; lia). lia. }
  rewrite (nth_error_nth' _ 0%nat) by (rewrite seq_length; exact HL). now rewrite seq_nth.
Qed.

Lemma vx_measures : (forall dims pts, length (vx_volumes dims pts) = n_cells dims) /\ measures_slabs vx_volumes.
Proof.
  split; [intros [[nx ny] nz] pts; unfold vx_volumes; now rewrite map_length, seq_length|].
  intros nx ny nz pts i r k x x' y y' zl zh zl' zh' Hi Hr Hk Hx Hy Hz Hz' HP w Hw.
  unfold at_coord, vx_volumes in Hw. rewrite nth_error_map, vx_index in Hw by assumption. cbn [option_map] in Hw. injection Hw as <-.
  remember (nx - 1)%nat as X. remember (ny - 1)%nat as Y.
  assert (E1 : ((i + X * (r + Y * k)) mod X = i)%nat) by (rewrite Nat.mul_comm, Nat.mod_add, Nat.mod_small; lia).
  assert (E2 : ((i + X * (r + Y * k)) / X = r + Y * k)%nat) by (rewrite Nat.mul_comm, Nat.div_add, Nat.div_small; lia).
  assert (E3 : ((r + Y * k) mod Y = r)%nat) by (rewrite Nat.mul_comm, Nat.mod_add, Nat.mod_small; lia).
  assert (E4 : ((r + Y * k) / Y = k)%nat) by (rewrite Nat.mul_comm, Nat.div_add, Nat.div_small; lia).
  rewrite E1, E2, E3, E4.
  assert (HA : forall u v t p, at_coord (nx, ny, nz) pts (u, v, t) = Some p -> nth (u + nx * (v + ny * t))%nat pts origin = p).
  { intros u v t p Hp. unfold at_coord, fidx in Hp. cbn [fst snd] in Hp. now apply nth_error_nth. }
  destruct (HP r y (or_introl (conj eq_refl eq_refl))) as (A1 & A2 & A3 & A4).
  destruct (HP (r + 1)%nat y' (or_intror (conj eq_refl eq_refl))) as (B1 & _).
  rewrite (HA _ _ _ _ A1), (HA _ _ _ _ A2), (HA _ _ _ _ A3), (HA _ _ _ _ A4), (HA _ _ _ _ B1). cbn [fst snd].
  split.
  - intros E. apply Rmult_integral in E as [E|E]; [apply Rmult_integral in E as [E|E]; lra|lra].
  - intros [-> ->]. lra.
Qed.

Example C161_example : exists g labels, load_anticline_3d zz zz sx_areas vx_volumes (fun _ _ => Ok []) [] = Ok (g, labels) /\
  flag_at (41, 10, 14)%nat (sg_ghost g) (18, 9, 10)%nat = 32%nat /\
  flag_at (41, 10, 14)%nat (sg_ghost g) (17, 9, 10)%nat = 0%nat /\
  at_coord (42, 11, 15)%nat (sg_pts g) (41, 10, 14)%nat = Some (station 41, 628 / 100, 34 / 10).
Proof.
  destruct sx_measures as [HL HM]. destruct vx_measures as [VL VM].
  destruct (C161_inactive Z zz zz (fun z => eq_refl) sx_areas HL vx_volumes VL (fun _ _ => Ok []) [] ltac:(intros ? ? []) HM VM)
    as (g & labels & E & HG).
  destruct (C161_anticline Z zz zz (fun z => eq_refl) sx_areas HL vx_volumes VL (fun _ _ => Ok []) [] ltac:(intros ? ? []))
    as (g' & labels' & E' & Hd & _ & HN & _).
  rewrite E in E'. injection E' as <- <-. exists g, labels. split; [exact E|].
  split; [apply HG; lia|]. split; [apply HG; lia|].
  rewrite Hd in HN. pose proof (HN 41%nat 10%nat 4%nat 4%nat 4%nat ltac:(lia) ltac:(lia) eq_refl (le_n _)) as HT.
  change (list_sum (firstn 4 sublayers) + 4)%nat with 14%nat in HT. rewrite HT. f_equal.
  apply injective_projections; [apply injective_projections|]; cbn [fst snd]; [reflexivity| |].
  - replace (INR 10) with 10 by (cbn; lra). lra.
  - unfold Rdiv at 1. rewrite Rinv_r by (cbn; lra). cbn [horizon nth]. ring.
Qed.
