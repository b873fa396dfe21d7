From Verif Require Import RealAux Perc_model Perc_spec Perc_proof Surface_model Surface_spec Surface_proof
  Volume_model Volume_spec SMerge_model SMerge_spec SMerge_proof UVol3_proof
  Groups_model Groups_spec Groups_proof Groups2_proof
  Stack_model Stack_spec Cut_proof Gen_proof Stack_proof Stack2_proof Stack3_proof Stack4_proof Stack6_proof Stack7_proof
  Final_model Final_spec Final1_proof Final2_proof Final3_proof Final4_proof Line_spec Line1_proof Line2_proof Line3_proof
  Sweep_model Sweep_spec Sweep_proof Anticline_model Anticline_spec Anticline_proof Anticline3_model Anticline3_spec.
From Coq Require Import Lra.
Open Scope nat_scope.

Section Lines.
Context {D : Type} (num : Z -> D) (int : D -> Z) (Hint : forall z, int (num z) = z).
Context (areas : shape3 -> list pt -> list R).
Context (Har : forall dims pts, length (areas dims pts) = n_cells dims).
Context (ax : nat) (Hax : ax <= 2) (nc : nat).

Lemma clean_ghost_len gh : clean_ghost gh = [] \/ clean_ghost gh = gh.
Proof. unfold clean_ghost. destruct (forallb _ _); auto. Qed.

(* a mesh made of lines is a base for an extrusion *)
Lemma line_base o bu items g labels js :
  Forall (fun i => wf_line nc (it_mesh i)) items ->
  Forall (fun it => it_trans it = false) (tl items) -> 3 <= length items ->
  stack2d_mesh num int areas o ax bu items = Ok (g, labels, js) ->
  wf_base (sg_dims g) (as_surface int (g, labels)).
Proof.
  intros Hw Ht L3 H. apply line_mesh_inv in H as (g0 & groups & n & H & Hf).
  destruct (line_stack_pre num areas ax nc o bu items g0 groups n js Hw Ht H)
    as (i1 & rest & j1 & rest' & bs & Ei & Hne & -> & Hne' & HF & Hw' & Ht' & Hg & Hm).
  destruct (lblocks_inv num areas Har ax Hax nc o j1 rest' bs groups n Ht' Hw' Hg) as (Hnum & nsubs & HL & Hlen & En & HB).
  assert (Hnc : 1 <= nc) by (inversion Hw' as [|? ? W]; apply W).
  destruct (lmerged_dims num areas Har ax Hax nc o j1 rest' bs groups g0 nsubs Hne' HL Hlen HB Hm) as (W & Hd & Hn).
  apply wf_unfold in W as (_ & _ & Lp & HN & Lc & Lg).
  destruct (lfinish num int Hint areas Har ax Hax nc o j1 rest' bs groups g0 nsubs Hne' HL Hlen HB Hm Hnum Hnc)
    as (g2 & l2 & cg & cg' & Hf' & Dd & Dp & Dpd & Dg & DN & DO & Hcg & DC & DL & Lcg & _).
  rewrite Hf in Hf'. injection Hf' as <- <-.
  assert (Epd : sg_pd g = []).
  { rewrite Dpd. pose proof (Forall2_len _ _ _ HF) as HFl. subst items. cbn [length] in *.
    destruct HL as [HL' _]. destruct bs as [|b [|b' bs']]; cbn in Hlen; try lia.
    cbn [merge_structured] in Hm. eapply merge_fold_no_pd; [|exact Hm]. discriminate. }
  assert (Elen : forall k v, In (k, v) (sg_cd g) -> length v = n_cells (sg_dims g)).
  { intros k v Hin. rewrite Dd. destruct (string_dec k "CellGroup") as [->|Hk].
    - pose proof (lookup_NoDup _ _ _ DN Hin) as E1. rewrite (lookup_NoDup _ _ _ DN DC) in E1. injection E1 as <-.
      rewrite map_length. exact Lcg.
    - apply DO in Hin; [|exact Hk]. eauto. }
  unfold as_surface, wf_base. cbn [sb_surf ss_dims ss_pts ss_pd ss_cd ss_ghost sb_cg].
  split; [reflexivity|]. split; [now rewrite Dp, Dd|]. split; [exact DN|]. split; [rewrite Epd; intros ? ? []|].
  split; [exact Elen|]. split.
  - intros gh E. rewrite Dg in E. destruct (clean_ghost_len (sg_ghost g0)) as [Ec|Ec]; rewrite Ec in E; [discriminate|].
    destruct (sg_ghost g0) eqn:Eg; [discriminate|]. injection E as <-. rewrite Dd. exact Lg.
  - intros cg0 E. rewrite (lookup_NoDup _ _ _ DN DC) in E. cbn in E. injection E as <-. rewrite !map_length. now rewrite Dd.
Qed.
End Lines.

Open Scope R_scope.
Lemma thick_pos x j : (j < 5)%nat -> 0 <= thickness x j.
Proof.
  intros Hj. unfold thickness. pose proof (COS_bound x).
  destruct j as [|[|[|[|[|]]]]]; try lia; cbn [horizon nth]; try lra; unfold Rmin; destruct (Rle_dec _ _); lra.
Qed.

Lemma row_place l : (l < 15)%nat -> exists j n k, nth_error sublayers j = Some n /\ (k <= n)%nat /\ l = (list_sum (firstn j sublayers) + k)%nat.
Proof.
  intros Hl.
  destruct (le_lt_dec 10 l); [exists 4%nat, 4%nat, (l - 10)%nat; (split; [reflexivity|cbn; lia])|].
  destruct (le_lt_dec 8 l); [exists 3%nat, 2%nat, (l - 8)%nat; (split; [reflexivity|cbn; lia])|].
  destruct (le_lt_dec 6 l); [exists 2%nat, 2%nat, (l - 6)%nat; (split; [reflexivity|cbn; lia])|].
  destruct (le_lt_dec 4 l); [exists 1%nat, 2%nat, (l - 4)%nat; (split; [reflexivity|cbn; lia])|].
  exists 0%nat, 4%nat, l; (split; [reflexivity|cbn; lia]).
Qed.

Lemma cell_place l j : (l < 14)%nat -> layer_in sublayers l j ->
  exists n k, nth_error sublayers j = Some n /\ (k < n)%nat /\ l = (list_sum (firstn j sublayers) + k)%nat /\ (j < 5)%nat.
Proof.
  intros Hl Hj. destruct (layer_in_same _ station_len l j j Hj Hj Hl) as [_ H5]. unfold layer_in in Hj.
  destruct j as [|[|[|[|[|]]]]]; try lia; cbn in Hj; cbn [nth_error sublayers].
  - exists 4%nat, l. split; [reflexivity|cbn; lia].
  - exists 2%nat, (l - 4)%nat. split; [reflexivity|cbn; lia].
  - exists 2%nat, (l - 6)%nat. split; [reflexivity|cbn; lia].
  - exists 2%nat, (l - 8)%nat. split; [reflexivity|cbn; lia].
  - exists 4%nat, (l - 10)%nat. split; [reflexivity|cbn; lia].
Qed.

Section Load.
Context {D : Type} (num : Z -> D) (int : D -> Z) (Hint : forall z, int (num z) = z).
Context (areas : shape3 -> list pt -> list R) (Har : forall dims pts, length (areas dims pts) = n_cells dims).
Context (volumes : shape3 -> list pt -> list R) (Hvol : forall dims pts, length (volumes dims pts) = n_cells dims).
Context (interpolate : list pt -> list pt -> res (list R)) (arrays : list (string * list D)).
Context (Harr : forall k v, In (k, v) arrays -> length v = 42%nat).
Context (g2 : sgrid D) (labels2 : dict) (js : list (item (lbase D))).
Context (H2 : stack2d_mesh num int areas (mk_options "" []) 2 true (layer_items arrays (linspace (-314 / 100) (314 / 100) 42)) = Ok (g2, labels2, js)).

Definition flat_mesh : sbase D := as_surface int (g2, labels2).
Definition depth_call : ex_call := mkCall [0; 628 / 100; 0] (ResInt 10) None None None GNone.

Lemma flat_dims : sg_dims g2 = (42, 1, 15)%nat.
Proof. apply (anticline_nodes num int Hint areas Har arrays Harr _ station_len g2 labels2 js H2). Qed.

Lemma flat_wf : wf_base (42, 1, 15)%nat flat_mesh.
Proof.
  rewrite <- flat_dims. unfold flat_mesh.
  apply (line_base num int Hint areas Har 2 (le_n 2) 41 (mk_options "" []) true _ g2 labels2 js
           (items_wf arrays Harr _ station_len) (items_plain arrays _)); [cbn; lia|exact H2].
Qed.
Lemma flat_unit : unit_along 1 (42, 1, 15)%nat.
Proof. split; [reflexivity|]. intros [|[|[|]]] G1 G2; cbn; lia. Qed.
Lemma depth_moves : moves [depth_call] [(0, 628 / 100, 0)] [10%nat].
Proof.
  split; [reflexivity|]. split; [reflexivity|]. intros [|[|j]] c v n Hc Hv Hn; try discriminate.
  injection Hc as <-. injection Hv as <-. injection Hn as <-.
  split; [reflexivity|]. split; [reflexivity|]. split; [reflexivity|]. split; [reflexivity|].
  split; [right; exists 10%Z; split; reflexivity|left; reflexivity].
Qed.

Lemma flat_point i l j n k : (i < 42)%nat -> nth_error sublayers j = Some n -> (k <= n)%nat ->
  l = (list_sum (firstn j sublayers) + k)%nat ->
  at_coord (42, 1, 15)%nat (sg_pts g2) (i, 0, l)%nat = Some (anticline_point (station i) j n k).
Proof.
  intros Hi Hn Hk ->. destruct (anticline_nodes num int Hint areas Har arrays Harr _ station_len g2 labels2 js H2) as (_ & _ & HN).
  exact (HN i (station i) j n k (station_nth i Hi) Hn Hk).
Qed.

Context (g : sgrid D) (labels : dict).
Context (H : extrude_program num int volumes (mk_options "" []) None None flat_mesh [depth_call] = Ok (g, labels)).

Lemma solid_nodes : sg_dims g = (42, 11, 15)%nat /\ length (sg_pts g) = (42 * 11 * 15)%nat /\
  forall i r j n k, (i < 42)%nat -> (r < 11)%nat -> nth_error sublayers j = Some n -> (k <= n)%nat ->
    at_coord (sg_dims g) (sg_pts g) (i, r, list_sum (firstn j sublayers) + k)%nat =
    Some (station i, INR r * (628 / 1000), horizon (station i) j + INR k / INR n * (horizon (station i) (S j) - horizon (station i) j)).
Proof.
  destruct (sweep_nodes num int volumes (mk_options "" []) 1 (42, 1, 15)%nat ltac:(lia) flat_unit flat_mesh flat_wf
              [depth_call] _ _ depth_moves g labels H) as (Hd & HL & HN).
  cbn in Hd. rewrite Hd in *. split; [reflexivity|]. split; [exact HL|].
  intros i r j n k Hi Hr Hn Hk.
  assert (Hl : (list_sum (firstn j sublayers) + k < 15)%nat).
  { clear - Hn Hk. destruct j as [|[|[|[|[|j]]]]]; cbn in Hn; try (injection Hn as <-; cbn; lia). destruct j; discriminate. }
  pose proof (HN 0%nat _ 10%nat (i, 0, list_sum (firstn j sublayers) + k)%nat r _ eq_refl eq_refl ltac:(lia)
    ltac:(unfold in_shape; lia) (flat_point i _ j n k Hi Hn Hk eq_refl)) as E.
  cbn [firstn list_sum fold_right Nat.add setc] in E. rewrite E. f_equal. unfold moved, anticline_point, vsum. cbn [firstn fold_right].
  replace (INR 10) with 10 by (cbn; lra).
  apply injective_projections; [apply injective_projections|]; cbn [fst snd]; lra.
Qed.

Lemma solid_names : exists cg names, In ("CellGroup"%string, cg) (sg_cd g) /\
    get_cell_group (Some (map int cg)) (Some labels) = Ok (Some (inl names)) /\ length names = (41 * 10 * 14)%nat /\
    (forall k, In k (map fst labels) <-> In k names) /\
    forall i r l j, (i < 41)%nat -> (r < 10)%nat -> layer_in sublayers l j -> (l < 14)%nat ->
      at_coord (41, 10, 14)%nat names (i, r, l)%nat = nth_error layer_names j.
Proof.
  destruct solid_nodes as (Hd & _).
  destruct (sweep_groups num int Hint volumes Hvol (mk_options "" []) 1 (42, 1, 15)%nat ltac:(lia) flat_unit flat_mesh flat_wf
              [depth_call] _ _ depth_moves g labels H) as (_ & _ & cg & names & G1 & G2 & G3 & G4 & G5).
  rewrite Hd in *. exists cg, names. split; [exact G1|]. split; [exact G2|]. split; [exact G3|]. split; [exact G4|].
  intros i r l j Hi Hr Hj Hl.
  destruct (G5 (i, r, l)) as (q & call & k & Hq & Hcall & Hk & Hn). { unfold in_shape; cbn; lia. }
  destruct q as [|[|q]]; try discriminate. injection Hcall as <-.
  change (cell_shape (42, 11, 15)%nat) with (41, 10, 14)%nat in Hk. rewrite Hk.
  destruct (anticline_names num int Hint areas Har arrays Harr _ station_len g2 labels2 js H2) as (cg2 & names2 & F1 & F2 & F3 & F4 & F5).
  destruct (line_final num int Hint areas Har 2 (le_n 2) 41 (mk_options "" []) true _ g2 labels2 js
              (items_wf arrays Harr _ station_len) (items_plain arrays _) H2) as (_ & nsx & _ & _ & (FN & FD & _) & _).
  assert (Hname : nth_error names2 (fidx (cell_shape (42, 1, 15)%nat) (setc 1 0 (i, r, l)%nat)) = nth_error layer_names j).
  { exact (F5 i l j Hi Hj Hl). }
  pose proof (get_cell_group_spec (map int cg2) labels2 (numbered_values _ FN)) as HG. 
  match type of HG with context [get_cell_group ?a ?b] => change (get_cell_group a b) with (get_cell_group (Some (map int cg2)) (Some labels2)) in HG end.
  rewrite F2 in HG. cbn beta iota in HG. destruct HG as [_ HG].
  destruct (cell_place l j Hl Hj) as (n & k' & Hn' & _ & _ & H5).
  destruct (nth_error layer_names j) as [s|] eqn:Es; [|apply nth_error_None in Es; cbn in Es; lia].
  assert (HL : labelled (base_view flat_mesh) = Some (map int cg2, labels2)).
  { unfold labelled, base_view, flat_mesh, as_surface. cbn [gm_cg gm_labels sb_cg sb_labels].
    rewrite (lookup_NoDup _ _ _ FD F1). reflexivity. }
  apply HG in Hname. cbn [item_name depth_call ec_group] in Hn. inversion Hn as [cg' l' k0 E1 E2 E3|E1].
  - rewrite HL in E1. injection E1 as <- <-. f_equal. apply HG in Hname. apply HG in E2. rewrite E2 in Hname. congruence.
  - exfalso. exact (E1 _ _ _ HL Hname).
Qed.

Lemma base_flag_flat c : base_flag (41, 1, 14)%nat (ss_ghost (sb_surf flat_mesh)) c = flag_at (41, 1, 14)%nat (sg_ghost g2) c.
Proof.
  unfold flat_mesh, as_surface, base_flag. cbn [sb_surf ss_ghost]. destruct (sg_ghost g2) eqn:E; [|reflexivity].
  unfold flag_at, at_coord. now destruct (fidx _ _).
Qed.

Lemma solid_flags : measures_flat areas -> measures_slabs volumes ->
  forall i r l j, (i < 41)%nat -> (r < 10)%nat -> (l < 14)%nat -> layer_in sublayers l j ->
  (thickness (station i) j = 0 /\ thickness (station (i + 1)) j = 0 -> flag_at (41, 10, 14)%nat (sg_ghost g) (i, r, l) = 32%nat) /\
  (~ (thickness (station i) j = 0 /\ thickness (station (i + 1)) j = 0) -> flag_at (41, 10, 14)%nat (sg_ghost g) (i, r, l) = 0%nat).
Proof.
  intros Hflat Hslab i r l j Hi Hr Hl Hj. destruct solid_nodes as (Hd & _).
  destruct (sweep_ghosts num int Hint volumes Hvol (mk_options "" []) 1 (42, 1, 15)%nat ltac:(lia) flat_unit flat_mesh flat_wf
              [depth_call] _ _ depth_moves g labels H) as (_ & HG).
  rewrite Hd in HG. change (cell_shape (42, 11, 15)%nat) with (41, 10, 14)%nat in HG.
  destruct (HG (i, r, l)) as (q & v & n & pts & w & Hq & Hv & Hn & Hlen & HP & Hw & W0 & W1). { unfold in_shape; cbn; lia. }
  destruct q as [|[|q]]; try discriminate. injection Hv as <-. injection Hn as <-.
  cbn [firstn list_sum fold_right] in Hw. cbn [comp setc fst snd] in Hw. rewrite Nat.sub_0_r in Hw.
  change (setc 1 (S 10) (42, 1, 15)%nat) with (42, 11, 15)%nat in *.
  destruct (cell_place l j Hl Hj) as (n & k & Hn & Hk & El & H5).
  assert (Hn0 : (0 < n)%nat) by lia. apply lt_INR in Hn0. change (INR 0) with 0 in Hn0.
  set (Z u k' := horizon (station u) j + INR k' / INR n * (horizon (station u) (S j) - horizon (station u) j)).
  assert (HB : forall u s k', (u < 42)%nat -> (s < 11)%nat -> (k' <= n)%nat ->
     at_coord (42, 11, 15)%nat pts (u, s, list_sum (firstn j sublayers) + k')%nat = Some (station u, INR s * (628 / 1000), Z u k')).
  { intros u s k' Hu Hs Hk'.
    assert (Hl' : (list_sum (firstn j sublayers) + k' < 15)%nat).
    { clear - Hn Hk'. destruct j as [|[|[|[|[|j]]]]]; cbn in Hn; try (injection Hn as <-; cbn; lia). destruct j; discriminate. }
    rewrite (HP (u, s, list_sum (firstn j sublayers) + k')%nat (anticline_point (station u) j n k')).
    - f_equal. unfold moved, anticline_point, Z, vsum. cbn [fold_right firstn comp fst snd]. replace (INR 10) with 10 by (cbn; lra).
      apply injective_projections; [apply injective_projections|]; cbn [fst snd]; lra.
    - unfold in_shape; lia.
    - exact (flat_point u _ j n k' Hu Hn Hk' eq_refl). }
  assert (HZ : forall u, Z u (k + 1)%nat - Z u k = thickness (station u) j / INR n).
  { intros u. unfold Z, thickness. rewrite plus_INR. change (INR 1) with 1. field. lra. }
  assert (HT : forall u, 0 <= thickness (station u) j / INR n).
  { intros u. apply Rmult_le_pos; [now apply thick_pos|]. apply Rlt_le, Rinv_0_lt_compat. lra. }
  assert (HE : forall u, Z u k = Z u (k + 1)%nat <-> thickness (station u) j = 0).
  { intros u. pose proof (HZ u) as E. split; intros G.
    - assert (E' : thickness (station u) j = thickness (station u) j / INR n * INR n) by (field; lra). rewrite E', <- E, G. ring.
    - rewrite G in E. unfold Rdiv in E. rewrite Rmult_0_l in E. lra. }
  assert (HW : w = 0 <-> thickness (station i) j = 0 /\ thickness (station (i + 1)) j = 0).
  { rewrite <- (HE i), <- (HE (i + 1)%nat).
    apply (Hslab 42%nat 11%nat 15%nat pts i r l (station i) (station (i + 1)) (INR r * (628 / 1000)) (INR (r + 1) * (628 / 1000))); try lia.
    - apply station_step.
    - rewrite plus_INR. change (INR 1) with 1. lra.
    - pose proof (HZ i); pose proof (HT i); lra.
    - pose proof (HZ (i + 1)%nat); pose proof (HT (i + 1)%nat); lra.
    - intros s t Hst. assert (Es : t = INR s * (628 / 1000) /\ (s < 11)%nat) by (destruct Hst as [[-> ->]|[-> ->]]; split; auto; lia).
      destruct Es as [-> Hs]. rewrite El, <- Nat.add_assoc. repeat split; apply HB; lia.
    - exact Hw. }
  split; intros HF.
  - apply W0, HW, HF.
  - rewrite W1 by (intros E; apply HF, HW, E).
    change (cell_shape (42, 1, 15)%nat) with (41, 1, 14)%nat. change (setc 1 0 (i, r, l)%nat) with (i, 0, l)%nat. rewrite base_flag_flat.
    destruct (anticline_ghosts num int Hint areas Har arrays Harr _ station_len g2 labels2 js H2 Hflat i l j _ _
              (station_nth i ltac:(lia)) (station_nth (i + 1) ltac:(lia)) (station_step i) Hj Hl) as [_ A2].
    exact (A2 HF).
Qed.
End Load.
