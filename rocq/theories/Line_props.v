From Verif Require Import RealAux Perc_model Perc_spec Perc_proof Surface_model Surface_spec
  Volume_model Volume_spec SMerge_model SMerge_spec Groups_model Groups_spec
  Stack_model Stack_spec Stack3_proof Stack6_proof Final_model Final_spec Line_spec Line3_proof.
From Verif Require Unstr1_proof.
From Coq Require Import Lra.
Open Scope nat_scope.

(* two segments, one cell array, ghost flags and two groups *)
Definition lx_base (z : R) : lbase Z :=
  mkLbase (mkLine [(0, 0, z); (0, 1, z); (0, 3, z)]%R [0; 1; 2] [("p"%string, [1; 2; 3]%Z)] [("kh"%string, [7; 8]%Z)]
             (Some [0; 5]))
          2 (Some [0; 1]%Z) (Some [("sand"%string, 0%Z); ("clay"%string, 1%Z)]).
Definition lx_item (z : R) (group : group_arg nat) : item (lbase Z) :=
  mkItem (lx_base z) (ResInt 2) None 0%Z 0%R group false.
Definition lx_items : list (item (lbase Z)) := [lx_item 0 GNone; lx_item 1 GNone; lx_item 2 (GStr "top")].
Definition lx_pair : list (item (lbase Z)) := [lx_item 0 GNone; lx_item 1 GNone].
Definition lx_areas (dims : shape3) (_ : list pt) : list R := repeat 1%R (n_cells dims).

Lemma lx_len dims pts : length (lx_areas dims pts) = n_cells dims.
Proof. apply repeat_length. Qed.
Lemma lx_one dims pts c w : at_coord (cell_shape dims) (lx_areas dims pts) c = Some w -> w = 1%R.
Proof. intros H. apply nth_error_In, repeat_spec in H. exact H. Qed.

Lemma lx_wf z : wf_line 2 (lx_base z).
Proof.
  split; [lia|]. repeat (split; [reflexivity|]). split; [cbn; lia|].
  split; [cbn; constructor; [intros []|constructor]|].
  split; [|split; [|split]]; cbn.
  - intros k v [E|[]]. injection E as <- <-. reflexivity.
  - intros k v [E|[]]. injection E as <- <-. reflexivity.
  - intros g E. injection E as <-. reflexivity.
  - intros cg E. injection E as <-. reflexivity.
Qed.
Lemma lx_ok z group : (group = GNone \/ exists s, group = GStr s) ->
  it_trans (lx_item z group) = false /\ positions_span (lx_item z group) /\ group_by_name (lx_item z group).
Proof.
  intros Hg. split; [reflexivity|]. split; [|exact Hg].
  apply (int_spans (lx_item z group) Constant); [right; exists 2%Z; reflexivity|constructor].
Qed.
Lemma lx_all : Forall (fun i => wf_line 2 (it_mesh i)) lx_items /\
  Forall (fun it => it_trans it = false /\ positions_span it /\ group_by_name it) (tl lx_items).
Proof.
  split; [repeat (constructor; [apply lx_wf|]); constructor|]. constructor; [apply lx_ok; auto|].
  constructor; [apply lx_ok; eauto|constructor].
Qed.
Lemma lx_all2 : Forall (fun i => wf_line 2 (it_mesh i)) lx_pair /\
  Forall (fun it => it_trans it = false /\ positions_span it /\ group_by_name it) (tl lx_pair).
Proof.
  split; [repeat (constructor; [apply lx_wf|]); constructor|]. constructor; [apply lx_ok; auto|constructor].
Qed.
Lemma lx_trans : Forall (fun it => it_trans it = false) (tl lx_items).
Proof. repeat constructor. Qed.
Lemma lx_trans2 : Forall (fun it => it_trans it = false) (tl lx_pair).
Proof. repeat constructor. Qed.

(* C145: the points of the mesh returned by a stack of lines *)
Theorem C145_line_nodes :
  forall (D : Type) (num : Z -> D) (int : D -> Z) (Hint : forall z, int (num z) = z)
    (areas : shape3 -> list pt -> list R) (Har : forall dims pts, length (areas dims pts) = n_cells dims)
    o ax nc items g labels bu js,
  ax <= 2 ->
  Forall (fun i => wf_line nc (it_mesh i)) items ->
  Forall (fun it => it_trans it = false) (tl items) ->
  stack2d_mesh num int areas o ax bu items = Ok (g, labels, js) ->
  Forall2 (only_points (lops num)) items js /\
  exists nsubs, layer_counts (tl items) nsubs /\ lnodes_follow ax nc js nsubs g.
Proof.
  intros D num int Hint areas Har o ax nc items g labels bu js Hax Hw Ht H.
  destruct (line_final num int Hint areas Har ax Hax nc o bu items g labels js Hw Ht H) as (H0 & nsubs & H1 & H2 & _); eauto.
Qed.
Print Assumptions C145_line_nodes.

Theorem C145_line_defined :
  forall (D : Type) (num : Z -> D) (int : D -> Z) (Hint : forall z, int (num z) = z)
    (areas : shape3 -> list pt -> list R) (Har : forall dims pts, length (areas dims pts) = n_cells dims)
    o ax nc bu items,
  ax <= 2 -> 2 <= length items ->
  Forall (fun i => wf_line nc (it_mesh i)) items ->
  Forall (fun it => it_trans it = false /\ positions_span it /\ group_by_name it) (tl items) ->
  exists g labels js, stack2d_mesh num int areas o ax bu items = Ok (g, labels, js).
Proof.
  intros D num int Hint areas Har o ax nc bu items Hax H2 Hw Ht.
  eapply line_mesh_defined; eauto.
Qed.
Print Assumptions C145_line_defined.

Lemma lx_perc p : resolution_to_perc (ResInt 2) None = Ok p -> length p = 3.
Proof.
  intros Hp. destruct (perc_proper 2 None Constant) as (p' & Hp' & L & _); [constructor|].
  rewrite Hp' in Hp. apply Ok_inj in Hp. subst p. exact L.
Qed.
Lemma lx_counts ns : layer_counts (tl lx_items) ns -> ns = [2; 2].
Proof.
  intros [L HC]. destruct ns as [|m1 [|m2 [|]]]; cbn in L; try lia.
  destruct (HC 0 _ eq_refl) as (m & E & p & Hp & ->). injection E as ->. rewrite (lx_perc _ Hp).
  destruct (HC 1 _ eq_refl) as (m & E & p' & Hp' & ->). injection E as ->. rewrite (lx_perc _ Hp').
  reflexivity.
Qed.
Lemma lx_counts2 ns : layer_counts (tl lx_pair) ns -> ns = [2].
Proof.
  intros [L HC]. destruct ns as [|m1 [|]]; cbn in L; try lia.
  destruct (HC 0 _ eq_refl) as (m & E & p & Hp & ->). injection E as ->. rewrite (lx_perc _ Hp).
  reflexivity.
Qed.
Lemma lx_mesh ax : ax <= 2 -> exists g labels js, stack2d_mesh zz zz lx_areas cx_opt ax true lx_items = Ok (g, labels, js).
Proof.
  intros Hax. destruct lx_all as [H1 H2].
  apply (C145_line_defined Z zz zz (fun z => eq_refl) lx_areas lx_len cx_opt ax 2 true lx_items); auto. cbn; lia.
Qed.
Lemma lx_mesh2 ax : ax <= 2 -> exists g labels js, stack2d_mesh zz zz lx_areas cx_opt ax true lx_pair = Ok (g, labels, js).
Proof.
  intros Hax. destruct lx_all2 as [H1 H2].
  apply (C145_line_defined Z zz zz (fun z => eq_refl) lx_areas lx_len cx_opt ax 2 true lx_pair); auto.
Qed.

(* three lines stacked upwards: three columns of five points *)
Example C145_example : exists g labels js, stack2d_mesh zz zz lx_areas cx_opt 2 true lx_items = Ok (g, labels, js) /\
  sg_dims g = (3, 1, 5) /\ length (sg_pts g) = 15.
Proof.
  destruct (lx_mesh 2 (le_n 2)) as (g & labels & js & H). exists g, labels, js. split; [exact H|].
  destruct (C145_line_nodes Z zz zz (fun z => eq_refl) lx_areas lx_len cx_opt 2 2 lx_items g labels true js
    (le_n 2) (proj1 lx_all) lx_trans H) as (_ & nsubs & HL & Hd & Hp & _).
  rewrite (lx_counts _ HL) in Hd, Hp. auto.
Qed.

(* C146: groups, ghost flags, cell arrays and identifiers of a stack of lines along y or z *)
Theorem C146_line_cells_partial :
  forall (D : Type) (num : Z -> D) (int : D -> Z) (Hint : forall z, int (num z) = z)
    (areas : shape3 -> list pt -> list R) (Har : forall dims pts, length (areas dims pts) = n_cells dims)
    o ax nc items g labels bu js,
  1 <= ax <= 2 ->
  Forall (fun i => wf_line nc (it_mesh i)) items ->
  Forall (fun it => it_trans it = false) (tl items) ->
  stack2d_mesh num int areas o ax bu items = Ok (g, labels, js) ->
  exists nsubs, layer_counts (tl items) nsubs /\
    lgroups_follow own_seg int o ax nc items nsubs g labels /\
    lghosts_follow own_seg areas ax nc js nsubs g /\
    lcells_follow own_seg ax nc items nsubs g /\
    lids_follow own_seg own_lev num ax nc nsubs g.
Proof.
  intros D num int Hint areas Har o ax nc items g labels bu js [Hax1 Hax] Hw Ht H.
  destruct (line_final num int Hint areas Har ax Hax nc o bu items g labels js Hw Ht H) as (_ & nsubs & H1 & _ & H2).
  exists nsubs. split; [exact H1|]. unfold cell_seg, cell_lev in H2. destruct ax; [lia|exact H2].
Qed.
Print Assumptions C146_line_cells_partial.

(* along z the array of the lines is found in the mesh, with the value of the column *)
Example C146_example : exists g labels js x col, stack2d_mesh zz zz lx_areas cx_opt 2 true lx_items = Ok (g, labels, js) /\
  In ("kh"%string, x) (sg_cd g) /\ at_coord (2, 1, 4) x (1, 0, 3) = Some 8%Z /\
  In ("ColumnId"%string, col) (sg_cd g) /\ at_coord (2, 1, 4) col (1, 0, 3) = Some 1%Z.
Proof.
  destruct (lx_mesh 2 (le_n 2)) as (g & labels & js & H).
  destruct (C145_line_nodes Z zz zz (fun z => eq_refl) lx_areas lx_len cx_opt 2 2 lx_items g labels true js
    (le_n 2) (proj1 lx_all) lx_trans H) as (_ & nsubs0 & HL0 & Hd & _).
  destruct (C146_line_cells_partial Z zz zz (fun z => eq_refl) lx_areas lx_len cx_opt 2 2 lx_items g labels true js
    ltac:(lia) (proj1 lx_all) lx_trans H) as (nsubs & HL & _ & _ & (HK & HC) & (col & lay & itm & Hcol & _ & _ & HI)).
  rewrite (lx_counts _ HL0) in Hd. cbn in Hd. rewrite (lx_counts _ HL) in *.
  assert (HB : forall j a, nth_error lx_items j = Some a -> ln_cd (lb_line (it_mesh a)) = [("kh"%string, [7; 8]%Z)]).
  { intros [|[|[|j]]] a Ha; try (injection Ha as <-; reflexivity). destruct j; discriminate. }
  assert (Hin : In "kh"%string (map fst (sg_cd g))).
  { apply HK. right. intros j a b Ha Hb. rewrite (HB j a Ha). cbn; auto. }
  apply in_map_iff in Hin as ([k x] & Ek & Hx). cbn in Ek. subst k.
  exists g, labels, js, x, col. split; [exact H|]. split; [exact Hx|].
  destruct (HC _ _ Hx) as [_ Hc]. { cbn. intuition discriminate. }
  rewrite Hd in *. destruct (Hc 1 3) as (j & ns & a & v & Hj & Hns & Ha & Hv & E); [lia|cbn; lia|].
  destruct (HI 1 3) as (j' & ns' & Hj' & Hns' & E' & _); [lia|cbn; lia|].
  rewrite (HB j a Ha) in Hv. destruct Hv as [Ev|[]]. injection Ev as <-. auto.
Qed.

(* along x the arrays of the lines are read in the wrong order *)
Theorem C146_line_cells_along_x :
  forall (D : Type) (num : Z -> D) (int : D -> Z) (Hint : forall z, int (num z) = z)
    (areas : shape3 -> list pt -> list R) (Har : forall dims pts, length (areas dims pts) = n_cells dims)
    o nc items g labels bu js,
  Forall (fun i => wf_line nc (it_mesh i)) items ->
  Forall (fun it => it_trans it = false) (tl items) ->
  stack2d_mesh num int areas o 0 bu items = Ok (g, labels, js) ->
  exists nsubs, layer_counts (tl items) nsubs /\
    lgroups_follow (swapped_seg nc) int o 0 nc items nsubs g labels /\
    lghosts_follow (swapped_seg nc) areas 0 nc js nsubs g /\
    lcells_follow (swapped_seg nc) 0 nc items nsubs g /\
    lids_follow (swapped_seg nc) (swapped_lev nc) num 0 nc nsubs g.
Proof.
  intros D num int Hint areas Har o nc items g labels bu js Hw Ht H.
  destruct (line_final num int Hint areas Har 0 (Nat.le_0_l 2) nc o bu items g labels js Hw Ht H) as (_ & nsubs & H1 & _ & H2).
  eauto.
Qed.
Print Assumptions C146_line_cells_along_x.

Lemma lx_base_name c k y : c = 0 /\ y = "sand"%string \/ c = 1 /\ y = "clay"%string ->
  item_name cx_opt (lbase_view (lx_base 0)) GNone c k -> k = y.
Proof.
  intros Hx Hn. inversion Hn as [cg' labels' k'' El (v & Hv & Hin) Hi|Hall E'].
  - cbn in El. injection El as <- <-.
    destruct Hx as [(-> & ->)|(-> & ->)]; cbn in Hv; injection Hv as <-; cbn in Hin;
      destruct Hin as [E'|[E'|[]]]; congruence.
  - exfalso. eapply (Hall [0; 1]%Z _ y); [reflexivity|].
    exists (if c =? 0 then 0%Z else 1%Z). destruct Hx as [(-> & ->)|(-> & ->)]; (split; [reflexivity|]); cbn; auto.
Qed.

Lemma layer0 j : layer_in [2] 1 j -> j = 0.
Proof. intros Hj. destruct j; [reflexivity|]. unfold layer_in in Hj. cbn in Hj. rewrite firstn_nil in Hj. cbn in Hj. lia. Qed.

(* two items along x: the second cell of the first column has the name, the value and the column of the
   other segment *)
Theorem C146_line_cells_refuted :
  exists (items : list (item (lbase Z))) g labels js nsubs,
    Forall (fun i => wf_line 2 (it_mesh i)) items /\
    Forall (fun it => it_trans it = false) (tl items) /\
    stack2d_mesh zz zz lx_areas cx_opt 0 true items = Ok (g, labels, js) /\
    layer_counts (tl items) nsubs /\
    ~ lgroups_follow own_seg zz cx_opt 0 2 items nsubs g labels /\
    ~ lghosts_follow own_seg lx_areas 0 2 js nsubs g /\
    ~ lcells_follow own_seg 0 2 items nsubs g /\
    ~ lids_follow own_seg own_lev zz 0 2 nsubs g.
Proof.
  destruct (lx_mesh2 0 (Nat.le_0_l 2)) as (g & labels & js & H).
  destruct (C146_line_cells_along_x Z zz zz (fun z => eq_refl) lx_areas lx_len cx_opt 2 lx_pair g labels true js
    (proj1 lx_all2) lx_trans2 H) as (nsubs & HL & HG & HH & HC & HI).
  pose proof (lx_counts2 _ HL). subst nsubs.
  exists lx_pair, g, labels, js, [2]. split; [apply lx_all2|]. split; [exact lx_trans2|]. split; [exact H|]. split; [exact HL|].
  destruct HG as (Hnu & Hnd & cg & names & Hcg & Hgc & _ & _ & HG).
  split; [|split; [|split]].
  - intros (_ & _ & cg' & names' & Hcg' & Hgc' & _ & _ & HG').
    rewrite (Unstr1_proof.NoDup_fst_fun _ _ _ _ Hnd Hcg Hcg') in Hgc. rewrite Hgc in Hgc'. injection Hgc' as <-.
    destruct (HG 0 1) as (j & ns & a & b & k & Hj & Hns & Ha & Hb & E & Hn); [lia|cbn; lia|].
    destruct (HG' 0 1) as (j' & ns' & a' & b' & k' & Hj' & Hns' & Ha' & Hb' & E' & Hn'); [lia|cbn; lia|].
    rewrite E in E'. injection E' as <-.
    apply layer0 in Hj, Hj'. subst j j'. injection Hns as <-. injection Ha as <-. injection Hb as <-.
    injection Hns' as <-. injection Ha' as <-. injection Hb' as <-.
    pose proof (lx_base_name 1 k "clay" ltac:(auto) Hn). pose proof (lx_base_name 0 k "sand" ltac:(auto) Hn'). congruence.
  - intros (_ & HH'). destruct HH as (_ & HH).
    destruct (HH 0 1) as (j & ns & a & b & perc & pts & w & Hj & Hns & Ha & Hb & Hp & Hs & Hw0 & _ & Hf); [lia|cbn; lia|].
    destruct (HH' 0 1) as (j' & ns' & a' & b' & perc' & pts' & w' & Hj' & Hns' & Ha' & Hb' & Hp' & Hs' & Hw0' & _ & Hf'); [lia|cbn; lia|].
    apply layer0 in Hj, Hj'. subst j j'. injection Hns as <-. injection Hns' as <-. rewrite Ha in Ha'. injection Ha' as <-.
    apply lx_one in Hw0, Hw0'. subst w w'. specialize (Hf ltac:(lra)). specialize (Hf' ltac:(lra)). rewrite Hf in Hf'.
    revert Hf'.
    assert (Eg : ln_ghost (lb_line (it_mesh a)) = Some [0; 5]); [|rewrite Eg; cbn; discriminate].
    destruct (C145_line_nodes Z zz zz (fun z => eq_refl) lx_areas lx_len cx_opt 0 2 lx_pair g labels true js
      (Nat.le_0_l 2) (proj1 lx_all2) lx_trans2 H) as (HF & _).
    destruct js as [|j1 js']; [discriminate Ha|]. injection Ha as ->.
    assert (Ho : only_points (lops zz) (lx_item 0 GNone) a) by (inversion HF; assumption).
    destruct Ho as (Em & _). rewrite Em. reflexivity.
  - intros (HK & HC'). destruct HC as (_ & HC).
    assert (Hin : In "kh"%string (map fst (sg_cd g))).
    { apply HK. right. intros [|[|j]] a b Ha Hb; try discriminate; injection Ha as <-; cbn; auto. }
    apply in_map_iff in Hin as ([k x] & Ek & Hx). cbn in Ek. subst k.
    destruct (HC _ _ Hx) as [_ H1]. { cbn. intuition discriminate. }
    destruct (HC' _ _ Hx) as [_ H2]. { cbn. intuition discriminate. }
    destruct (H1 0 1) as (j & ns & a & v & Hj & Hns & Ha & Hv & E); [lia|cbn; lia|].
    destruct (H2 0 1) as (j' & ns' & a' & v' & Hj' & Hns' & Ha' & Hv' & E'); [lia|cbn; lia|].
    apply layer0 in Hj, Hj'. subst j j'. injection Hns as <-. injection Ha as <-. injection Hns' as <-. injection Ha' as <-.
    destruct Hv as [Ev|[]]. injection Ev as <-. destruct Hv' as [Ev|[]]. injection Ev as <-.
    rewrite E in E'. discriminate.
  - intros (col' & lay' & itm' & Hc' & _ & _ & H2). destruct HI as (col & lay & itm & Hc & _ & _ & H1).
    rewrite <- (Unstr1_proof.NoDup_fst_fun _ _ _ _ Hnd Hc Hc') in H2.
    destruct (H1 0 1) as (j & ns & Hj & Hns & E & _); [lia|cbn; lia|].
    destruct (H2 0 1) as (j' & ns' & Hj' & Hns' & E' & _); [lia|cbn; lia|].
    apply layer0 in Hj, Hj'. subst j j'. injection Hns as <-. injection Hns' as <-.
    rewrite E in E'. discriminate.
Qed.
Print Assumptions C146_line_cells_refuted.
