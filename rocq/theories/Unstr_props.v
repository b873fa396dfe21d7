From Verif Require Import RealAux Perc_model Perc_spec Perc_proof Surface_model Surface_spec
  Volume_model Volume_spec UVol3_proof SMerge_model SMerge_spec Groups_model Groups_spec
  Stack_model Stack_spec Stack3_proof Stack6_proof Final_model Final_spec Unstr_model Unstr_spec Unstr3_proof Unstr4_proof.
From Coq Require Import Lra.
Open Scope nat_scope.

(* a square and a triangle, one cell array and two groups; the last two surfaces coincide *)
Definition ux_surf (z : R) : usurf Z :=
  mkUsurf [(0, 0, z); (1, 0, z); (1, 1, z); (0, 1, z); (2, 0, z)]%R [(9, [0; 1; 2; 3]); (5, [1; 4; 2])]
    [] [("kh"%string, [7; 8]%Z)] None.
Definition ux_base (z : R) : ubase Z :=
  mkUbase (ux_surf z) (Some [0; 1]%Z) (Some [("sand"%string, 0%Z); ("clay"%string, 1%Z)]).
Definition ux_item (z : R) (group : group_arg nat) : item (ubase Z) :=
  mkItem (ux_base z) (ResInt 2) None 0%Z 0%R group false.
Definition ux_items : list (item (ubase Z)) := [ux_item 0 GNone; ux_item 1 GNone; ux_item 1 (GStr "top")].
Definition ux_keep : uvol Z -> uvol Z := fun g => g.

Lemma ux_regular z : regular_ubase 5 [9; 5] (ux_base z).
Proof.
  split; [split; [|split]|].
  - intros cg [= <-]. reflexivity.
  - cbn. constructor; [intros []|constructor].
  - cbn. intros base x [ <- | [ <- | [] ] ] Hx; cbn in Hx; lia.
  - split; [discriminate|]. split; [reflexivity|]. split; [reflexivity|]. split; [|split; [|split]]; cbn.
    + intros ct ids [[= <- <-]|[[= <- <-]|[]]]; auto.
    + intros k x [].
    + intros k x [[= <- <-]|[]]. reflexivity.
    + discriminate.
Qed.
Lemma ux_ok z group : (group = GNone \/ exists s, group = GStr s) ->
  it_trans (ux_item z group) = false /\ positions_span (ux_item z group) /\ group_by_name (ux_item z group).
Proof.
  intros Hg. split; [reflexivity|]. split; [|exact Hg].
  apply (int_spans (ux_item z group) Constant); [right; exists 2%Z; reflexivity|constructor].
Qed.
Lemma ux_all : Forall (fun i => regular_ubase 5 [9; 5] (it_mesh i)) ux_items /\
  Forall (fun it => it_trans it = false /\ positions_span it /\ group_by_name it) (tl ux_items).
Proof.
  split; [repeat (constructor; [apply ux_regular|]); constructor|]. constructor; [apply ux_ok; auto|].
  constructor; [apply ux_ok; eauto|constructor].
Qed.
Lemma ux_wf : Forall (fun i => wf_ubase (it_mesh i)) ux_items.
Proof. eapply Forall_impl; [|exact (proj1 ux_all)]. cbn. intros i H. apply H. Qed.
Lemma ux_trans : Forall (fun it => it_trans it = false) (tl ux_items).
Proof. repeat constructor. Qed.
Lemma ux_points i : In i ux_items -> length (us_pts (ub_surf (it_mesh i))) = 5.
Proof. intros [ <- | [ <- | [ <- | [] ] ] ]; reflexivity. Qed.
Lemma ux_total bs : 2 <= length bs -> exists g : uvol Z, append_blocks bs = Ok g.
Proof. intros H. destruct bs as [|b bs]; [cbn in H; lia|]. cbn. eauto. Qed.

(* C141: the cells of the returned mesh *)
Theorem C141_stack_cells :
  forall (D : Type) (num : Z -> D) (int : D -> Z) (Hint : forall z, int (num z) = z) o tol clean pvmerge
    ax bu invert items g labels js np,
  cleans tol clean -> appends pvmerge ->
  (forall i, In i items -> length (us_pts (ub_surf (it_mesh i))) = np) ->
  Forall (fun i => wf_ubase (it_mesh i)) items ->
  Forall (fun it => it_trans it = false) (tl items) ->
  stack3d_umesh num int o ax bu invert pvmerge clean items = Ok (g, labels, js) ->
  exists nsubs place, layer_counts (tl items) nsubs /\ placed js nsubs place /\
    identified num "StackItem" nsubs place g /\ extruded_cells invert tol js place g.
Proof.
  intros D num int Hint o tol clean pvmerge ax bu invert items g labels js np Hc Hm Hnp Hw Ht H.
  destruct (stack_umesh_final num int Hint o tol clean Hc pvmerge Hm _ _ _ _ _ _ _ _ Hnp Hw Ht H)
    as (nsubs & place & ? & ? & ? & ? & _). exists nsubs, place. auto.
Qed.
Print Assumptions C141_stack_cells.

Theorem C141_extrude_cells :
  forall (D : Type) (num : Z -> D) (int : D -> Z) (Hint : forall z, int (num z) = z) o tol clean pvmerge
    items g labels,
  cleans tol clean -> appends pvmerge ->
  Forall (fun i => wf_ubase (it_mesh i)) items ->
  Forall (fun it => it_trans it = false) (tl items) ->
  extrude_umesh num int o pvmerge clean items = Ok (g, labels) ->
  exists nsubs place, layer_counts (tl items) nsubs /\ placed items nsubs place /\
    identified num "ExtrudeItem" nsubs place g /\ extruded_cells true tol items place g.
Proof.
  intros D num int Hint o tol clean pvmerge items g labels Hc Hm Hw Ht H.
  destruct (extrude_umesh_final num int Hint o tol clean Hc pvmerge Hm _ _ _ Hw Ht H)
    as (nsubs & place & ? & ? & ? & ? & _). exists nsubs, place. auto.
Qed.
Print Assumptions C141_extrude_cells.

(* the mesh exists when the surfaces are alike, the groups are given by name and pv.merge succeeds *)
Theorem C141_stack_defined :
  forall (D : Type) (num : Z -> D) (int : D -> Z) (Hint : forall z, int (num z) = z) o tol clean pvmerge
    ax bu invert np types items,
  cleans tol clean -> appends pvmerge ->
  2 <= length items ->
  Forall (fun i => regular_ubase np types (it_mesh i)) items ->
  Forall (fun it => it_trans it = false /\ positions_span it /\ group_by_name it) (tl items) ->
  (forall bs, 2 <= length bs -> exists g, pvmerge bs = Ok g) ->
  exists g labels js, stack3d_umesh num int o ax bu invert pvmerge clean items = Ok (g, labels, js).
Proof.
  intros D num int Hint o tol clean pvmerge ax bu invert np types items Hc Hm.
  exact (stack_umesh_defined num int Hint o tol clean Hc pvmerge Hm ax bu invert np types items).
Qed.
Print Assumptions C141_stack_defined.

Theorem C141_extrude_defined :
  forall (D : Type) (num : Z -> D) (int : D -> Z) (Hint : forall z, int (num z) = z) o tol clean pvmerge
    np types items,
  cleans tol clean -> appends pvmerge ->
  2 <= length items ->
  Forall (fun i => regular_ubase np types (it_mesh i)) items ->
  Forall (fun it => it_trans it = false /\ positions_span it /\ group_by_name it) (tl items) ->
  (forall bs, 2 <= length bs -> exists g, pvmerge bs = Ok g) ->
  exists g labels, extrude_umesh num int o pvmerge clean items = Ok (g, labels).
Proof.
  intros D num int Hint o tol clean pvmerge np types items Hc Hm.
  exact (extrude_umesh_defined num int Hint o tol clean Hc pvmerge Hm np types items).
Qed.
Print Assumptions C141_extrude_defined.

Lemma ux_extrude : exists g labels, extrude_umesh zz zz cx_opt append_blocks ux_keep ux_items = Ok (g, labels).
Proof.
  destruct ux_all as [H1 H2].
  apply (C141_extrude_defined Z zz zz (fun z => eq_refl) cx_opt 0 ux_keep append_blocks 5 [9; 5] ux_items);
    auto using append_blocks_appends, ux_total.
  - apply keep_cleans. lra.
  - cbn; lia.
Qed.
Example C141_stack_example : exists g labels js,
  stack3d_umesh zz zz cx_opt 2 true true append_blocks ux_keep ux_items = Ok (g, labels, js).
Proof.
  destruct ux_all as [H1 H2].
  apply (C141_stack_defined Z zz zz (fun z => eq_refl) cx_opt 0 ux_keep append_blocks 2 true true 5 [9; 5] ux_items);
    auto using append_blocks_appends, ux_total.
  - apply keep_cleans. lra.
  - cbn; lia.
Qed.

Lemma ux_perc p : resolution_to_perc (ResInt 2) None = Ok p -> length p = 3.
Proof.
  intros Hp. destruct (perc_proper 2 None Constant) as (p' & Hp' & L & _); [constructor|].
  rewrite Hp' in Hp. apply Ok_inj in Hp. subst p. exact L.
Qed.
Lemma ux_counts ns : layer_counts (tl ux_items) ns -> ns = [2; 2].
Proof.
  intros [L HC]. destruct ns as [|m1 [|m2 [|]]]; cbn in L; try lia.
  destruct (HC 0 _ eq_refl) as (m & E & p & Hp & ->). injection E as ->. rewrite (ux_perc _ Hp).
  destruct (HC 1 _ eq_refl) as (m & E & p' & Hp' & ->). injection E as ->. rewrite (ux_perc _ Hp').
  reflexivity.
Qed.
Lemma ux_place nsubs place j l c : layer_counts (tl ux_items) nsubs -> placed ux_items nsubs place ->
  j < 2 -> l < 2 -> c < 2 -> exists i, nth_error place i = Some (j, l, c).
Proof.
  intros HL [_ HP] Hj Hl Hc. apply In_nth_error. apply HP. rewrite (ux_counts _ HL).
  destruct j as [|[|j]]; try lia; exists 2; [exists (ux_item 0 GNone)|exists (ux_item 1 GNone)]; auto.
Qed.

(* the triangle in the second layer of the first item is a wedge *)
Example C141_example : exists g labels cells i ids, extrude_umesh zz zz cx_opt append_blocks ux_keep ux_items = Ok (g, labels) /\
  cells_of g cells /\ nth_error cells i = Some (Plain 13 ids) /\ length ids = 6.
Proof.
  destruct ux_extrude as (g & labels & H).
  destruct (C141_extrude_cells Z zz zz (fun z => eq_refl) cx_opt 0 ux_keep append_blocks ux_items g labels)
    as (nsubs & place & HL & HP & _ & cells & Hc & _ & HC); auto using append_blocks_appends, ux_wf, ux_trans.
  { apply keep_cleans. lra. }
  destruct (ux_place nsubs place 0 1 1 HL HP) as (i & Hi); try lia.
  destruct (HC i 0 1 1 Hi) as (a & b & perc & base & cell & f & Ha & Hb & _ & Hbase & Hext & Hcell & _).
  injection Ha as <-. injection Hbase as <-. inversion Hext; subst.
  exists g, labels, cells, i. eexists. split; [exact H|]. split; [exact Hc|]. split; [exact Hcell|]. reflexivity.
Qed.

(* C142: the groups of the returned mesh *)
Theorem C142_stack_groups :
  forall (D : Type) (num : Z -> D) (int : D -> Z) (Hint : forall z, int (num z) = z) o tol clean pvmerge
    ax bu invert items g labels js np,
  cleans tol clean -> appends pvmerge ->
  (forall i, In i items -> length (us_pts (ub_surf (it_mesh i))) = np) ->
  Forall (fun i => wf_ubase (it_mesh i)) items ->
  Forall (fun it => it_trans it = false) (tl items) ->
  stack3d_umesh num int o ax bu invert pvmerge clean items = Ok (g, labels, js) ->
  exists nsubs place, layer_counts (tl items) nsubs /\ placed js nsubs place /\
    identified num "StackItem" nsubs place g /\ ugroups_follow int o js place g labels.
Proof.
  intros D num int Hint o tol clean pvmerge ax bu invert items g labels js np Hc Hm Hnp Hw Ht H.
  destruct (stack_umesh_final num int Hint o tol clean Hc pvmerge Hm _ _ _ _ _ _ _ _ Hnp Hw Ht H)
    as (nsubs & place & ? & ? & ? & ? & ? & _). exists nsubs, place. auto.
Qed.
Print Assumptions C142_stack_groups.

Theorem C142_extrude_groups :
  forall (D : Type) (num : Z -> D) (int : D -> Z) (Hint : forall z, int (num z) = z) o tol clean pvmerge
    items g labels,
  cleans tol clean -> appends pvmerge ->
  Forall (fun i => wf_ubase (it_mesh i)) items ->
  Forall (fun it => it_trans it = false) (tl items) ->
  extrude_umesh num int o pvmerge clean items = Ok (g, labels) ->
  exists nsubs place, layer_counts (tl items) nsubs /\ placed items nsubs place /\
    identified num "ExtrudeItem" nsubs place g /\ ugroups_follow int o items place g labels.
Proof.
  intros D num int Hint o tol clean pvmerge items g labels Hc Hm Hw Ht H.
  destruct (extrude_umesh_final num int Hint o tol clean Hc pvmerge Hm _ _ _ Hw Ht H)
    as (nsubs & place & ? & ? & ? & ? & ? & _). exists nsubs, place. auto.
Qed.
Print Assumptions C142_extrude_groups.

(* some cell of the example is in group "top" *)
Example C142_example : exists g labels cg names, extrude_umesh zz zz cx_opt append_blocks ux_keep ux_items = Ok (g, labels) /\
  In ("CellGroup"%string, cg) (uv_cd g) /\ get_cell_group (Some (map zz cg)) (Some labels) = Ok (Some (inl names)) /\
  In "top"%string names /\ In "top"%string (map fst labels).
Proof.
  destruct ux_extrude as (g & labels & H).
  destruct (C142_extrude_groups Z zz zz (fun z => eq_refl) cx_opt 0 ux_keep append_blocks ux_items g labels)
    as (nsubs & place & HL & HP & _ & _ & _ & cg & names & Hcg & Hn & _ & Hk & HI);
    auto using append_blocks_appends, ux_wf, ux_trans.
  { apply keep_cleans. lra. }
  destruct (ux_place nsubs place 1 0 0 HL HP) as (i & Hi); try lia.
  destruct (HI i 1 0 0 Hi) as (a & b & k & Ha & Hb & Hik & HN).
  injection Ha as <-. injection Hb as <-. destruct HN as (_ & _ & HN). rewrite HN in Hik.
  - exists g, labels, cg, names. repeat (split; [assumption|]).
    split; [|apply Hk]; eapply nth_error_In; eauto.
  - discriminate.
  - intros s' E. discriminate.
Qed.

(* C143: the ghost cells of the returned mesh *)
Theorem C143_stack_ghosts :
  forall (D : Type) (num : Z -> D) (int : D -> Z) (Hint : forall z, int (num z) = z) o tol clean pvmerge
    ax bu invert items g labels js np,
  cleans tol clean -> appends pvmerge ->
  (forall i, In i items -> length (us_pts (ub_surf (it_mesh i))) = np) ->
  Forall (fun i => wf_ubase (it_mesh i)) items ->
  Forall (fun it => it_trans it = false) (tl items) ->
  stack3d_umesh num int o ax bu invert pvmerge clean items = Ok (g, labels, js) ->
  exists nsubs place, layer_counts (tl items) nsubs /\ placed js nsubs place /\
    identified num "StackItem" nsubs place g /\ ughosts_follow js place g /\ coincident_flagged js place g.
Proof.
  intros D num int Hint o tol clean pvmerge ax bu invert items g labels js np Hc Hm Hnp Hw Ht H.
  destruct (stack_umesh_final num int Hint o tol clean Hc pvmerge Hm _ _ _ _ _ _ _ _ Hnp Hw Ht H)
    as (nsubs & place & ? & ? & ? & ? & ? & HG & _). pose proof (coincident _ _ _ HG). exists nsubs, place. auto.
Qed.
Print Assumptions C143_stack_ghosts.

Theorem C143_extrude_ghosts :
  forall (D : Type) (num : Z -> D) (int : D -> Z) (Hint : forall z, int (num z) = z) o tol clean pvmerge
    items g labels,
  cleans tol clean -> appends pvmerge ->
  Forall (fun i => wf_ubase (it_mesh i)) items ->
  Forall (fun it => it_trans it = false) (tl items) ->
  extrude_umesh num int o pvmerge clean items = Ok (g, labels) ->
  exists nsubs place, layer_counts (tl items) nsubs /\ placed items nsubs place /\
    identified num "ExtrudeItem" nsubs place g /\ ughosts_follow items place g /\ coincident_flagged items place g.
Proof.
  intros D num int Hint o tol clean pvmerge items g labels Hc Hm Hw Ht H.
  destruct (extrude_umesh_final num int Hint o tol clean Hc pvmerge Hm _ _ _ Hw Ht H)
    as (nsubs & place & ? & ? & ? & ? & ? & HG & _). pose proof (coincident _ _ _ HG). exists nsubs, place. auto.
Qed.
Print Assumptions C143_extrude_ghosts.

(* the item between the coinciding surfaces is flagged *)
Example C143_example : exists g labels i, extrude_umesh zz zz cx_opt append_blocks ux_keep ux_items = Ok (g, labels) /\
  flag_of (uv_ghost g) i = 32.
Proof.
  destruct ux_extrude as (g & labels & H).
  destruct (C143_extrude_ghosts Z zz zz (fun z => eq_refl) cx_opt 0 ux_keep append_blocks ux_items g labels)
    as (nsubs & place & HL & HP & _ & _ & HG);
    auto using append_blocks_appends, ux_wf, ux_trans.
  { apply keep_cleans. lra. }
  destruct (ux_place nsubs place 1 1 0 HL HP) as (i & Hi); try lia.
  exists g, labels, i. split; [exact H|]. apply (HG i 1 1 0 (ux_item 1 GNone) (ux_item 1 (GStr "top")) (9, [0; 1; 2; 3]) Hi); reflexivity.
Qed.

(* C144: the cell arrays of the returned mesh *)
Theorem C144_stack_cell_data :
  forall (D : Type) (num : Z -> D) (int : D -> Z) (Hint : forall z, int (num z) = z) o tol clean pvmerge
    ax bu invert items g labels js np,
  cleans tol clean -> appends pvmerge ->
  (forall i, In i items -> length (us_pts (ub_surf (it_mesh i))) = np) ->
  Forall (fun i => wf_ubase (it_mesh i)) items ->
  Forall (fun it => it_trans it = false) (tl items) ->
  stack3d_umesh num int o ax bu invert pvmerge clean items = Ok (g, labels, js) ->
  exists nsubs place, layer_counts (tl items) nsubs /\ placed js nsubs place /\
    identified num "StackItem" nsubs place g /\ ucells_follow "StackItem" js place g.
Proof.
  intros D num int Hint o tol clean pvmerge ax bu invert items g labels js np Hc Hm Hnp Hw Ht H.
  destruct (stack_umesh_final num int Hint o tol clean Hc pvmerge Hm _ _ _ _ _ _ _ _ Hnp Hw Ht H)
    as (nsubs & place & ? & ? & ? & ? & ? & ? & ?). exists nsubs, place. auto.
Qed.
Print Assumptions C144_stack_cell_data.

Theorem C144_extrude_cell_data :
  forall (D : Type) (num : Z -> D) (int : D -> Z) (Hint : forall z, int (num z) = z) o tol clean pvmerge
    items g labels,
  cleans tol clean -> appends pvmerge ->
  Forall (fun i => wf_ubase (it_mesh i)) items ->
  Forall (fun it => it_trans it = false) (tl items) ->
  extrude_umesh num int o pvmerge clean items = Ok (g, labels) ->
  exists nsubs place, layer_counts (tl items) nsubs /\ placed items nsubs place /\
    identified num "ExtrudeItem" nsubs place g /\ ucells_follow "ExtrudeItem" items place g.
Proof.
  intros D num int Hint o tol clean pvmerge items g labels Hc Hm Hw Ht H.
  destruct (extrude_umesh_final num int Hint o tol clean Hc pvmerge Hm _ _ _ Hw Ht H)
    as (nsubs & place & ? & ? & ? & ? & ? & ? & ?). exists nsubs, place. auto.
Qed.
Print Assumptions C144_extrude_cell_data.

(* the array of the base meshes is in the result *)
Example C144_example : exists g labels x i, extrude_umesh zz zz cx_opt append_blocks ux_keep ux_items = Ok (g, labels) /\
  In ("kh"%string, x) (uv_cd g) /\ length x = 8 /\ nth_error x i = Some 8%Z.
Proof.
  destruct ux_extrude as (g & labels & H).
  destruct (C144_extrude_cell_data Z zz zz (fun z => eq_refl) cx_opt 0 ux_keep append_blocks ux_items g labels)
    as (nsubs & place & HL & HP & _ & HK & HV);
    auto using append_blocks_appends, ux_wf, ux_trans.
  { apply keep_cleans. lra. }
  assert (Hin : In "kh"%string (map fst (uv_cd g))).
  { apply HK. right. intros [|[|[|j]]] a b Ha Hb; cbn in Ha, Hb; try discriminate.
    - injection Ha as <-. cbn. auto.
    - injection Ha as <-. cbn. auto.
    }
  apply in_map_iff in Hin as ([k x] & Ek & Hx). cbn [fst] in Ek. subst k.
  destruct (HV "kh"%string x Hx) as [Lx Hv]; [cbn; intuition discriminate|].
  destruct (ux_place nsubs place 1 1 1 HL HP) as (i & Hi); try lia.
  destruct (Hv i 1 1 1 Hi) as (a & v & Ha & Hkv & E). injection Ha as <-. destruct Hkv as [[= <-]|[]].
  exists g, labels, x, i. split; [exact H|]. split; [exact Hx|]. split; [|exact E].
  rewrite Lx. assert (HE : forall s, In s place <-> In s (list_prod (list_prod [0; 1] [0; 1]) [0; 1])).
  { destruct HP as [_ HP]. rewrite (ux_counts _ HL) in HP. intros [[j l] c]. rewrite HP, !in_prod_iff. split.
    - intros (ns & a & Hns & Ha & Hl & Hc'). destruct j as [|[|j]]; [| |destruct j; discriminate];
        injection Hns as <-; injection Ha as <-; cbn in Hc'; cbn; lia.
    - intros ((Hj & Hl) & Hc'). cbn in Hj, Hl, Hc'. exists 2.
      destruct Hj as [ <- | [ <- | [] ] ]; eexists; (split; [reflexivity|]); (split; [reflexivity|]); cbn; lia. }
  assert (HN : NoDup (list_prod (list_prod [0; 1] [0; 1]) [0; 1])).
  { cbn. repeat (constructor; [cbn; intuition discriminate|]). constructor. }
  destruct HP as [HN' _].
  assert (length place <= 8) by (apply (NoDup_incl_length HN' (l' := list_prod (list_prod [0; 1] [0; 1]) [0; 1])); intros s; apply HE).
  assert (8 <= length place) by (apply (NoDup_incl_length HN (l' := place)); intros s; apply HE).
  lia.
Qed.
