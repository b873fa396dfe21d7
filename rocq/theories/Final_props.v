From Verif Require Import RealAux Perc_model Perc_spec Perc_proof Surface_model Surface_spec
  Volume_model Volume_spec SMerge_model SMerge_spec Groups_model Groups_spec
  Stack_model Stack_spec Stack3_proof Stack6_proof Final_model Final_spec Final4_proof.
From Coq Require Import Lra.
Open Scope nat_scope.

(* two cells, one cell array, one point array and two groups *)
Definition fx_base (z : R) : sbase Z :=
  mkSbase (mkSsurf (3, 2, 1) [(0, 0, z); (1, 0, z); (2, 0, z); (0, 1, z); (1, 1, z); (2, 1, z)]%R
             [("p"%string, [1; 2; 3; 4; 5; 6]%Z)] [("kh"%string, [7; 8]%Z)] None)
          (Some [0; 1]%Z) (Some [("sand"%string, 0%Z); ("clay"%string, 1%Z)]).
Definition fx_item (z : R) (group : group_arg nat) : item (sbase Z) :=
  mkItem (fx_base z) (ResInt 2) None 0%Z 0%R group false.
Definition fx_items : list (item (sbase Z)) := [fx_item 0 GNone; fx_item 1 GNone; fx_item 2 (GStr "top")].
Definition fx_pair : list (item (sbase Z)) := [fx_item 0 GNone; fx_item 1 GNone].
(* the first cell of every block has no volume *)
Definition fx_volumes (dims : shape3) (_ : list pt) : list R := 0%R :: repeat 1%R (n_cells dims - 1).

Lemma fx_vol dims pts : length (fx_volumes dims pts) = n_cells dims.
Proof.
  unfold fx_volumes. cbn [length]. rewrite repeat_length.
  assert (1 <= n_cells dims); [|lia].
  destruct dims as [[x y] z]. unfold n_cells, cell_shape, size3. nia.
Qed.

Lemma fx_wf z : wf_base (3, 2, 1) (fx_base z).
Proof.
  split; [reflexivity|]. split; [reflexivity|]. split; [cbn; constructor; [intros []|constructor]|].
  split; [|split; [|split]]; cbn.
  - intros k v [E|[]]. injection E as <- <-. reflexivity.
  - intros k v [E|[]]. injection E as <- <-. reflexivity.
  - discriminate.
  - intros cg E. injection E as <-. reflexivity.
Qed.
Lemma fx_unit : unit_along 2 (3, 2, 1).
Proof. split; [reflexivity|]. intros [|[|[|]]] H1 H2; cbn; lia. Qed.
Lemma fx_ok z group : (group = GNone \/ exists s, group = GStr s) ->
  it_trans (fx_item z group) = false /\ positions_span (fx_item z group) /\ group_by_name (fx_item z group).
Proof.
  intros Hg. split; [reflexivity|]. split; [|exact Hg].
  apply (int_spans (fx_item z group) Constant); [right; exists 2%Z; reflexivity|constructor].
Qed.
Lemma fx_all : Forall (fun i => wf_base (3, 2, 1) (it_mesh i)) fx_items /\
  Forall (fun it => it_trans it = false /\ positions_span it /\ group_by_name it) (tl fx_items).
Proof.
  split; [repeat (constructor; [apply fx_wf|]); constructor|]. constructor; [apply fx_ok; auto|].
  constructor; [apply fx_ok; eauto|constructor].
Qed.
Lemma fx_trans : Forall (fun it => it_trans it = false) (tl fx_items).
Proof. repeat constructor. Qed.

(* C132: the mesh returned, with its dimensions and ghost cells *)
Theorem C132_stack_ghosts :
  forall (D : Type) (num : Z -> D) (int : D -> Z) (Hint : forall z, int (num z) = z)
    (volumes : shape3 -> list pt -> list R) (Hvol : forall dims pts, length (volumes dims pts) = n_cells dims)
    o ax d items g labels bu js,
  ax <= 2 -> unit_along ax d ->
  Forall (fun i => wf_base d (it_mesh i)) items ->
  Forall (fun it => it_trans it = false) (tl items) ->
  stack3d_mesh num int volumes o ax bu items = Ok (g, labels, js) ->
  exists nsubs, layer_counts (tl items) nsubs /\ sg_dims g = setc ax (S (list_sum nsubs)) d /\
    ghosts_follow volumes ax d js nsubs g.
Proof.
  intros D num int Hint volumes Hvol o ax d items g labels bu js Hax Hu Hw Ht H.
  destruct (stack_final num int Hint volumes Hvol o ax d items g labels Hax Hu Hw Ht bu js H)
    as (nsubs & H1 & H2 & H3 & H4 & H5). eauto.
Qed.
Print Assumptions C132_stack_ghosts.

Theorem C132_extrude_ghosts :
  forall (D : Type) (num : Z -> D) (int : D -> Z) (Hint : forall z, int (num z) = z)
    (volumes : shape3 -> list pt -> list R) (Hvol : forall dims pts, length (volumes dims pts) = n_cells dims)
    o ax d items g labels,
  ax <= 2 -> unit_along ax d ->
  Forall (fun i => wf_base d (it_mesh i)) items ->
  Forall (fun it => it_trans it = false) (tl items) ->
  extrude_mesh num int volumes o items = Ok (g, labels) ->
  exists nsubs, layer_counts (tl items) nsubs /\ sg_dims g = setc ax (S (list_sum nsubs)) d /\
    ghosts_follow volumes ax d items nsubs g.
Proof.
  intros D num int Hint volumes Hvol o ax d items g labels Hax Hu Hw Ht H.
  destruct (extrude_final num int Hint volumes Hvol o ax d items g labels Hax Hu Hw Ht H)
    as (nsubs & H1 & H2 & H3 & H4 & H5). eauto.
Qed.
Print Assumptions C132_extrude_ghosts.

(* the mesh exists whenever the groups are given by name *)
Theorem C132_stack_defined :
  forall (D : Type) (num : Z -> D) (int : D -> Z) volumes o ax bu d items,
  (forall z, int (num z) = z) -> ax <= 2 -> unit_along ax d -> 2 <= length items ->
  Forall (fun i => wf_base d (it_mesh i)) items ->
  Forall (fun it => it_trans it = false /\ positions_span it /\ group_by_name it) (tl items) ->
  exists g labels js, stack3d_mesh num int volumes o ax bu items = Ok (g, labels, js).
Proof. exact @stack_mesh_defined. Qed.
Print Assumptions C132_stack_defined.

Theorem C132_extrude_defined :
  forall (D : Type) (num : Z -> D) (int : D -> Z) volumes o ax d items,
  (forall z, int (num z) = z) -> ax <= 2 -> unit_along ax d -> 2 <= length items ->
  Forall (fun i => wf_base d (it_mesh i)) items ->
  Forall (fun it => it_trans it = false /\ positions_span it /\ group_by_name it) (tl items) ->
  exists g labels, extrude_mesh num int volumes o items = Ok (g, labels).
Proof. exact @extrude_mesh_defined. Qed.
Print Assumptions C132_extrude_defined.

Lemma fx_extrude : exists g labels, extrude_mesh zz zz fx_volumes cx_opt fx_items = Ok (g, labels).
Proof.
  destruct fx_all as [H1 H2].
  apply (C132_extrude_defined Z zz zz fx_volumes cx_opt 2 (3, 2, 1) fx_items); auto using fx_unit.
  cbn; lia.
Qed.
Lemma fx_stack : exists g labels js, stack3d_mesh zz zz fx_volumes cx_opt 2 true fx_items = Ok (g, labels, js).
Proof.
  destruct fx_all as [H1 H2].
  apply (C132_stack_defined Z zz zz fx_volumes cx_opt 2 true (3, 2, 1) fx_items); auto using fx_unit.
  cbn; lia.
Qed.

Lemma fx_perc p : resolution_to_perc (ResInt 2) None = Ok p -> length p = 3.
Proof.
  intros Hp. destruct (perc_proper 2 None Constant) as (p' & Hp' & L & _); [constructor|].
  rewrite Hp' in Hp. apply Ok_inj in Hp. subst p. exact L.
Qed.
Lemma fx_counts ns : layer_counts (tl fx_items) ns -> ns = [2; 2].
Proof.
  intros [L HC]. destruct ns as [|m1 [|m2 [|]]]; cbn in L; try lia.
  destruct (HC 0 _ eq_refl) as (m & E & p & Hp & ->). injection E as ->. rewrite (fx_perc _ Hp).
  destruct (HC 1 _ eq_refl) as (m & E & p' & Hp' & ->). injection E as ->. rewrite (fx_perc _ Hp').
  reflexivity.
Qed.

(* the extrusion of the example has four layers and flags its first cell *)
Example C132_example : exists g labels, extrude_mesh zz zz fx_volumes cx_opt fx_items = Ok (g, labels) /\
  sg_dims g = (3, 2, 5) /\ flag_at (cell_shape (3, 2, 5)) (sg_ghost g) (0, 0, 0) = 32.
Proof.
  destruct fx_extrude as (g & labels & H). exists g, labels. split; [exact H|].
  destruct fx_all as [Hw _].
  destruct (C132_extrude_ghosts Z zz zz (fun z => eq_refl) fx_volumes fx_vol cx_opt 2 (3, 2, 1) fx_items g labels
    (le_n 2) fx_unit Hw fx_trans H) as (nsubs & HL & Hd & _ & HG).
  rewrite (fx_counts _ HL) in *. clear HL nsubs. cbn in Hd. split; [exact Hd|].
  destruct (HG (0, 0, 0)) as (j & a & b & perc & pts & w & Hj & Ha & Hb & Hp & Hbl & Hw0 & H32 & _).
  { rewrite Hd. cbn. unfold in_shape. cbn. lia. }
  rewrite Hd in H32. apply H32.
  cbn -[at_coord fx_volumes] in Hw0.
  unfold layer_in in Hj. cbn [comp] in Hj.
  destruct j as [|j]; [|cbn in Hj; lia].
  injection Hb as <-. rewrite (fx_perc _ Hp) in Hw0. cbn in Hw0. injection Hw0 as <-. reflexivity.
Qed.

(* C133: the groups of the mesh returned *)
Theorem C133_stack_groups :
  forall (D : Type) (num : Z -> D) (int : D -> Z) (Hint : forall z, int (num z) = z)
    (volumes : shape3 -> list pt -> list R) (Hvol : forall dims pts, length (volumes dims pts) = n_cells dims)
    o ax d items g labels bu js,
  ax <= 2 -> unit_along ax d ->
  Forall (fun i => wf_base d (it_mesh i)) items ->
  Forall (fun it => it_trans it = false) (tl items) ->
  stack3d_mesh num int volumes o ax bu items = Ok (g, labels, js) ->
  exists nsubs, layer_counts (tl items) nsubs /\ groups_follow int o ax d items nsubs g labels.
Proof.
  intros D num int Hint volumes Hvol o ax d items g labels bu js Hax Hu Hw Ht H.
  destruct (stack_final num int Hint volumes Hvol o ax d items g labels Hax Hu Hw Ht bu js H)
    as (nsubs & H1 & H2 & H3 & H4 & H5). eauto.
Qed.
Print Assumptions C133_stack_groups.

Theorem C133_extrude_groups :
  forall (D : Type) (num : Z -> D) (int : D -> Z) (Hint : forall z, int (num z) = z)
    (volumes : shape3 -> list pt -> list R) (Hvol : forall dims pts, length (volumes dims pts) = n_cells dims)
    o ax d items g labels,
  ax <= 2 -> unit_along ax d ->
  Forall (fun i => wf_base d (it_mesh i)) items ->
  Forall (fun it => it_trans it = false) (tl items) ->
  extrude_mesh num int volumes o items = Ok (g, labels) ->
  exists nsubs, layer_counts (tl items) nsubs /\ groups_follow int o ax d items nsubs g labels.
Proof.
  intros D num int Hint volumes Hvol o ax d items g labels Hax Hu Hw Ht H.
  destruct (extrude_final num int Hint volumes Hvol o ax d items g labels Hax Hu Hw Ht H)
    as (nsubs & H1 & H2 & H3 & H4 & H5). eauto.
Qed.
Print Assumptions C133_extrude_groups.

(* the names of the base stay in the first item, the second one has its own name *)
Example C133_example : exists g labels, extrude_mesh zz zz fx_volumes cx_opt fx_items = Ok (g, labels) /\
  In "top"%string (map fst labels) /\ In "sand"%string (map fst labels) /\ In "clay"%string (map fst labels).
Proof.
  destruct fx_extrude as (g & labels & H). exists g, labels. split; [exact H|].
  destruct fx_all as [Hw _].
  destruct (C132_extrude_ghosts Z zz zz (fun z => eq_refl) fx_volumes fx_vol cx_opt 2 (3, 2, 1) fx_items g labels
    (le_n 2) fx_unit Hw fx_trans H) as (nsubs0 & HL0 & Hd & _).
  destruct (C133_extrude_groups Z zz zz (fun z => eq_refl) fx_volumes fx_vol cx_opt 2 (3, 2, 1) fx_items g labels
    (le_n 2) fx_unit Hw fx_trans H) as (nsubs & HL & _ & _ & cg & names & _ & _ & Ln & Hk & HG).
  rewrite (fx_counts _ HL0) in Hd. rewrite (fx_counts _ HL) in HG. clear HL HL0 nsubs nsubs0. cbn in Hd. rewrite Hd in *.
  assert (HB : forall x y c k, x = 0 /\ y = 0%Z /\ k = "sand"%string \/ x = 1 /\ y = 1%Z /\ k = "clay"%string ->
     c = (x, 0, 0) -> In k names).
  { intros x y c k Hx ->.
    destruct (HG (x, 0, 0)) as (j & a & b & k' & Hj & Ha & Hb & E & Hn).
    { cbn. unfold in_shape. cbn. lia. }
    unfold layer_in in Hj. cbn [comp] in Hj. destruct j as [|j]; [|cbn in Hj; lia].
    injection Ha as <-. injection Hb as <-.
    apply nth_error_In in E. replace k with k'; [exact E|].
    unfold item_name in Hn. cbn [it_group fx_item] in Hn.
    inversion Hn as [cg' labels' k'' El (v & Hv & Hin) Hi|Hall E'].
    - cbn in El. injection El as <- <-.
      destruct Hx as [(-> & -> & ->)|(-> & -> & ->)]; cbn in Hv; injection Hv as <-; cbn in Hin;
        destruct Hin as [E'|[E'|[]]]; congruence.
    - exfalso. eapply (Hall [0; 1]%Z _ k); [reflexivity|].
      exists y. destruct Hx as [(-> & -> & ->)|(-> & -> & ->)]; (split; [reflexivity|]); cbn; auto. }
  split; [|split; [apply Hk, (HB 0 0%Z (0, 0, 0)); auto|apply Hk, (HB 1 1%Z (1, 0, 0)); auto]].
  apply Hk. destruct (HG (0, 0, 2)) as (j & a & b & k' & Hj & Ha & Hb & E & Hn).
  { cbn. unfold in_shape. cbn. lia. }
  unfold layer_in in Hj. cbn [comp] in Hj. destruct j as [|[|j]]; [cbn in Hj; lia| |cbn in Hj; rewrite firstn_nil in Hj; cbn in Hj; lia].
  injection Ha as <-. injection Hb as <-. apply nth_error_In in E.
  unfold item_name in Hn. cbn [it_group fx_item] in Hn. destruct Hn as (_ & _ & Hn).
  rewrite <- Hn; [exact E|discriminate|intros s'; discriminate].
Qed.

(* C134: the cell arrays of the mesh returned *)
Theorem C134_stack_cell_data :
  forall (D : Type) (num : Z -> D) (int : D -> Z) (Hint : forall z, int (num z) = z)
    (volumes : shape3 -> list pt -> list R) (Hvol : forall dims pts, length (volumes dims pts) = n_cells dims)
    o ax d items g labels bu js,
  ax <= 2 -> unit_along ax d ->
  Forall (fun i => wf_base d (it_mesh i)) items ->
  Forall (fun it => it_trans it = false) (tl items) ->
  stack3d_mesh num int volumes o ax bu items = Ok (g, labels, js) ->
  exists nsubs, layer_counts (tl items) nsubs /\ cells_follow "StackItem" ax d items nsubs g.
Proof.
  intros D num int Hint volumes Hvol o ax d items g labels bu js Hax Hu Hw Ht H.
  destruct (stack_final num int Hint volumes Hvol o ax d items g labels Hax Hu Hw Ht bu js H)
    as (nsubs & H1 & H2 & H3 & H4 & H5). eauto.
Qed.
Print Assumptions C134_stack_cell_data.

Theorem C134_extrude_cell_data :
  forall (D : Type) (num : Z -> D) (int : D -> Z) (Hint : forall z, int (num z) = z)
    (volumes : shape3 -> list pt -> list R) (Hvol : forall dims pts, length (volumes dims pts) = n_cells dims)
    o ax d items g labels,
  ax <= 2 -> unit_along ax d ->
  Forall (fun i => wf_base d (it_mesh i)) items ->
  Forall (fun it => it_trans it = false) (tl items) ->
  extrude_mesh num int volumes o items = Ok (g, labels) ->
  exists nsubs, layer_counts (tl items) nsubs /\ cells_follow "ExtrudeItem" ax d items nsubs g.
Proof.
  intros D num int Hint volumes Hvol o ax d items g labels Hax Hu Hw Ht H.
  destruct (extrude_final num int Hint volumes Hvol o ax d items g labels Hax Hu Hw Ht H)
    as (nsubs & H1 & H2 & H3 & H4 & H5). eauto.
Qed.
Print Assumptions C134_extrude_cell_data.

(* the array of the base is found in the mesh, with the value of the column *)
Example C134_example : exists g labels js x, stack3d_mesh zz zz fx_volumes cx_opt 2 true fx_items = Ok (g, labels, js) /\
  In ("kh"%string, x) (sg_cd g) /\ at_coord (cell_shape (3, 2, 5)) x (1, 0, 3) = Some 8%Z.
Proof.
  destruct fx_stack as (g & labels & js & H).
  destruct fx_all as [Hw _].
  destruct (C132_stack_ghosts Z zz zz (fun z => eq_refl) fx_volumes fx_vol cx_opt 2 (3, 2, 1) fx_items g labels true js
    (le_n 2) fx_unit Hw fx_trans H) as (nsubs0 & HL0 & Hd & _).
  destruct (C134_stack_cell_data Z zz zz (fun z => eq_refl) fx_volumes fx_vol cx_opt 2 (3, 2, 1) fx_items g labels true js
    (le_n 2) fx_unit Hw fx_trans H) as (nsubs & HL & HK & HC).
  rewrite (fx_counts _ HL0) in Hd. cbn in Hd.
  assert (HB : forall j a, nth_error fx_items j = Some a -> ss_cd (sb_surf (it_mesh a)) = [("kh"%string, [7; 8]%Z)]).
  { intros [|[|[|j]]] a Ha; try (injection Ha as <-; reflexivity). destruct j; discriminate. }
  assert (Hin : In "kh"%string (map fst (sg_cd g))).
  { apply HK. right. intros j a b Ha Hb. rewrite (HB j a Ha). cbn; auto. }
  apply in_map_iff in Hin as ([k x] & Ek & Hx). cbn in Ek. subst k.
  exists g, labels, js, x. split; [exact H|]. split; [exact Hx|].
  destruct (HC _ _ Hx) as [_ Hc]. { cbn. intuition discriminate. }
  rewrite Hd in Hc. destruct (Hc (1, 0, 3)) as (j & a & v & Hj & Ha & Hv & ->).
  { cbn. unfold in_shape. cbn. lia. }
  rewrite (HB j a Ha) in Hv. destruct Hv as [E|[]]. injection E as <-. reflexivity.
Qed.

(* C135: point arrays reach the mesh of two items *)
Theorem C135_stack_point_data_partial :
  forall (D : Type) (num : Z -> D) (int : D -> Z) volumes o ax d a b g labels bu js,
  ax <= 2 -> unit_along ax d -> wf_base d (it_mesh a) -> wf_base d (it_mesh b) -> it_trans b = false ->
  stack3d_mesh num int volumes o ax bu [a; b] = Ok (g, labels, js) -> points_follow ax d (it_mesh a) g.
Proof.
  intros D num int volumes o ax d a b g labels bu js Hax Hu Ha Hb Ht H.
  destruct (stack_points num int volumes o ax d [a; b] g labels Hax Hu ltac:(auto) (Forall_cons _ Ht (Forall_nil _)) bu js H) as [HP _].
  apply (HP a b); reflexivity.
Qed.
Print Assumptions C135_stack_point_data_partial.

Theorem C135_extrude_point_data_partial :
  forall (D : Type) (num : Z -> D) (int : D -> Z) volumes o ax d a b g labels,
  ax <= 2 -> unit_along ax d -> wf_base d (it_mesh a) -> wf_base d (it_mesh b) -> it_trans b = false ->
  extrude_mesh num int volumes o [a; b] = Ok (g, labels) -> points_follow ax d (it_mesh a) g.
Proof.
  intros D num int volumes o ax d a b g labels Hax Hu Ha Hb Ht H.
  destruct (extrude_points num int volumes o ax d [a; b] g labels Hax Hu ltac:(auto) (Forall_cons _ Ht (Forall_nil _))  H) as [HP _].
  apply (HP a b); reflexivity.
Qed.
Print Assumptions C135_extrude_point_data_partial.

(* no point array is left with three items or more *)
Theorem C135_no_point_data :
  forall (D : Type) (num : Z -> D) (int : D -> Z) volumes o ax d items g labels,
  ax <= 2 -> unit_along ax d ->
  Forall (fun i => wf_base d (it_mesh i)) items ->
  Forall (fun it => it_trans it = false) (tl items) -> 3 <= length items ->
  (exists bu js, stack3d_mesh num int volumes o ax bu items = Ok (g, labels, js)) \/
  extrude_mesh num int volumes o items = Ok (g, labels) -> sg_pd g = [].
Proof.
  intros D num int volumes o ax d items g labels Hax Hu Hw Ht L [(bu & js & H)|H].
  - destruct (stack_points num int volumes o ax d items g labels Hax Hu Hw Ht bu js H) as [_ HP]. auto.
  - destruct (extrude_points num int volumes o ax d items g labels Hax Hu Hw Ht  H) as [_ HP]. auto.
Qed.
Print Assumptions C135_no_point_data.

Lemma fx_pair_stack : exists g labels js, stack3d_mesh zz zz fx_volumes cx_opt 2 true fx_pair = Ok (g, labels, js).
Proof.
  apply (C132_stack_defined Z zz zz fx_volumes cx_opt 2 true (3, 2, 1) fx_pair); auto using fx_unit.
  - repeat (constructor; [apply fx_wf|]); constructor.
  - constructor; [apply fx_ok; auto|constructor].
Qed.

Example C135_example : exists g labels js w, stack3d_mesh zz zz fx_volumes cx_opt 2 true fx_pair = Ok (g, labels, js) /\
  In ("p"%string, w) (sg_pd g) /\ forall c, in_shape (sg_dims g) c ->
    at_coord (sg_dims g) w c = at_coord (3, 2, 1) [1; 2; 3; 4; 5; 6]%Z (setc 2 0 c).
Proof.
  destruct fx_pair_stack as (g & labels & js & H).
  destruct (C135_stack_point_data_partial Z zz zz fx_volumes cx_opt 2 (3, 2, 1) (fx_item 0 GNone) (fx_item 1 GNone)
    g labels true js (le_n 2) fx_unit (fx_wf 0) (fx_wf 1) eq_refl H) as [_ HP].
  destruct (HP _ _ (or_introl eq_refl)) as (w & Hw & _ & Hc). exists g, labels, js, w. auto.
Qed.

(* the same surfaces with one more item: the point array of every surface is lost *)
Theorem C135_point_data_refuted :
  exists items : list (item (sbase Z)), exists g labels js,
    Forall (fun i => wf_base (3, 2, 1) (it_mesh i)) items /\
    Forall (fun i => In "p"%string (map fst (ss_pd (sb_surf (it_mesh i))))) items /\
    stack3d_mesh zz zz fx_volumes cx_opt 2 true items = Ok (g, labels, js) /\
    forall i, In i items -> ~ points_follow 2 (3, 2, 1) (it_mesh i) g.
Proof.
  destruct fx_stack as (g & labels & js & H). destruct fx_all as [Hw _].
  exists fx_items, g, labels, js. split; [exact Hw|].
  assert (HI : Forall (fun i => In "p"%string (map fst (ss_pd (sb_surf (it_mesh i))))) fx_items)
    by (repeat constructor).
  split; [exact HI|]. split; [exact H|].
  intros i Hi [E _]. rewrite Forall_forall in HI. specialize (HI i Hi). rewrite <- E in HI.
  rewrite (C135_no_point_data Z zz zz fx_volumes cx_opt 2 (3, 2, 1) fx_items g labels (le_n 2) fx_unit Hw fx_trans) in HI;
    [exact HI|cbn; lia|eauto].
Qed.
Print Assumptions C135_point_data_refuted.
