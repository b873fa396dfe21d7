From Verif Require Import RealAux Perc_model Perc_spec Perc_proof Surface_model Surface_spec Surface_proof
  Volume_model Volume_spec SMerge_model SMerge_spec SMerge_proof Groups_model Groups_spec Groups_proof Groups2_proof
  Lines_model Lines_spec Lines1_proof Polygon_model Stack_model Stack_spec Cut_proof Gen_proof Stack_proof Stack2_proof Stack3_proof Stack4_proof
  Stack5_proof Stack6_proof Stack7_proof Trans_model Trans_spec Trans1_proof Trans2_proof Trans3_proof Trans4_proof Trans5_proof.
From Verif Require Polygon_spec Polygon5_proof.
From Coq Require Import Lra.
Open Scope nat_scope.

(* C129: one transition alone is the mesh of gmsh; with more blocks pv.merge gives the mesh *)
Lemma one_transition {D} (num : Z -> D) gm result areas pvmerge o ax bu i1 i2 g groups n js :
  1 <= ax <= 2 -> wf_lbase (it_mesh i1) -> wf_lbase (it_mesh i2) -> it_trans i2 = true ->
  stack2d_generate num gm result areas pvmerge o ax bu [i1; i2] = Ok (g, groups, n, js) ->
  n = 1 /\ transition_cells num groups (default_group o) i2 0 0 g.
Proof.
  intros Hax W1 W2 Ht H.
  destruct (stack_transition_ids num gm result areas pvmerge o ax bu [i1; i2] g groups n js Hax) as
    (bs & nsubs & Hm & L1 & L2 & En & HJ); auto.
  destruct (HJ 0 i1 i2 eq_refl eq_refl) as (ns & blk & N1 & N2 & HT & _).
  destruct (HT Ht) as [-> HC]. cbn [firstn list_sum fold_right] in HC.
  destruct bs as [|b [|]]; simpl in L2; try lia. injection N2 as ->. cbn in Hm. injection Hm as <-.
  destruct nsubs as [|x [|]]; simpl in L1; try lia. injection N1 as ->. split; [rewrite En; reflexivity|exact HC].
Qed.

Lemma mixed_merge {D} (num : Z -> D) gm result areas pvmerge o ax bu items g groups n js :
  1 <= ax <= 2 -> Forall (fun i => wf_lbase (it_mesh i)) items ->
  3 <= length items -> Exists (fun i => it_trans i = true) (tl items) ->
  stack2d_generate num gm result areas pvmerge o ax bu items = Ok (g, groups, n, js) ->
  exists bs, pvmerge bs = Ok g /\ length bs = length (tl items) /\
    forall j b, nth_error (tl items) j = Some b -> exists blk, nth_error bs j = Some blk /\
      (is_grid blk <-> it_trans b = false).
Proof.
  intros Hax HW H3 HT H.
  destruct (stack_transition_ids num gm result areas pvmerge o ax bu items g groups n js Hax) as
    (bs & nsubs & Hm & L1 & L2 & En & HJ); auto.
  assert (HK : forall j b, nth_error (tl items) j = Some b -> exists blk, nth_error bs j = Some blk /\
      (is_grid blk <-> it_trans b = false) /\ (it_trans b = true -> exists p c d, blk = BTri p c d)).
  { intros j b Hb. destruct items as [|i1 rest]; [destruct j; discriminate|]. cbn [tl] in *.
    destruct (nth_prev i1 rest j b Hb) as [a Ha].
    destruct (HJ j a b Ha Hb) as (ns & blk & _ & N2 & HTr & HF). exists blk. split; [exact N2|].
    split; [split|].
    - intros [g' ->]. destruct (it_trans b); [|reflexivity].
      destruct (HTr eq_refl) as (_ & p & c & d & cg & E & _). discriminate.
    - intros F. destruct (HF F) as (_ & g' & -> & _). exists g'; reflexivity.
    - intros T. destruct (HTr T) as (_ & p & c & d & cg & E & _). eauto. }
  exists bs. split; [|split; [exact L2|]].
  - assert (X : exists p c d, In (BTri p c d) bs).
    { apply Exists_exists in HT as (b & Hb & T). apply In_nth_error in Hb as [j Hj].
      destruct (HK j b Hj) as (blk & N & _ & Y). destruct (Y T) as (p & c & d & ->).
      exists p, c, d. eapply nth_error_In; eauto. }
    unfold merge_blocks in Hm. destruct items as [|? items]; [simpl in H3; lia|].
    destruct bs as [|b1 [|b2 bs]]; simpl in L2, H3; try lia.
    rewrite (grids_none _ X) in Hm. exact Hm.
  - intros j b Hb. destruct (HK j b Hb) as (blk & ? & ? & _). eauto.
Qed.

(* C131 *)
Lemma base_line_defined {D} (m : lmesh pt D) : wf_lines m -> l_cells m <> [] ->
  exists l, base_line m = Ok l /\ transition_line m = Ok l.
Proof.
  intros W Hne. destruct (split_lines_defined true m W) as [out E].
  unfold base_line, transition_line. destruct (Nat.eqb_spec (length (l_cells m)) 0) as [E0|_].
  - destruct (l_cells m); [congruence|discriminate].
  - rewrite E. cbn [bind]. unfold at_res.
    destruct (split_lines_faithful true m out E) as [L _].
    destruct (nth_error out 0) eqn:N; [eauto|]. apply nth_error_None in N. destruct (l_cells m); [congruence|simpl in L; lia].
Qed.

Lemma base_line_none {D} (m : lmesh pt D) : l_cells m = [] ->
  base_line m = Err ValueError /\ transition_line m = Err IndexError.
Proof. intros E. unfold base_line, transition_line, split_lines. rewrite E. split; reflexivity. Qed.

Lemma transition_line_same {D} (m : lmesh pt D) : l_cells m <> [] -> transition_line m = base_line m.
Proof.
  intros H. unfold base_line, transition_line. destruct (Nat.eqb_spec (length (l_cells m)) 0) as [E|_]; [|reflexivity].
  destruct (l_cells m); [congruence|discriminate].
Qed.

(* ---- examples ---- *)
Definition tx_line (ps : list pt) : lbase Z :=
  mkLbase (mkLine ps (seq 0 (length ps)) [] [] None) (length ps - 1) None None.
Definition tx2 (z : R) : lbase Z := tx_line [(0, 0, z); (2, 0, z)]%R.
Definition tx3 (z : R) : lbase Z := tx_line [(0, 0, z); (1, 0, z); (2, 0, z)]%R.
Definition tx_item (m : lbase Z) (g : group_arg nat) (t : bool) : item (lbase Z) := mkItem m ResNone None 0%Z 0%R g t.
Definition tx_gm : gmsh := fun t o =>
  match o with AddPoint _ _ => Some (S (length (Polygon_spec.added t))) | _ => Some 7 end.
Definition tx_result : list gop -> gmsh_mesh := fun _ =>
  ([(1, (0, 0, 0)%R); (2, (2, 0, 0)%R); (3, (2, 0, 1)%R); (4, (1, 0, 1)%R)], [(1, [[1; 2]]); (2, [[1; 2; 3]; [1; 3; 4]])]).
Definition tx_merge : list (block Z) -> res (block Z) := fun bs => Ok (BTri [] [] []).
Definition tx_areas : shape3 -> list pt -> list R := fun _ _ => [].
Definition tx_items : list (item (lbase Z)) :=
  [tx_item (tx2 0) GNone false; tx_item (tx3 1) (GStr "t") true; tx_item (tx3 2) GNone false].

Lemma tx_wf2 z : wf_line 2 (tx2 z).
Proof. unfold wf_line; cbn. repeat split; try lia; try (intros; tauto); try discriminate; repeat constructor. Qed.
Lemma tx_wf3 z : wf_line 3 (tx3 z).
Proof. unfold wf_line; cbn. repeat split; try lia; try (intros; tauto); try discriminate; repeat constructor. Qed.

Lemma tx_works : gmsh_works tx_gm tx_result.
Proof.
  split; [intros t o; destruct o; discriminate|].
  intros t ty el [[= <- <-]|[[= <- <-]|[]]]; cbn; auto.
Qed.

Lemma tx_spans m g t : positions_span (tx_item m g t).
Proof. apply (int_spans _ Constant); [left; reflexivity|constructor]. Qed.

Lemma tx_defined : exists r, stack2d_generate zz tx_gm tx_result tx_areas tx_merge (mkOpt "d" []) 2 true tx_items = Ok r.
Proof.
  apply trans_defined.
  - lia.
  - cbn. lia.
  - apply tx_works.
  - intros bs. eexists. reflexivity.
  - repeat constructor; try apply tx_wf2; try apply tx_wf3.
  - constructor; [split; [intros _; apply tx_spans|right; eexists; reflexivity]|].
    constructor; [split; [intros _; apply tx_spans|left; reflexivity]|constructor].
  - intros [|[|[|j]]] a b Ha Hb; cbn in Ha, Hb; try (injection Ha as <-); try (injection Hb as <-); try discriminate.
    intros _. reflexivity.
Qed.

(* a mask of the cells of the line below does not fit the triangles *)
Definition tx_masked : list (item (lbase Z)) :=
  [tx_item (tx2 0) GNone false; tx_item (tx3 1) (GDict [("g"%string, SelArr (MBool [true]))]) true].

Lemma tx_mask_fails : stack2d_generate zz tx_gm tx_result tx_areas tx_merge (mkOpt "d" []) 2 true tx_masked = Err IndexError.
Proof.
  unfold stack2d_generate, stack_generate, tx_masked. cbn [cut_loop cut_pair tx_item it_trans bind gen_loop].
  cbn [it_mesh it_group tx2 tx3 tx_line].
  assert (E : forall m, initialize_group_array (mkOpt "d" []) (gview (tops zz) (tx2 0)) []
     (GDict [("g"%string, SelArr (MBool [true]))]) m = Ok ([0%Z], [("g"%string, 0%Z)])) by reflexivity.
  fold (tx2 0) in *. rewrite E. cbn [bind].
  unfold transition. fold (tx3 1).
  match goal with |- context [transition_ring ?a ?b] => change (transition_ring a b) with
    (map row [(0, 0, 0); (2, 0, 0); (2, 0, 1); (1, 0, 1); (0, 0, 1)]%R) end.
  destruct (gmsh_meshes tx_gm tx_result [(0, 0, 0); (2, 0, 0); (2, 0, 1); (1, 0, 1); (0, 0, 1)]%R tx_works)
    as (t & pts & cells & Hp); [simpl; lia|]. rewrite Hp. cbn [snd bind].
  assert (Hc : length (flat_map snd cells) = 2).
  { assert (Ho : Polygon_spec.open_ring (map row [(0, 0, 0); (2, 0, 0); (2, 0, 1); (1, 0, 1); (0, 0, 1)]%R)).
    { unfold Polygon_spec.open_ring. cbn [map last row]. intros X. injection X. lra. }
    assert (Hr : Polygon_spec.rows_of 3 (map row [(0, 0, 0); (2, 0, 0); (2, 0, 1); (1, 0, 1); (0, 0, 1)]%R)) by repeat constructor.
    destruct (Polygon5_proof.polygon_outline _ _ _ _ _ _ _ _ _ _ _ Ho Hr (Forall_nil _) (Forall_nil _) Hp) as (_ & _ & s & _ & E5).
    cbn in E5. injection E5 as _ <-. reflexivity. }
  rewrite Hc. reflexivity.
Qed.

(* a distance after set_transition *)
Definition tx_ops : list (@build_op Z) :=
  [OpAdd (ArgScalar 0) (mkAdd ResNone None 0%Z 0%R GNone); OpTransition (tx3 0);
   OpAdd (ArgScalar 1) (mkAdd ResNone None 0%Z 0%R GNone);
   OpAdd (ArgCall (fun _ _ _ => 2%R)) (mkAdd ResNone None 0%Z 0%R GNone)].
Definition tx_interp : list pt -> list pt -> res (list R) := fun _ b => Ok (map (fun _ => 0%R) b).

Lemma tx_scalar_fails : exists st, run_ops zz 2 true tx_interp (mkStack (tx2 0) [] false) tx_ops = Ok st /\
  map size (st_items st) = [2; 2; 3] /\ map it_trans (st_items st) = [false; true; false] /\
  stack2d_generate zz tx_gm tx_result tx_areas tx_merge (mkOpt "d" []) 2 true (st_items st) = Err ValueError.
Proof. eexists. repeat split; reflexivity. Qed.

(* the same with a function after set_transition *)
Definition tx_good : list (@build_op Z) :=
  [OpAdd (ArgScalar 0) (mkAdd ResNone None 0%Z 0%R GNone); OpTransition (tx3 0);
   OpAdd (ArgCall (fun _ _ _ => 1%R)) (mkAdd ResNone None 0%Z 0%R GNone);
   OpAdd (ArgScalar 1) (mkAdd ResNone None 0%Z 0%R GNone)].

(* two separate segments *)
Definition tx_segments : lmesh pt Z := mkL [(0, 0, 0); (1, 0, 0); (2, 0, 0)]%R [[0; 1]; [1; 2]] [] [].
Lemma tx_first_segment : exists l, base_line tx_segments = Ok l /\ transition_line tx_segments = Ok l /\
  l_pts l = [(0, 0, 0); (1, 0, 0)]%R.
Proof. eexists. repeat split; reflexivity. Qed.
