From Verif Require Import Lines_spec Lines1_proof RealAux Perc_model Perc_spec Perc_proof Surface_model Surface_spec Surface_proof
  Volume_model Volume_spec Volume_proof SMerge_model SMerge_spec SMerge_proof
  Groups_model Groups_spec Groups_proof Groups2_proof Polygon_model
  Stack_model Stack_spec Gen_proof Stack_proof Stack2_proof Stack3_proof Stack4_proof Stack6_proof Stack7_proof
  Final_model Final_spec Final1_proof Trans_model Trans_spec Trans1_proof Trans2_proof Trans3_proof Trans5_proof Trans6_proof
  Line_spec Line3_proof Settle_spec Settle_proof Input_model Input1_proof
  Pile_model Pile_spec Pile_proof Pile3_model Pile3_spec Pile3_proof Final_props Line_props Pile_props Pile4_model Pile4_spec Pile4_proof Pile4b_proof Pile4c_proof.
From Verif Require Lines_model Polygon_spec Polygon5_proof Surface2_spec Surface2_proof.
From Coq Require Import Lra Ascii.
Import Lines_model(lmesh, l_pts, l_cells, l_pd, l_cd, mkL).
From Verif Require Objects_spec.
Open Scope nat_scope.

(* C169: calls of add on a base line, transitions to other base lines, and calls that follow them *)
Theorem C169_defined :
  forall (D : Type) (num : Z -> D) int gm result other areas pvmerge interp o ax bu (arg : list R + lmesh (R * R * R) D) pts first segs rs,
  ax <= 2 -> base_ok arg -> base_points ax arg pts -> regular_run interp pts first -> runs interp pts segs rs -> segs <> [] ->
  gmsh_works gm result -> (forall bs, exists m, pvmerge bs = Ok m) ->
  exists g groups,
    transition_program num int gm result other areas pvmerge interp o (Z.of_nat ax) bu arg (program_of first segs) = Ok (g, groups).
Proof. intros; eapply program_defined; eauto. Qed.
Print Assumptions C169_defined.

Theorem C169_blocks :
  forall (D : Type) (num : Z -> D) int gm result other areas pvmerge interp o ax bu (arg : list R + lmesh (R * R * R) D) pts first segs rs g groups,
  ax <= 2 -> base_ok arg -> base_points ax arg pts -> regular_run interp pts first -> runs interp pts segs rs -> segs <> [] ->
  transition_program num int gm result other areas pvmerge interp o (Z.of_nat ax) bu arg (program_of first segs) = Ok (g, groups) ->
  numbered groups /\ exists bs lines nsubs, joined pvmerge bs g /\ Forall2 (run_lines interp ax bu) ((pts, first) :: rs) lines /\
    S (length bs) = length (concat lines) /\ length nsubs = length bs /\
    forall j mark call la lb, nth_error (marks ((pts, first) :: rs)) (S j) = Some (mark, call) ->
      nth_error (concat lines) j = Some la -> nth_error (concat lines) (S j) = Some lb ->
      exists ns blk, nth_error nsubs j = Some ns /\ nth_error bs j = Some blk /\
        (mark = true -> ns = 1 /\ exists pts tris cd, blk = BTri pts tris cd /\ mesh_between gm result la lb pts tris /\
           cells_named num groups (default_group o) call (length tris) cd /\
           uniform_ids num "StackItem" (length tris) (-1) (Z.of_nat (list_sum (firstn j nsubs))) (Z.of_nat j) cd) /\
        (mark = false -> exists s, blk = BGrid s /\ strip_between ax call la lb ns s /\
           cells_named num groups (default_group o) call (ns * (length la - 1)) (sg_cd s) /\
           (1 <= ax -> line_block_ids num "StackItem" ax ns (length la - 1) (list_sum (firstn j nsubs)) j s)).
Proof.
  intros D num int gm result other areas pvmerge interp o ax bu arg pts first segs rs g groups H1 H2 H3 H4 H5 H6 H7.
  exact (program_blocks num int gm result other areas pvmerge interp o ax H1 bu arg pts first segs rs H2 H3 H4 H5 H6 g groups H7).
Qed.
Print Assumptions C169_blocks.

(* a transition to a mesh without lines, after any calls of this kind *)
Theorem C169_no_line :
  forall (D : Type) (num : Z -> D) int gm result other areas pvmerge interp o ax bu (arg : list R + lmesh (R * R * R) D) pts first segs rs l m,
  ax <= 2 -> base_ok arg -> base_points ax arg pts -> regular_run interp pts first -> runs interp pts segs rs -> l_cells m = [] ->
  transition_program num int gm result other areas pvmerge interp o (Z.of_nat ax) bu arg (program_of first segs ++ TrSet (inr m) :: l) = Err IndexError.
Proof.
  intros D num int gm result other areas pvmerge interp o ax bu arg pts first segs rs l m H1 H2 H3 H4 H5 H6.
  exact (program_no_line num int gm result other areas pvmerge interp o ax H1 bu arg pts first segs rs H2 H3 H4 H5 l m H6).
Qed.
Print Assumptions C169_no_line.

(* ---- an instance: two lines of two points, then two lines of three points ---- *)
Definition wx_none : list (R * R * R) -> list (R * R * R) -> res (list R) := fun _ _ => Err ValueError.
Definition wx_base : list R + lmesh (R * R * R) Z := inl [0; 2]%R.
Definition wx_pts : list (R * R * R) := [(0, 0, 0); (2, 0, 0)]%R.
Definition wx_pts' : list (R * R * R) := [(0, 0, 0); (1, 0, 0); (2, 0, 0)]%R.
Definition wx_first : list st_call :=
  [mkStCall (ArgScalar 0) (mkAdd ResNone None 0%Z 0%R GNone); mkStCall (ArgScalar 1) (mkAdd (ResInt 1) None 0%Z 0%R (GStr "low"))].
Definition wx_next : list st_call :=
  [mkStCall (ArgCall (fun x _ _ => 3 + x)%R) (mkAdd ResNone None 0%Z 0%R GNone); mkStCall (ArgScalar 1) (mkAdd (ResInt 2) None 0%Z 0%R GNone)].
Definition wx_segs : list ((Z + lmesh (R * R * R) Z) * list st_call) := [(inl 2%Z, wx_next)].
Definition wx_opt : options := mkOpt "d" [].

Open Scope R_scope.
Lemma wx_base_ok : base_ok wx_base /\ base_points 2 wx_base wx_pts.
Proof. split; [exact I|]. repeat constructor. Qed.
Lemma wx_first_ok : regular_run wx_none wx_pts wx_first.
Proof.
  split; [cbn; lia|]. split; [discriminate|]. split; [repeat constructor|]. constructor; [|constructor].
  split; [|right; eexists; reflexivity].
  exact (int_spans (mkItem (fx_base 0) (ResInt 1) None 0%Z 0%R GNone false) Constant (or_intror (ex_intro _ 1%Z eq_refl)) ltac:(constructor)).
Qed.
Lemma wx_runs : runs wx_none wx_pts wx_segs [(wx_pts', wx_next)].
Proof.
  assert (HD : Objects_spec.dist3 (0, 0, 0) (2, 0, 0) = 2).
  { unfold Objects_spec.dist3. replace (_ + _) with (2 * 2) by ring. apply sqrt_square. lra. }
  constructor; [| | |constructor].
  - exists 1%nat. split; [reflexivity|]. split; [reflexivity|].
    assert (HL : Objects_spec.polyline_length wx_pts = 2) by (cbn [Objects_spec.polyline_length wx_pts]; rewrite HD; ring). rewrite HL.
    assert (HA : forall i P, (i <= 2)%nat -> P = (INR i, 0, 0) -> Objects_spec.along wx_pts (INR i / INR 2 * 2) P).
    { intros i P Hi ->. replace (INR i / INR 2 * 2) with (INR i / INR 2 * Objects_spec.dist3 (0, 0, 0) (2, 0, 0)) by now rewrite HD.
      replace (INR i, 0, 0) with (Objects_spec.on_segment (INR i / INR 2) (0, 0, 0) (2, 0, 0)).
      - apply Objects_spec.along_in. apply le_INR in Hi. pose proof (pos_INR i). cbn in Hi |- *. lra.
      - unfold Objects_spec.on_segment, Objects_spec.between. apply injective_projections; [apply injective_projections|]; cbn; lra. }
    intros [|[|[|i]]] P E; cbn in E; try (injection E as <-); try (destruct i; discriminate); apply HA; try lia; reflexivity.
  - split; [cbn; lia|]. split; [discriminate|]. split; [repeat constructor|]. constructor; [|constructor]. split; [|left; reflexivity].
    exact (int_spans (mkItem (fx_base 0) (ResInt 2) None 0%Z 0%R GNone false) Constant (or_intror (ex_intro _ 2%Z eq_refl)) ltac:(constructor)).
  - split; [exact I|left; reflexivity].
Qed.

(* three blocks: cells between the first lines, triangles, two layers of cells between the last lines *)
Example C169_example : exists g groups bs s pts tris cd,
  transition_program zz zz tx_gm tx_result (fun _ _ _ => []) lx_areas tx_merge wx_none wx_opt 2 true wx_base (program_of wx_first wx_segs) = Ok (g, groups) /\
  joined tx_merge bs g /\ length bs = 3%nat /\
  nth_error bs 1 = Some (BTri pts tris cd) /\ uniform_ids zz "StackItem" (length tris) (-1) 1 1 cd /\
  nth_error bs 2 = Some (BGrid s) /\ sg_dims s = (3, 1, 3)%nat /\
  at_coord (3, 1, 3)%nat (sg_pts s) (2, 0, 1)%nat = Some (2, 0, 11/2).
Proof.
  destruct wx_base_ok as [HB HP].
  destruct (C169_defined Z zz zz tx_gm tx_result (fun _ _ _ => []) lx_areas tx_merge wx_none wx_opt 2 true wx_base wx_pts wx_first wx_segs _
    (le_n 2) HB HP wx_first_ok wx_runs ltac:(discriminate) tx_works (fun bs => ex_intro _ _ eq_refl)) as (g & groups & E).
  destruct (C169_blocks Z zz zz tx_gm tx_result (fun _ _ _ => []) lx_areas tx_merge wx_none wx_opt 2 true wx_base wx_pts wx_first wx_segs _ g groups
    (le_n 2) HB HP wx_first_ok wx_runs ltac:(discriminate) E) as (_ & bs & lines & nsubs & HJ & HL & Lb & Ln & HK).
  inversion HL as [|? l0 ? ls R0 HL']; subst. inversion HL' as [|? l1 ? ls' R1 HL'']; subst. inversion HL''; subst. clear HL HL' HL''.
  destruct R0 as (L0 & F0 & R0). destruct R1 as (L1 & F1 & R1). cbn [fst snd] in *.
  destruct l0 as [|a0 [|a1 [|]]]; try (cbn in L0; discriminate). destruct l1 as [|b0 [|b1 [|]]]; try (cbn in L1; discriminate).
  cbn [concat app length] in Lb, HK. injection Lb as Lb.
  destruct (HK 0%nat false _ _ _ eq_refl eq_refl eq_refl) as (n0 & blk0 & N0 & _ & _ & HF0).
  destruct (HF0 eq_refl) as (s0 & _ & (p0 & P0 & -> & _) & _). cbn [sc_opts ao_res ao_method wx_first nth_error] in P0. apply px_perc1 in P0. subst p0.
  destruct (HK 1%nat true _ _ _ eq_refl eq_refl eq_refl) as (n1 & blk1 & N1 & B1 & HT1 & _).
  destruct (HT1 eq_refl) as (-> & pts & tris & cd & -> & _ & _ & HU).
  destruct (HK 2%nat false _ _ _ eq_refl eq_refl eq_refl) as (n2 & blk2 & N2 & B2 & _ & HF2).
  destruct (HF2 eq_refl) as (s & -> & (p2 & P2 & _ & HDm & _ & HN) & _). cbn [sc_opts ao_res ao_method] in P2. apply px_perc2 in P2. subst p2.
  exists g, groups, bs, s, pts, tris, cd. split; [exact E|]. split; [exact HJ|]. split; [exact Lb|]. split; [exact B1|]. split.
  { destruct nsubs as [|x [|y nsubs]]; try discriminate. injection N0 as ->. exact HU. }
  split; [exact B2|].
  assert (LB : length b0 = 3%nat) by (inversion F1; auto). rewrite LB in HDm. split; [exact HDm|].
  destruct (R1 2%nat _ eq_refl) as (out & (ls & Hh & Hs & _) & Ho).
  inversion Hh as [|? ? z0 ? k0 Q0 G0]; subst. inversion G0 as [|? ? z1 ? k1 Q1 G1]; subst. inversion G1; subst.
  inversion Q1; subst. inversion Q0 as [| |? ? x' y' z' Hn| |]; subst. injection Hn as <- <- <-.
  cbn [sc_opts ao_prio ao_thick] in Hs.
  inversion Hs as [|? ? ? ? ? ? ? o1 Lt S1|? ? ? ? ? ? ? o1 Le S1]; subst; [lia|]. inversion S1; subst.
  rewrite HDm in HN. change (node_at 2 2 1) with (2, 0, 1)%nat in HN.
  pose proof (Ho 0%nat b0 _ eq_refl eq_refl) as O0. pose proof (Ho 1%nat b1 _ eq_refl eq_refl) as O1.
  change (strip_dims 2 3 (length [0; 1/2; 1])) with (3, 1, 3)%nat in HN.
  refine (eq_trans (HN 2%nat 1%nat _ _ (1/2) O0 O1 eq_refl) _).
  replace (Rabs 1) with 1 by (rewrite Rabs_right; lra). unfold on_way, at_height, Rmin. destruct (Rle_dec _ _); [|exfalso; lra]. apply f_equal. apply injective_projections; [apply injective_projections|]; cbn; lra.
Qed.

Example C169_no_line_example :
  transition_program zz zz tx_gm tx_result (fun _ _ _ => []) lx_areas tx_merge wx_none wx_opt 2 true wx_base
    (program_of wx_first wx_segs ++ [TrSet (inr (mkL [(0, 0, 0)] [] [] []))]) = Err IndexError.
Proof.
  destruct wx_base_ok as [HB HP].
  exact (C169_no_line Z zz zz tx_gm tx_result (fun _ _ _ => []) lx_areas tx_merge wx_none wx_opt 2 true wx_base wx_pts wx_first wx_segs _ [] (mkL [(0, 0, 0)] [] [] [])
    (le_n 2) HB HP wx_first_ok wx_runs eq_refl).
Qed.
