From Verif Require Import Lines_spec Lines1_proof RealAux Perc_model Perc_spec Perc_proof Surface_model Surface_spec Surface_proof
  Volume_model Volume_spec Volume_proof SMerge_model SMerge_spec SMerge_proof
  Groups_model Groups_spec Groups_proof Groups2_proof Polygon_model
  Stack_model Stack_spec Gen_proof Stack_proof Stack2_proof Stack3_proof Stack4_proof Stack6_proof Stack7_proof
  Final_model Final_spec Final1_proof Trans_model Trans_spec Trans1_proof Trans2_proof Trans3_proof Trans5_proof Trans6_proof
  Line_spec Line3_proof Settle_spec Settle_proof Input_model Input1_proof
  Unstr_model Unstr_spec Unstr4_proof
  Pile_model Pile_spec Pile_proof Pile3_model Pile3_spec Pile3_proof Final_props Line_props Pile_props Pile4_model Pile4_spec Pile4_proof Pile4_props
  Pile5_model Pile5_spec Pile5_proof Pile5b_proof.
From Verif Require Lines_model.
From Coq Require Import Lra.
Import Lines_model(lmesh, l_pts, l_cells, l_pd, l_cd, mkL).
Open Scope nat_scope.

(* C170: the mesh returned by a stack of lines with transitions *)
Theorem C170_defined :
  forall (D : Type) (num : Z -> D) int gm result other areas pvmerge tol clean interp o ax bu (arg : list R + lmesh (R * R * R) D) pts first segs rs,
  (forall z, int (num z) = z) -> gmsh_elements result -> appends pvmerge -> cleans tol clean ->
  ax <= 2 -> base_ok arg -> base_points ax arg pts -> regular_run interp pts first -> runs interp pts segs rs -> segs <> [] ->
  gmsh_works gm result -> (forall x y bs, exists g, pvmerge (x :: y :: bs) = Ok g) ->
  exists g labels,
    transition_mesh num int gm result other areas pvmerge clean interp o (Z.of_nat ax) bu arg (program_of first segs) = Ok (inr g, labels).
Proof.
  intros D num int gm result other areas pvmerge tol clean interp o ax bu arg pts first segs rs H1 H2 H3 H4 H5 H6 H7 H8 H9 H10 H11 H12.
  exact (mesh_defined num int H1 gm result H2 other areas pvmerge H3 tol clean H4 interp o ax H5 bu arg pts first segs rs H6 H7 H8 H9 H10 H11 H12).
Qed.
Print Assumptions C170_defined.

Theorem C170_mesh :
  forall (D : Type) (num : Z -> D) int gm result other areas pvmerge tol clean interp o ax bu (arg : list R + lmesh (R * R * R) D) pts first segs rs m labels,
  (forall z, int (num z) = z) -> gmsh_elements result -> appends pvmerge -> cleans tol clean ->
  ax <= 2 -> base_ok arg -> base_points ax arg pts -> regular_run interp pts first -> runs interp pts segs rs -> segs <> [] ->
  transition_mesh num int gm result other areas pvmerge clean interp o (Z.of_nat ax) bu arg (program_of first segs) = Ok (m, labels) ->
  exists g lines nsubs blocks place, m = inr g /\
    Forall2 (run_lines interp ax bu) ((pts, first) :: rs) lines /\ S (length blocks) = length (concat lines) /\
    (forall j mark call la lb, nth_error (marks ((pts, first) :: rs)) (S j) = Some (mark, call) ->
       nth_error (concat lines) j = Some la -> nth_error (concat lines) (S j) = Some lb ->
       exists polys ns, nth_error blocks j = Some polys /\ nth_error nsubs j = Some ns /\
         (mark = true -> ns = 1 /\ mesh_polygons gm result la lb polys) /\
         (mark = false -> strip_polygons ax call la lb ns polys)) /\
    spread blocks place /\ polygons_shown tol blocks place g /\
    calls_name int (default_group o) (marks ((pts, first) :: rs)) place g labels /\
    cells_numbered num (marks ((pts, first) :: rs)) (concat lines) nsubs place g /\
    NoDup (map fst (uv_cd g)) /\
    (forall k, In k (map fst (uv_cd g)) <-> In k ["ColumnId"; "LayerId"; "StackItem"; "CellGroup"]%string) /\
    ((exists j call polys, nth_error (marks ((pts, first) :: rs)) (S j) = Some (true, call) /\ nth_error blocks j = Some polys /\ polys <> []) ->
     uv_ghost g = []).
Proof.
  intros D num int gm result other areas pvmerge tol clean interp o ax bu arg pts first segs rs m labels H1 H2 H3 H4 H5 H6 H7 H8 H9 H10 H11.
  destruct (mesh_program num int H1 gm result H2 other areas pvmerge H3 tol clean H4 interp o ax H5 bu arg pts first segs rs H6 H7 H8 H9 H10 m labels H11)
    as (g & lines & nsubs & bs & blocks & place & E & HL & Lb & M1 & M2 & M3 & M4 & M5 & M6 & M7 & M8 & M9).
  exists g, lines, nsubs, blocks, place. split; [exact E|]. split; [exact HL|]. split; [congruence|]. auto 10.
Qed.
Print Assumptions C170_mesh.

(* ---- an instance: the program of C169_example; seven cells, none of them flagged ---- *)
Open Scope R_scope.
Lemma tx_elements : gmsh_elements tx_result.
Proof.
  intros t ty els el H Hel. cbn in H. destruct H as [[= <- <-]|[[= <- <-]|[]]].
  - destruct Hel as [<-|[]]. split; [discriminate|]. split; [discriminate|]. intros [E|E]; discriminate.
  - destruct Hel as [<-|[<-|[]]]; (split; [reflexivity|]; split; [discriminate|]; intros _ tag Ht; cbn in Ht |- *; lia).
Qed.

Example C170_example : exists g labels,
  transition_mesh zz zz tx_gm tx_result (fun _ _ _ => []) lx_areas append_blocks (fun g => g) wx_none wx_opt 2 true wx_base (program_of wx_first wx_segs)
    = Ok (inr g, labels) /\
  uv_ghost g = [] /\ (exists v, In ("LayerId"%string, v) (uv_cd g)) /\
  exists lines nsubs blocks place s0 t1 s2, Forall2 (run_lines wx_none 2 true) ((wx_pts, wx_first) :: [(wx_pts', wx_next)]) lines /\
    blocks = [s0; t1; s2] /\ length s0 = 1%nat /\ length t1 = 2%nat /\ length s2 = 4%nat /\ spread blocks place /\
    polygons_shown 0 blocks place g /\ cells_numbered zz (marks ((wx_pts, wx_first) :: [(wx_pts', wx_next)])) (concat lines) nsubs place g.
Proof.
  destruct wx_base_ok as [HB HP].
  assert (Hc : cleans 0 (fun g : uvol Z => g)) by (apply keep_cleans; lra).
  destruct (C170_defined Z zz zz tx_gm tx_result (fun _ _ _ => []) lx_areas append_blocks 0 (fun g => g) wx_none wx_opt 2 true wx_base wx_pts wx_first wx_segs _
    (fun z => eq_refl) tx_elements append_blocks_appends Hc (le_n 2) HB HP wx_first_ok wx_runs ltac:(discriminate) tx_works
    (fun x y bs => ex_intro _ _ eq_refl)) as (g & labels & E).
  exists g, labels. split; [exact E|].
  destruct (C170_mesh Z zz zz tx_gm tx_result (fun _ _ _ => []) lx_areas append_blocks 0 (fun g => g) wx_none wx_opt 2 true wx_base wx_pts wx_first wx_segs _ _ labels
    (fun z => eq_refl) tx_elements append_blocks_appends Hc (le_n 2) HB HP wx_first_ok wx_runs ltac:(discriminate) E)
    as (g' & lines & nsubs & blocks & place & Eg & HL & Lb & HK & HS & HSh & HN & HI & _ & HKey & HG). injection Eg as <-.
  pose proof HL as HL0.
  inversion HL as [|? l0 ? ls R0 HL']; subst. inversion HL' as [|? l1 ? ls' R1 HL'']; subst. inversion HL''; subst. clear HL HL' HL''.
  destruct R0 as (L0 & F0 & R0). destruct R1 as (L1 & F1 & R1). cbn [fst snd] in *.
  destruct l0 as [|a0 [|a1 [|]]]; try (cbn in L0; discriminate). destruct l1 as [|b0 [|b1 [|]]]; try (cbn in L1; discriminate).
  assert (LA : length a0 = 2%nat) by (inversion F0; auto). assert (LB : length b0 = 3%nat) by (inversion F1; auto).
  cbn [concat app length] in Lb, HK. injection Lb as Lb. destruct blocks as [|s0 [|t1 [|s2 [|]]]]; try discriminate.
  destruct (HK 0%nat false _ _ _ eq_refl eq_refl eq_refl) as (x0 & n0 & X0 & _ & _ & HF0). injection X0 as <-.
  destruct (HF0 eq_refl) as (p0 & P0 & -> & Ls0 & _). cbn [sc_opts ao_res ao_method wx_first nth_error] in P0. apply px_perc1 in P0. subst p0.
  destruct (HK 1%nat true _ _ _ eq_refl eq_refl eq_refl) as (x1 & n1 & X1 & _ & HT1 & _). injection X1 as <-.
  destruct (HT1 eq_refl) as (-> & p & tris & HM & HF).
  destruct (HK 2%nat false _ _ _ eq_refl eq_refl eq_refl) as (x2 & n2 & X2 & _ & _ & HF2). injection X2 as <-.
  destruct (HF2 eq_refl) as (p2 & P2 & -> & Ls2 & _). cbn [sc_opts ao_res ao_method] in P2. apply px_perc2 in P2. subst p2.
  rewrite LA in Ls0. rewrite LB in Ls2. cbn in Ls0, Ls2.
  assert (Lt : length t1 = 2%nat).
  { destruct HM as (t & s & cells & -> & _ & Hp & _).
    rewrite <- (Forall2_len _ _ _ HF). cbn in Hp. injection Hp as _ <-. reflexivity. }
  split.
  { apply HG. eexists 1%nat, _, t1. split; [reflexivity|]. split; [reflexivity|]. intros ->. discriminate. }
  split.
  { assert (Hk : In "LayerId"%string (map fst (uv_cd g))) by (apply HKey; cbn; auto). apply in_map_iff in Hk as ([k v] & Ek & Hv). cbn in Ek. subst k. eauto. }
  exists [[a0; a1]; [b0; b1]], nsubs, [s0; t1; s2], place, s0, t1, s2. auto 10.
Qed.

(* C171: the cells of stacks with transitions that are collapsed are not flagged: no cell is, as soon as gmsh gave a cell *)
Theorem C171_flags_partial :
  forall (D : Type) (num : Z -> D) int gm result other areas pvmerge tol clean interp o ax bu (arg : list R + lmesh (R * R * R) D) pts first segs rs m labels,
  (forall z, int (num z) = z) -> gmsh_elements result -> appends pvmerge -> cleans tol clean ->
  (ax <= 2)%nat -> base_ok arg -> base_points ax arg pts -> regular_run interp pts first -> runs interp pts segs rs -> segs <> [] ->
  (forall s p cells, to_pyvista (result s) = Ok (p, cells) -> flat_map snd cells <> []) ->
  transition_mesh num int gm result other areas pvmerge clean interp o (Z.of_nat ax) bu arg (program_of first segs) = Ok (m, labels) ->
  exists g, m = inr g /\ forall i, flag_of (uv_ghost g) i = 0%nat.
Proof.
  intros D num int gm result other areas pvmerge tol clean interp o ax bu arg pts first segs rs m labels H1 H2 H3 H4 H5 H6 H7 H8 H9 H10 HM H11.
  destruct (C170_mesh D num int gm result other areas pvmerge tol clean interp o ax bu arg pts first segs rs m labels H1 H2 H3 H4 H5 H6 H7 H8 H9 H10 H11)
    as (g & lines & nsubs & blocks & place & -> & HL & Lb & HK & HS & HSh & HN & HI & _ & HKey & HG).
  exists g. split; [reflexivity|]. assert (E : uv_ghost g = []); [|intros i; rewrite E; now destruct i].
  apply HG. destruct H8 as (_ & Hne & _). destruct H9 as [|pts a calls rest pts' rs _ (_ & Hne' & _) _ _]; [congruence|].
  destruct first as [|c0 first]; [congruence|]. destruct calls as [|c1 calls]; [congruence|].
  assert (Em : nth_error (marks ((pts, c0 :: first) :: (pts', c1 :: calls) :: rs)) (S (length first)) = Some (true, c1)).
  { unfold marks. cbn [flat_map snd app nth_error]. rewrite nth_error_app2 by (rewrite map_length; lia). rewrite map_length, Nat.sub_diag. reflexivity. }
  pose proof (marks_lines _ _ _ _ _ HL) as LM.
  assert (Hlt : (S (length first) < length (concat lines))%nat) by (rewrite <- LM; apply nth_error_Some; congruence).
  destruct (nth_error (concat lines) (length first)) as [la|] eqn:Ea; [|apply nth_error_None in Ea; lia].
  destruct (nth_error (concat lines) (S (length first))) as [lb|] eqn:Eb; [|apply nth_error_None in Eb; lia].
  destruct (HK _ _ _ _ _ Em Ea Eb) as (polys & ns & Ep & _ & HT & _). destruct (HT eq_refl) as (_ & p & tris & (t & s & cells & -> & _ & Hs & _) & HF).
  exists (length first), c1, polys. split; [exact Em|]. split; [exact Ep|]. intros ->. apply (HM _ _ _ Hs). now inversion HF.
Qed.
Print Assumptions C171_flags_partial.

(* two equal lines, then a transition *)
Definition wy_first : list st_call :=
  [mkStCall (ArgScalar 0) (mkAdd ResNone None 0%Z 0%R GNone); mkStCall (ArgScalar 0) (mkAdd (ResInt 1) None 0%Z 0%R (GStr "low"))].
Lemma wy_first_ok : regular_run wx_none wx_pts wy_first.
Proof.
  split; [cbn; lia|]. split; [discriminate|]. split; [repeat constructor|]. constructor; [|constructor].
  split; [|right; eexists; reflexivity].
  exact (int_spans (mkItem (fx_base 0) (ResInt 1) None 0%Z 0%R GNone false) Constant (or_intror (ex_intro _ 1%Z eq_refl)) ltac:(constructor)).
Qed.

(* whatever the areas, a quadrilateral whose two sides are equal, without flag *)
Theorem C171_flags_refuted : exists first segs, forall areas, exists g labels cells i v0 v1 v2 v3 p0 p1,
  transition_mesh zz zz tx_gm tx_result (fun _ _ _ => []) areas append_blocks (fun g => g) wx_none wx_opt 2 true wx_base (program_of first segs)
    = Ok (inr g, labels) /\
  cells_of g cells /\ nth_error cells i = Some (Plain 9 [v0; v1; v2; v3]) /\
  nth_error (uv_pts g) v0 = Some p0 /\ nth_error (uv_pts g) v3 = Some p0 /\
  nth_error (uv_pts g) v1 = Some p1 /\ nth_error (uv_pts g) v2 = Some p1 /\
  flag_of (uv_ghost g) i = 0%nat.
Proof.
  exists wy_first, wx_segs. intros areas. destruct wx_base_ok as [HB HP].
  assert (Hc : cleans 0 (fun g : uvol Z => g)) by (apply keep_cleans; lra).
  destruct (C170_defined Z zz zz tx_gm tx_result (fun _ _ _ => []) areas append_blocks 0 (fun g => g) wx_none wx_opt 2 true wx_base wx_pts wy_first wx_segs _
    (fun z => eq_refl) tx_elements append_blocks_appends Hc (le_n 2) HB HP wy_first_ok wx_runs ltac:(discriminate) tx_works
    (fun x y bs => ex_intro _ _ eq_refl)) as (g & labels & E).
  destruct (C170_mesh Z zz zz tx_gm tx_result (fun _ _ _ => []) areas append_blocks 0 (fun g => g) wx_none wx_opt 2 true wx_base wx_pts wy_first wx_segs _ _ labels
    (fun z => eq_refl) tx_elements append_blocks_appends Hc (le_n 2) HB HP wy_first_ok wx_runs ltac:(discriminate) E)
    as (g' & lines & nsubs & blocks & place & Eg & HL & Lb & HK & HS & (cells & Hcs & Lcs & HSh) & _). injection Eg as <-.
  destruct (C171_flags_partial Z zz zz tx_gm tx_result (fun _ _ _ => []) areas append_blocks 0 (fun g => g) wx_none wx_opt 2 true wx_base wx_pts wy_first wx_segs _ _ labels
    (fun z => eq_refl) tx_elements append_blocks_appends Hc (le_n 2) HB HP wy_first_ok wx_runs ltac:(discriminate)
    ltac:(intros s p c Hs; cbn in Hs; injection Hs as <- <-; discriminate) E) as (g' & Eg & HG). injection Eg as <-.
  inversion HL as [|? l0 ? ls R0 HL']; subst. inversion HL' as [|? l1 ? ls' R1 HL'']; subst. inversion HL''; subst. clear HL HL' HL''.
  destruct R0 as (L0 & F0 & R0). destruct R1 as (L1 & F1 & R1). cbn [fst snd] in *.
  destruct l0 as [|a0 [|a1 [|]]]; try (cbn in L0; discriminate). destruct l1 as [|b0 [|b1 [|]]]; try (cbn in L1; discriminate).
  assert (LA : length a0 = 2%nat) by (inversion F0; auto).
  cbn [concat app length] in Lb, HK. injection Lb as Lb. destruct blocks as [|s0 [|t1 [|s2 [|]]]]; try discriminate.
  destruct (HK 0%nat false _ _ _ eq_refl eq_refl eq_refl) as (x0 & n0 & X0 & _ & _ & HF0). injection X0 as <-.
  destruct (HF0 eq_refl) as (p0 & P0 & -> & Ls0 & HQ). cbn [sc_opts ao_res ao_method wy_first nth_error] in P0. apply px_perc1 in P0. subst p0.
  rewrite LA in Ls0, HQ. cbn in Ls0.
  assert (HH : forall i p, nth_error wx_pts i = Some p -> nth_error a0 i = Some p /\ nth_error a1 i = Some p).
  { intros i p Hp. assert (Hz : p = at_height 2 p 0).
    { destruct i as [|[|[|i]]]; cbn in Hp; try discriminate; injection Hp as <-; reflexivity. }
    destruct (R0 i p Hp) as (out & (ls & Hh & Hs & _) & Ho).
    inversion Hh as [|? ? z0 ? k0 Q0 G0]; subst. inversion G0 as [|? ? z1 ? k1 Q1 G1]; subst. inversion G1; subst.
    inversion Q1; subst. inversion Q0; subst. cbn [sc_opts ao_prio ao_thick wy_first] in Hs.
    inversion Hs as [|? ? ? ? ? ? ? o1 Lt S1|? ? ? ? ? ? ? o1 Le S1]; subst; [lia|]. inversion S1; subst.
    pose proof (Ho 0%nat a0 _ eq_refl eq_refl) as O0. pose proof (Ho 1%nat a1 _ eq_refl eq_refl) as O1. rewrite O0, O1.
    rewrite !Rabs_R0. replace (0 + 0 - 0) with 0 by lra. replace (0 + 0) with 0 by lra. rewrite Rmin_left by lra. rewrite <- Hz. auto. }
  destruct (HH 0%nat _ eq_refl) as [A00 A10]. destruct (HH 1%nat _ eq_refl) as [A01 A11].
  pose proof (HQ 0%nat 0%nat _ _ _ _ _ _ A00 A01 A10 A11 eq_refl eq_refl) as Hq. cbn [strip_rank] in Hq.
  change (nth_error s0 0 = Some [on_way 0 (0, 0, 0) (0, 0, 0); on_way 0 (2, 0, 0) (2, 0, 0); on_way 1 (2, 0, 0) (2, 0, 0); on_way 1 (0, 0, 0) (0, 0, 0)]) in Hq.
  assert (Hw : forall t p, on_way t p p = p) by (intros t [[x y] z]; unfold on_way; apply injective_projections; [apply injective_projections|]; cbn; ring).
  rewrite !Hw in Hq.
  assert (Hin : In (0, 0)%nat place) by (apply HS; exists s0; split; [reflexivity|lia]). apply In_nth_error in Hin as [i Hi].
  destruct (HSh i 0%nat 0%nat s0 _ Hi eq_refl Hq) as (ty & ids & Hci & Hty & HV).
  pose proof (Forall2_len _ _ _ HV) as LV. cbn in LV. destruct Hty as [[_ ?]|[-> _]]; [lia|].
  assert (Hex : forall p q, within 0 p q -> q = p).
  { intros [[x y] z] [[x' y'] z'] (W1 & W2 & W3). assert (HR : forall a b, Rabs (a - b) <= 0 -> b = a).
    { intros a b H. pose proof (Rabs_pos (a - b)). destruct (Req_dec (a - b) 0); [lra|]. pose proof (Rabs_pos_lt (a - b)). lra. }
    now rewrite (HR _ _ W1), (HR _ _ W2), (HR _ _ W3). }
  inversion HV as [|v0 ? ? ? (q0 & Q0 & W0) HV1]; subst. inversion HV1 as [|v1 ? ? ? (q1 & Q1 & W1) HV2]; subst.
  inversion HV2 as [|v2 ? ? ? (q2 & Q2 & W2) HV3]; subst. inversion HV3 as [|v3 ? ? ? (q3 & Q3 & W3) HV4]; subst. inversion HV4; subst.
  apply Hex in W0, W1, W2, W3. subst.
  exists g, labels, cells, i, v0, v1, v2, v3, (0, 0, 0), (2, 0, 0). auto 12.
Qed.
Print Assumptions C171_flags_refuted.
