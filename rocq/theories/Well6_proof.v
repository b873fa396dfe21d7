From Coq Require Import Reals Lra Lia Permutation Sorted.
From Verif Require Import RealAux Volume_model Volume_spec Lines_spec Groups_model Groups_spec Groups_proof Groups2_proof
  Stack_spec Stack3_proof SMerge_model SMerge_proof Unstr_model Unstr_spec Unstr1_proof Unstr3_proof
  Surface_model Polygon_model Voronoi_model Voronoi_spec VFinal_model VFinal_spec VFinal_proof VFinal2_proof
  MMerge_model MMerge_spec Paint_spec Paint_proof Well_model Well_spec Well_proof
  Sweep_model Sweep_spec Sweep2_model Sweep2_spec Sweep2_proof Well3_model Well3_spec Well3_proof Well4_model Well4_spec Well4_proof Well5_proof.
Open Scope nat_scope.

(* ---- columns ---- *)
Lemma pairs_map {A B} (f : A -> B) (l : list A) : pairs (map f l) = map (fun e => (f (fst e), f (snd e))) (pairs l).
Proof. induction l as [|x [|y l] IH]; [reflexivity|reflexivity|]. cbn [map pairs] in *. now rewrite IH. Qed.
Lemma ring_edges_map {A B} (f : A -> B) (l : list A) : ring_edges (map f l) = map (fun e => (f (fst e), f (snd e))) (ring_edges l).
Proof.
  destruct l as [|x l]; [reflexivity|]. cbn [map]. unfold ring_edges. rewrite <- pairs_map. cbn [map]. rewrite map_app. reflexivity.
Qed.
Lemma pairs_In {A} (l : list A) e : In e (pairs l) -> In (fst e) l /\ In (snd e) l.
Proof.
  induction l as [|x [|y l] IH]; cbn [pairs]; [intros []|intros []|]. intros [ <- |H]; cbn [fst snd]; [split; [now left|right; now left]|].
  destruct (IH H). split; now right.
Qed.
Lemma ring_edges_In {A} (l : list A) e : In e (ring_edges l) -> In (fst e) l /\ In (snd e) l.
Proof.
  destruct l as [|x l]; [intros []|]. unfold ring_edges. intros H. apply pairs_In in H.
  change (x :: l ++ [x]) with ((x :: l) ++ [x]) in H. rewrite !in_app_iff in H. cbn in *. intuition.
Qed.

Lemma extruded_seq np lay ty ids cell : extruded true np lay (ty, ids) cell -> ty <> 8 -> let n := length ids in
  exists cell0 f, extruded true n 0 (ty, seq 0 n) cell0 /\ cell = rename f cell0 /\
    forall i u, nth_error ids i = Some u -> f i = u + lay * np /\ f (i + n) = u + S lay * np.
Proof.
  intros He Hty n. set (g := fun i => nth i ids 0). set (f := fun x => g (x mod n) + (lay + x / n) * np).
  assert (Eg : map g (seq 0 n) = ids).
  { apply (nth_ext _ _ 0 0); [now rewrite map_length, seq_length|]. intros i Hi. rewrite map_length, seq_length in Hi.
    rewrite (nth_indep _ 0 (g 0)) by now rewrite map_length, seq_length. rewrite map_nth, seq_nth by exact Hi. reflexivity. }
  assert (F0 : forall i, i < n -> f i = g i + lay * np).
  { intros i Hi. unfold f. rewrite Nat.mod_small, Nat.div_small by exact Hi. f_equal. f_equal. lia. }
  assert (F1 : forall i, i < n -> f (i + n) = g i + S lay * np).
  { intros i Hi. unfold f. replace (i + n) with (i + 1 * n) by lia. rewrite Nat.mod_add, Nat.div_add by lia.
    rewrite Nat.mod_small, Nat.div_small by exact Hi. f_equal. f_equal. lia. }
  assert (FL : forall r, (forall i, In i r -> i < n) -> map f (lift 0 n r) = lift lay np (map g r) /\ map f (lift 1 n r) = lift (S lay) np (map g r)).
  { intros r Hr. unfold lift. rewrite !map_map. split; apply map_ext_in; intros i Hi.
    - rewrite Nat.mul_0_l, Nat.add_0_r. apply F0, Hr, Hi.
    - rewrite Nat.mul_1_l. apply F1, Hr, Hi. }
  assert (Hs : forall i, In i (seq 0 n) -> i < n) by (intros i Hi; apply in_seq in Hi; lia).
  destruct (FL _ Hs) as [FL0 FL1]. rewrite Eg in FL0, FL1.
  assert (Hend : forall i u, nth_error ids i = Some u -> f i = u + lay * np /\ f (i + n) = u + S lay * np).
  { intros i u Hi. assert (i < n) by (apply nth_error_Some; congruence). rewrite F0, F1 by assumption.
    unfold g. rewrite (nth_error_nth _ _ _ Hi). auto. }
  clearbody f g n. inversion He as [ids' E|ids' E|a b c d E|ids' ring Hring E]; subst; [| |lia|].
  - eexists _, f. split; [apply ext_triangle|]. split; [|exact Hend]. cbn [rename]. rewrite map_app, FL0, FL1. reflexivity.
  - eexists _, f. split; [apply ext_quad|]. split; [|exact Hend]. cbn [rename]. rewrite map_app, FL0, FL1. reflexivity.
  - assert (exists ring0, (ring0 = seq 0 n \/ true = true /\ ring0 = rev (seq 0 n)) /\ ring = map g ring0 /\ forall i, In i ring0 -> i < n) as (ring0 & H0 & -> & Hr0).
    { destruct Hring as [->|[_ ->]].
      - exists (seq 0 n). auto.
      - exists (rev (seq 0 n)). split; [auto|]. split; [now rewrite map_rev|]. intros i Hi. apply Hs. now apply in_rev. }
    exists (Poly (lift 0 n ring0 :: rev (lift 1 n ring0) :: map (fun '(u, v) => [u + 1 * n; v + 1 * n; v + 0 * n; u + 0 * n]) (ring_edges ring0))), f.
    split; [exact (ext_polygon true n 0 (seq 0 n) ring0 H0)|]. split; [|exact Hend].
    destruct (FL _ Hr0) as [E0 E1]. cbn [rename map]. rewrite map_rev, E0, E1. f_equal. f_equal. f_equal.
    rewrite ring_edges_map, !map_map. apply map_ext_in. intros [u v] Hin. apply ring_edges_In in Hin as [Hu Hv]. cbn [fst snd map] in *.
    rewrite !Nat.mul_0_l, !Nat.add_0_r, !Nat.mul_1_l. rewrite !F1, !F0 by auto. reflexivity.
Qed.

Lemma column_of tol np lay ty ids cell (pts : list (R * R * R)) F ps z z' : extruded true np lay (ty, ids) cell -> ty <> 8 -> length ids = length ps ->
  (forall i u p, nth_error ids i = Some u -> nth_error ps i = Some p ->
     (exists q, nth_error pts (F (u + lay * np)) = Some q /\ within tol (at_height z p) q) /\
     (exists q, nth_error pts (F (u + S lay * np)) = Some q /\ within tol (at_height z' p) q)) ->
  column tol pts (rename F cell) ty ps z z'.
Proof.
  intros He Hty L H. destruct (extruded_seq _ _ _ _ _ He Hty) as (cell0 & f & He0 & -> & Hf). rewrite L in *.
  exists cell0, (fun x => F (f x)). split; [exact He0|]. split.
  { destruct cell0 as [t i|fs]; cbn [rename]; f_equal; [apply map_map|]. rewrite map_map. apply map_ext. intros x. apply map_map. }
  intros i p Hp. assert (i < length ps) by (apply nth_error_Some; congruence).
  destruct (nth_error ids i) as [u|] eqn:Eu; [|apply nth_error_None in Eu; lia]. destruct (Hf i u Eu) as [-> ->]. exact (H i u p Eu Hp).
Qed.

(* ---- the mesh of polygons as a base ---- *)
Lemma flat_regular {D} (num : Z -> D) real r : vr_cells r <> [] ->
  length (vr_groups r) = length (vr_cells r) -> length (vr_xyz r) = length (vr_cells r) ->
  (forall c, In c (vr_cells r) -> fst c = face_type (length (snd c)) /\ 3 <= length (snd c) /\ forall i, In i (snd c) -> i < length (vr_pts r)) ->
  regular_ubase (length (vr_pts r)) (map fst (vr_cells r)) (lowered num (voronoi_ubase num real r)).
Proof.
  intros Hne Lg Lx Hc. unfold lowered, voronoi_ubase. cbn [setp uops getp ub_surf us_pts us_cells us_pd us_cd us_ghost ub_cg ub_labels].
  split; [split; [|split]|].
  - intros c E. cbn in E. injection E as <-. exact Lg.
  - cbn. repeat constructor; cbn; intuition discriminate.
  - cbn. intros base x Hb Hx. rewrite map_length. apply (Hc base Hb). exact Hx.
  - split. { destruct (vr_cells r); [contradiction|discriminate]. }
    split; [cbn; now rewrite map_length|]. split; [reflexivity|]. split; [|split; [|split]]; cbn.
    + intros ct ids Hin. destruct (Hc _ Hin) as (Et & H3 & _). cbn [fst snd] in *. subst ct. unfold face_type.
      destruct (length ids) as [|[|[|[|[|n]]]]]; auto; try lia.
    + intros k x [].
    + intros k x Hin. rewrite map_length. repeat (destruct Hin as [Hin|Hin]; [injection Hin as <- <-; rewrite map_length; congruence|]). destruct Hin.
    + discriminate.
Qed.

(* the cells returned without plain circles *)
Lemma returned_faces {A} (g : vgeo A) o b items vo t tol r : tidies tol (k_clean t) -> (forall ps, 3 <= length (v_clip vo ps)) ->
  generate_voronoi g o b items [] vo t = Ok r ->
  forall c, In c (vr_cells r) -> fst c = face_type (length (snd c)) /\ 3 <= length (snd c) /\ forall i, In i (snd c) -> i < length (vr_pts r).
Proof.
  intros T H3. unfold generate_voronoi. destruct (voronoi_mesh g o b items vo) as [m|] eqn:Em; [|discriminate]. cbn [bind].
  assert (Hpoly : forall cell, In cell (vm_cells m) -> 3 <= length cell /\ exists ps, picks (vm_points m) cell ps).
  { intros cell Hin. apply In_nth_error in Hin as (i & Hi). split; [|exact (voronoi_polygons g o b items vo m i cell Em Hi)].
    revert Em Hi. unfold voronoi_mesh. destruct (scatter g o b items) as [[st t0]|]; [|discriminate]. cbn [bind fst snd].
    unfold assemble. destruct (tessellation _ _ _ _ _) as [[regions verts]|]; [|discriminate]. cbn [bind].
    destruct (shorten _ _ _ _ _) as [[[[active vpts] regions'] verts']|]; [|discriminate]. cbn [bind].
    destruct (negb _); [discriminate|]. destruct (polygons _ _ _ _ _ _ _) as [[points cells]|] eqn:E; [|discriminate].
    cbn [bind]. intros H Hi. apply Ok_inj in H. subst m. cbn [vm_cells] in Hi.
    destruct (Voronoi4_proof.polygons_spec _ _ _ _ _ _ _ _ _ E) as (ext & css & -> & -> & F). cbn [app] in *.
    destruct (Forall2_get_r _ _ _ F i cell Hi) as (reg & _ & ps & _ & _ & Hpk). unfold picks in Hpk. apply Forall2_len in Hpk.
    rewrite Voronoi4_proof.orient_length in Hpk. rewrite Hpk. apply H3. }
  unfold polygon_mesh. destruct (vm_points m) as [|p0 ps0] eqn:Ep; [discriminate|]. rewrite <- Ep in *. cbn [bind].
  set (f := mkF _ _ _). unfold finish_voronoi. cbn [bind]. unfold cleaned.
  destruct (T (f_pts f) (f_cells f)) as (ren & Ec & Hpt). destruct (k_clean t (f_pts f, f_cells f)) as [pts cells]. cbn [fst snd] in Ec, Hpt. subst cells.
  destruct (clean_groups _ _) as [[cg labels]|]; [|discriminate]. cbn [bind]. intros H. apply Ok_inj in H. subst r. cbn [vr_cells vr_pts f_cells f_pts].
  intros c Hc. apply in_map_iff in Hc as (c0 & <- & Hc0). pose proof Hc0 as Hc0'. cbn [f f_cells] in Hc0. apply in_map_iff in Hc0 as (cell & <- & Hin).
  cbn [fst snd]. rewrite map_length. destruct (Hpoly cell Hin) as (L3 & ps & Hps). split; [reflexivity|]. split; [exact L3|].
  intros i Hi. apply in_map_iff in Hi as (j & <- & Hj). apply In_nth_error in Hj as (n & Hn).
  unfold picks in Hps. destruct (Forall2_get _ _ _ Hps n j Hn) as (p & _ & Hp).
  destruct (Hpt _ j (insert_axis (v_axis vo) p) Hc0') as (q & Hq & _).
  - cbn [snd]. eapply nth_error_In; eauto.
  - cbn [f f_pts]. rewrite nth_error_map, Hp. reflexivity.
  - apply nth_error_Some. congruence.
Qed.

Section Load.
Context {D : Type} (num : Z -> D) (real : R -> D) (int : D -> Z) (Hint : forall z, int (num z) = z) (areas : shape3 -> list pt -> list R).
Context (pvmerge : list (uvol D) -> res (uvol D)) (Hmerge : appends pvmerge) (Htotal : forall bs, 2 <= length bs -> exists g, pvmerge bs = Ok g).
Context (clean : R -> uvol D -> uvol D) (e1 e2 : R) (He1 : cleans e1 (clean (/ 10 ^ 8)%R)) (He2 : cleans e2 (clean (/ 10 ^ 4)%R)).
Context (pick : list nat -> uvol D -> uvol D) (Hpick : extracts pick).
Context (geo : vgeo (list pt)) (vo : voptions) (tools : vtools) (tol0 tol : R) (Hax : v_axis vo = 2).
Context (HD : forall vpts, length (d_point_region (v_diagram vo vpts)) = length vpts) (T0 : tidies tol0 (k_tidy tools)) (T : tidies tol (k_clean tools)).
Context (Hclip : forall ps, 3 <= length (v_clip vo ps)).

Lemma load_voronoi_3d_ok r : load_voronoi_2d num int areas pvmerge clean geo vo tools = Ok r ->
  In "Cement"%string (map fst (vr_labels r)) -> In "Matrix"%string (map fst (vr_labels r)) ->
  exists g labels place cells names,
    load_voronoi_3d num real int areas pvmerge clean pick geo vo tools = Ok (g, labels) /\
    cells_of g cells /\ names_of int g labels names /\ length cells = length place /\ length names = length place /\ NoDup place /\
    layer_ids num place g /\ above_data "X" (map (fun '(x, _, _) => real x) (vr_xyz r)) place g /\
    above_data "Y" (map (fun '(_, y, _) => real y) (vr_xyz r)) place g /\ above_data "Z" (map (fun '(_, _, z) => real z) (vr_xyz r)) place g /\
    uv_ghost g = [] /\
    (forall c h, In (c, h) place <-> exists k, named (vr_labels r) (vr_groups r) c k /\ (h < 10 \/ h < 13 /\ (k = "Core" \/ k = "Casing")%string)) /\
    forall i c h, nth_error place i = Some (c, h) ->
      exists k ty ids ps cell, named (vr_labels r) (vr_groups r) c k /\ nth_error names i = Some k /\ nth_error cells i = Some cell /\
        nth_error (vr_cells r) c = Some (ty, ids) /\ picks (vr_pts r) ids ps /\
        column e1 (uv_pts g) cell ty ps (well_height h) (well_height (S h)).
Proof.
  intros H HC HM.
  destruct (load_voronoi_2d_ok num int Hint areas pvmerge Hmerge (fun x y => Htotal [x; y] (le_n 2)) clean e1 e2 He1 He2 geo vo tools tol0 tol r Hax HD T0 T H)
    as (g2 & groups & l & sel & A & B & C & E & K & Hfour & Hsort & L1 & L2 & L3 & Hs & Hn & Hl & _).
  assert (Hface : forall c, In c (vr_cells r) -> fst c = face_type (length (snd c)) /\ 3 <= length (snd c) /\ forall i, In i (snd c) -> i < length (vr_pts r)).
  { revert H. unfold load_voronoi_2d. rewrite A. cbn [bind]. destruct (well_background int g2 groups) as [b|]; [|discriminate]. cbn [bind]. apply returned_faces with (tol := tol); auto. }
  assert (HV : NoDup (map snd (vr_labels r))).
  { destruct Hn as (_ & HV). rewrite HV. apply FinFun.Injective_map_NoDup; [intros x y E'; lia|apply seq_NoDup]. }
  pose proof (get_cell_group_spec (vr_groups r) (vr_labels r) HV) as HG.
  destruct (get_cell_group (Some (vr_groups r)) (Some (vr_labels r))) as [[[names2|z0]|]|e0] eqn:EG; unfold Groups_spec.table, dict in *; rewrite EG in HG; [|destruct HG|destruct HG|].
  2:{ exfalso. destruct HG as (_ & c & z & Hz & Hno). assert (Hc : c < length sel) by (rewrite <- L2; apply nth_error_Some; congruence).
      destruct (nth_error sel c) as [i|] eqn:Ei; [|apply nth_error_None in Ei; lia]. destruct (Hs c i Ei) as (k & ps & _ & _ & z' & Hz' & Hin).
      rewrite Hz in Hz'. injection Hz' as <-. exact (Hno k Hin). }
  destruct HG as [Ln HG].
  assert (Hin2 : forall k, In k (map fst (vr_labels r)) -> In k names2).
  { intros k Hk. apply Hl in Hk as (i & Hi). apply HG in Hi. eapply nth_error_In; eauto. }
  assert (HR : regular_ubase (length (vr_pts r)) (map fst (vr_cells r)) (lowered num (voronoi_ubase num real r))).
  { apply flat_regular; [|congruence|congruence|exact Hface].
    apply Hin2 in HC. destruct (vr_cells r); [|discriminate]. cbn in L1. destruct names2; [destruct HC|]. cbn in Ln. lia. }
  destruct (raise_ok num int Hint pvmerge Hmerge Htotal clean e1 He1 pick Hpick (voronoi_ubase num real r) _ _ (vr_groups r) (vr_labels r) names2
    HR eq_refl eq_refl Hn EG ltac:(cbn; congruence) ltac:(congruence)) as (g & labels & place & cells & names & E3 & F3 & G3 & LC & LN & NP & IP & IL & HDat & HGh & HP).
  - intros c k Hk. apply HG in Hk. assert (Hc : c < length sel). { destruct Hk as (z & Hz & _). rewrite <- L2. apply nth_error_Some. congruence. }
    destruct (nth_error sel c) as [i|] eqn:Ei; [|apply nth_error_None in Ei; lia]. destruct (Hs c i Ei) as (k' & ps & Hl' & _ & Hk').
    rewrite (Groups_proof.named_unique _ _ _ _ _ Hn Hk Hk'). exact (Hfour _ _ _ Hl').
  - apply Hin2, HC.
  - apply Hin2, HM.
  - exists g, labels, place, cells, names. split.
    { unfold load_voronoi_3d. rewrite H. cbn [bind]. exact E3. }
    split; [exact F3|]. split; [exact G3|]. split; [exact LC|]. split; [exact LN|]. split; [exact NP|]. split; [exact IL|].
    split; [apply HDat; [cbn; auto|cbn; intuition discriminate]|]. split; [apply HDat; [cbn; auto|cbn; intuition discriminate]|].
    split; [apply HDat; [cbn; auto|cbn; intuition discriminate]|].
    split. { apply HGh; [reflexivity|]. intros base Hin E0. destruct (Hface base Hin) as (_ & H3 & _). rewrite E0 in H3. cbn in H3. lia. }
    split.
    { intros c h. rewrite IP. split; intros (k & Hk & Hh); exists k; (split; [now apply HG|exact Hh]). }
    intros i c h Hi. destruct (HP i c h Hi) as (k & [ty ids] & np & lay & cell & F & Hk & Hnm & Hcell & Hbase & Hext & Hpt).
    cbn [voronoi_ubase ub_surf us_cells us_pts snd] in Hbase, Hpt. pose proof (nth_error_In _ _ Hbase) as Hin. destruct (Hface _ Hin) as (Ety & _ & Hlt). cbn [fst snd] in Ety, Hlt.
    destruct (picks_some (vr_pts r) ids Hlt) as (ps & Hps). exists k, ty, ids, ps, (rename F cell).
    split; [now apply HG|]. split; [exact Hnm|]. split; [exact Hcell|]. split; [exact Hbase|]. split; [exact Hps|].
    apply (column_of e1 np lay ty ids cell (uv_pts g) F ps _ _ Hext).
    + rewrite Ety. unfold face_type. destruct (length ids) as [|[|[|[|[|n]]]]]; discriminate.
    + exact (Forall2_len _ _ _ Hps).
    + intros j u p Hu Hp. unfold picks in Hps. destruct (Forall2_get _ _ _ Hps j u Hu) as (p' & Hp' & Hup). rewrite Hp in Hp'. injection Hp' as <-.
      pose proof (nth_error_In _ _ Hu) as Huin. split.
      * destruct (Hpt u 0 p Huin ltac:(lia) Hup) as (q & Hq & Hw). rewrite !Nat.add_0_r in *. eauto.
      * destruct (Hpt u 1 p Huin ltac:(lia) Hup) as (q & Hq & Hw). rewrite !Nat.add_1_r in *. eauto.
Qed.

Lemma whole_voronoi r : load_voronoi_2d num int areas pvmerge clean geo vo tools = Ok r -> (forall vs, v_pairs vo vs = None) ->
  In "Cement"%string (map fst (vr_labels r)) /\ In "Matrix"%string (map fst (vr_labels r)) /\
  forall place, NoDup place ->
    (forall c h, In (c, h) place <-> exists k, named (vr_labels r) (vr_groups r) c k /\ (h < 10 \/ h < 13 /\ (k = "Core" \/ k = "Casing")%string)) ->
    length place = 10 * 704 + 3 * 96.
Proof.
  intros H HN.
  destruct (load_voronoi_2d_ok num int Hint areas pvmerge Hmerge (fun x y => Htotal [x; y] (le_n 2)) clean e1 e2 He1 He2 geo vo tools tol0 tol r Hax HD T0 T H)
    as (g2 & groups & l & sel & A & B & C & E & (K1 & K2 & K3 & K4) & Hfour & Hsort & L1 & L2 & L3 & Hs & Hn & Hl & Hall). specialize (Hall HN).
  assert (Esel : sel = seq 0 704).
  { assert (Hlt : forall i, In i sel -> i < 704). { intros i Hi. apply In_nth_error in Hi as (j & Hj). destruct (Hs j i Hj) as (k & ps & Hk & _). rewrite <- E. apply nth_error_Some. congruence. }
    apply (sorted_same sel (seq 0 704)); [exact Hsort|apply Voronoi2_proof.seq_sorted|]. intros i. rewrite in_seq. split; [intros Hi; specialize (Hlt i Hi); lia|].
    intros [_ Hi]. assert (HI : incl (seq 0 704) sel); [|apply HI, in_seq; lia].
    apply NoDup_length_incl; [now apply sorted_nodup|rewrite seq_length, <- L1, Hall; apply le_n|]. intros j Hj. apply in_seq. specialize (Hlt j Hj). lia. }
  assert (Hnm : forall c k, named (vr_labels r) (vr_groups r) c k <-> exists ps, nth_error l c = Some (k, ps)).
  { intros c k. split.
    - intros Hk. assert (Hc : c < 704). { destruct Hk as (z & Hz & _). rewrite <- Hall, L1, <- L2. apply nth_error_Some. congruence. }
      destruct (Hs c c) as (k' & ps & Hl' & _ & Hk'). { rewrite Esel. rewrite (nth_error_nth' _ 0), seq_nth by (rewrite ?seq_length; exact Hc). reflexivity. }
      rewrite (Groups_proof.named_unique _ _ _ _ _ Hn Hk Hk'). eauto.
    - intros (ps & Hk). assert (Hc : c < 704) by (rewrite <- E; apply nth_error_Some; congruence).
      destruct (Hs c c) as (k' & ps' & Hl' & _ & Hk'). { rewrite Esel. rewrite (nth_error_nth' _ 0), seq_nth by (rewrite ?seq_length; exact Hc). reflexivity. }
      rewrite Hk in Hl'. injection Hl' as <- _. exact Hk'. }
  split; [|split].
  - apply Hl. destruct (count_in "Cement"%string l) as (c & ps & Hi); [rewrite K3; lia|]. exists c. apply Hnm. eauto.
  - apply Hl. destruct (count_in "Matrix"%string l) as (c & ps & Hi); [rewrite K4; lia|]. exists c. apply Hnm. eauto.
  - intros place NP IP. rewrite (count_places l place NP), K1, K2, E; [reflexivity|]. intros c h. rewrite IP. split.
    + intros (k & Hk & Hh). apply Hnm in Hk as (ps & Hk). eauto.
    + intros (k & ps & Hk & Hh). exists k. split; [apply Hnm; eauto|exact Hh].
Qed.
End Load.
