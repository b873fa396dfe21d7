From Coq Require Import Reals Lra Lia Sorted Permutation.
From Verif Require Lines5_proof.
From Verif Require Import Prelude Surface_model Groups_model Groups_spec Groups2_proof Polygon_model Polygon_spec Polygon3_proof
  Lines_spec Lines1_proof Topo5_proof Voronoi_model Voronoi_spec Voronoi1_proof Voronoi2_proof Voronoi3_proof Voronoi4_proof Voronoi5_proof
  Unstr_spec VFinal_model VFinal_spec VFinal_proof.
Open Scope nat_scope.

Definition before_clean (t : vtools) (fuse : list (pt -> bool)) (f f1 : fmesh pt frow) : Prop :=
  (fuse = [] /\ f1 = f) \/
  (fuse <> [] /\ exists f0, fuse_cells pt frow same_point (k_dimension t f) (k_boundary t f) f (map (selected t f) fuse) = Ok f0 /\
     f1 = cleaned (k_tidy t) f0).

Lemma generated {A} (g : vgeo A) o b items fuse vo t tol0 tol r :
  well_formed b items -> (forall vpts, length (d_point_region (v_diagram vo vpts)) = length vpts) ->
  tidies tol0 (k_tidy t) -> tidies tol (k_clean t) ->
  generate_voronoi g o b items fuse vo t = Ok r ->
  exists m f f1, voronoi_mesh g o b items vo = Ok m /\ polygon_mesh (v_axis vo) m = Ok f /\ mesh_of (v_axis vo) m f /\
    length (f_data f) = length (f_cells f) /\
    before_clean t fuse f f1 /\ vr_cells r = f_cells (cleaned (k_clean t) f1) /\ vr_pts r = f_pts (cleaned (k_clean t) f1) /\
    length (vr_cells r) = length (f_cells f1) /\ Groups_spec.numbered (vr_labels r) /\
    (exists kept, StronglySorted lt kept /\ picks (f_data f) kept (f_data f1) /\ length (f_cells f1) = length kept /\
       (fuse = [] -> kept = seq 0 (length (vm_cells m)))) /\
    (forall kept, picks (f_data f) kept (f_data f1) ->
       picks (vm_xyz m) kept (vr_xyz r) /\ length (vr_groups r) = length kept /\
       (forall k i, nth_error kept k = Some i -> forall name,
          named (vm_labels m) (vm_groups m) i name <-> named (vr_labels r) (vr_groups r) k name)) /\
    (forall name, In name (map fst (vr_labels r)) <-> exists k, named (vr_labels r) (vr_groups r) k name).
Proof.
  intros WF HD T0 T. unfold generate_voronoi. destruct (voronoi_mesh g o b items vo) as [m|] eqn:E; [|discriminate]. cbn [bind].
  destruct (voronoi_cells g o b items vo m WF HD E) as (S & sel & _ & _ & Lc & Lg & Lx & Hs & _).
  pose proof (voronoi_numbered _ _ _ _ _ _ WF E) as Nm.
  destruct (polygon_mesh (v_axis vo) m) as [f|] eqn:Ef; [|discriminate]. cbn [bind].
  pose proof (polygon_mesh_of (v_axis vo) m f ltac:(congruence) Ef) as Hf. pose proof Hf as (Fp & Fc & _ & Fg & Fx).
  assert (Ld : length (f_data f) = length (f_cells f)).
  { rewrite <- (map_length snd (f_cells f)), Fc, <- (map_length snd (f_data f)), Fx. congruence. }
  intros H. unfold finish_voronoi in H.
  assert (exists f1, before_clean t fuse f f1 /\
    (let f2 := cleaned (k_clean t) f1 in
     let! cl := clean_groups (Some (map fst (f_data f2))) (Some (vm_labels m)) in
     let '(cg, labels) := cl in
     Ok (mkVR (f_pts f2) (f_cells f2) (match cg with Some v => v | None => map fst (f_data f2) end)
           (map snd (f_data f2)) (match labels with Some d => d | None => vm_labels m end))) = Ok r) as (f1 & B & H').
  { destruct fuse as [|fn fs].
    - exists f. split; [left; split; reflexivity|]. exact H.
    - destruct (fuse_cells _ _ _ _ _ _ _) as [f0|] eqn:E0; [|discriminate]. cbn [bind] in H.
      exists (cleaned (k_tidy t) f0). split; [right; split; [discriminate|]; eauto|]. exact H. }
  clear H. cbv zeta in H'.
  assert (exists kept, StronglySorted lt kept /\ picks (f_data f) kept (f_data f1) /\ length (f_cells f1) = length kept /\
    (fuse = [] -> kept = seq 0 (length (vm_cells m)))) as (kept & Sk & Pk & Lk & Hk).
  { destruct B as [[-> ->]|[Hne (f0 & E0 & ->)]].
    - exists (seq 0 (length (f_data f))). split; [|split; [apply seq_picks|split; [rewrite seq_length; congruence|]]].
      + apply seq_sorted.
      + intros _. f_equal. rewrite Ld, <- (map_length snd (f_cells f)), Fc. reflexivity.
    - destruct (fuse_rows _ _ _ _ _ _ _ _ Ld E0) as (kept & K1 & _ & _ & K2 & K3). exists kept.
      apply Forall2_len in K3. destruct (cleaned_spec _ _ f0 T0) as (D1 & D2 & _). split; [exact K1|]. split; [rewrite D1; exact K2|].
      split; [congruence|]. intros ->. contradiction. }
  destruct (cleaned_spec _ _ f1 T) as (D1 & D2 & _).
  set (f2 := cleaned (k_clean t) f1) in *.
  assert (Pg : picks (vm_groups m) kept (map fst (f_data f2))) by (rewrite D1, <- Fg; apply picks_map; exact Pk).
  assert (Px : picks (vm_xyz m) kept (map snd (f_data f2))) by (rewrite D1, <- Fx; apply picks_map; exact Pk).
  destruct (clean_groups_spec (map fst (f_data f2)) (vm_labels m) Nm) as (data' & d' & Ec & L1 & N1 & N2 & N3 & _).
  { intros c Hc. rewrite (picks_len _ _ _ Pg) in Hc.
    destruct (nth_error kept c) as [i|] eqn:Ei; [|apply nth_error_None in Ei; lia].
    pose proof (picks_nth _ _ _ _ _ Pg Ei) as Hi.
    destruct (nth_error (map fst (f_data f2)) c) as [z|] eqn:Ez.
    2:{ apply nth_error_None in Ez. rewrite (picks_len _ _ _ Pg) in Ez. lia. }
    assert (Hlt : i < length sel) by (rewrite <- Lg; apply nth_error_Some; congruence).
    destruct (nth_error sel i) as [si|] eqn:Es; [|apply nth_error_None in Es; lia].
    destruct (Hs i si Es) as (s & name & _ & _ & _ & (z' & Hz' & Hin) & _). exists name, z'. split; [congruence|exact Hin]. }
  change table with dict in Ec.
  rewrite Ec in H'. cbn [bind] in H'. apply Ok_inj in H'. subst r. cbn [vr_pts vr_cells vr_groups vr_xyz vr_labels].
  exists m, f, f1. do 4 (split; [assumption || reflexivity|]). split; [exact B|].
  do 2 (split; [reflexivity|]). split; [exact D2|]. split; [exact N1|]. split; [eauto 6|]. split.
  - clear kept Sk Pk Lk Hk Pg Px. intros kept Pk.
    assert (Pg : picks (vm_groups m) kept (map fst (f_data f2))) by (rewrite D1, <- Fg; apply picks_map; exact Pk).
    split; [rewrite D1, <- Fx; apply picks_map; exact Pk|]. split; [rewrite L1; exact (picks_len _ _ _ Pg)|].
    intros k i Hi name. rewrite <- N2. unfold named. rewrite (picks_nth _ _ _ _ _ Pg Hi). reflexivity.
  - intros name. rewrite N3. split; intros (c & Hc); exists c; now apply N2.
Qed.

(* one cell per retained candidate *)
Lemma returned_cells {A} (g : vgeo A) o b items fuse vo t tol0 tol r :
  well_formed b items -> (forall vpts, length (d_point_region (v_diagram vo vpts)) = length vpts) ->
  tidies tol0 (k_tidy t) -> tidies tol (k_clean t) ->
  generate_voronoi g o b items fuse vo t = Ok r ->
  exists S sel, candidates g b items S /\ StronglySorted lt sel /\
    length (vr_cells r) = length sel /\ length (vr_groups r) = length sel /\ length (vr_xyz r) = length sel /\
    (forall k i, nth_error sel k = Some i -> exists s name, nth_error S i = Some s /\ ~ covered g b items s /\
       nth_error (vr_xyz r) k = Some (flattened (v_axis vo) (s_pt s)) /\
       named (vr_labels r) (vr_groups r) k name /\ site_name o b items s name) /\
    Groups_spec.numbered (vr_labels r) /\
    (forall name, In name (map fst (vr_labels r)) <-> exists k, named (vr_labels r) (vr_groups r) k name) /\
    (fuse = [] -> (forall vs, v_pairs vo vs = None) ->
     forall i s, nth_error S i = Some s -> ~ covered g b items s -> In i sel).
Proof.
  intros WF HD T0 T H. destruct (generated _ _ _ _ _ _ _ _ _ _ WF HD T0 T H)
    as (m & f & f1 & E & _ & _ & _ & _ & _ & _ & Lc & N & (kept & Sk & Pk & Lk & Hk) & HK & Ht).
  destruct (HK kept Pk) as (Px & Lg & Hn). rewrite Lk in Lc.
  destruct (voronoi_cells g o b items vo m WF HD E) as (S & sel & HC & Ss & Lc' & Lg' & Lx' & Hs & Hall).
  assert (Hex : exists sel', picks sel kept sel').
  { assert (R : forall i, In i kept -> i < length sel).
    { intros i Hi. destruct (picks_range _ _ _ _ Px Hi) as (x & Hx). rewrite <- Lx'. apply nth_error_Some. congruence. }
    clear - R. induction kept as [|i kept IH]; [exists []; constructor|].
    destruct IH as (s' & H'); [intros; apply R; now right|]. destruct (nth_error sel i) as [x|] eqn:E.
    - exists (x :: s'). constructor; assumption.
    - apply nth_error_None in E. specialize (R i (or_introl eq_refl)). lia. }
  destruct Hex as (sel' & Ps). exists S, sel'. split; [exact HC|].
  split; [exact (sorted_picks _ _ _ Ss Sk Ps)|]. rewrite (picks_len _ _ _ Ps). do 2 (split; [assumption|]).
  split; [exact (picks_len _ _ _ Px)|]. split; [|split; [exact N|split; [exact Ht|]]].
  - intros k i Hi. assert (exists k0, nth_error kept k = Some k0 /\ nth_error sel k0 = Some i) as (k0 & Hk0 & Hi0).
    { clear - Ps Hi. revert k Hi. induction Ps as [|k0 x kept xs Hx _ IH]; intros [|k] Hi; cbn in *; try discriminate; eauto.
      injection Hi as ->. eauto. }
    destruct (Hs k0 i Hi0) as (s & name & H1 & H2 & H3 & H4 & H5). exists s, name. do 2 (split; [assumption|]).
    split; [rewrite (picks_nth _ _ _ _ _ Px Hk0); exact H3|]. split; [|exact H5]. now apply (Hn k k0 Hk0).
  - intros Hf HN i s Hi Hc. assert (Hin : In i sel) by eauto. rewrite (Hk Hf), Lc' in Ps.
    rewrite (picks_fun _ _ _ _ Ps (seq_picks sel)). exact Hin.
Qed.

(* ---- circles ---- *)
Lemma cell_points_picks m f axis c ps : f_pts f = map (lifted axis) (vm_points m) -> picks (vm_points m) (snd c) ps ->
  cell_points f c = map (lifted axis) ps.
Proof.
  intros E H. unfold cell_points. rewrite E. induction H as [|i p ids ps Hi _ IH]; cbn; [reflexivity|]. f_equal; [|exact IH].
  apply nth_error_nth. rewrite nth_error_map, Hi. reflexivity.
Qed.

Lemma picks_unique {A} (v : list A) ids a b : picks v ids a -> picks v ids b -> a = b.
Proof. apply Lines1_proof.picks_fun. Qed.

Lemma selected_spec t m f axis func :
  mesh_of axis m f -> (forall i cell, nth_error (vm_cells m) i = Some cell -> exists ps, picks (vm_points m) cell ps) ->
  listing (enclosed t axis m func) (selected t f func).
Proof.
  intros (Fp & Fc & _ & _ & _) R. unfold selected. rewrite <- (map_length (fun c => func (k_center t (cell_points f c))) (f_cells f)).
  split; [apply mask_get_seq_sorted|]. intros i. rewrite mask_get_seq_In, Nat.sub_0_r, nth_error_map. split.
  - intros [_ H]. destruct (nth_error (f_cells f) i) as [c|] eqn:Ec; [|discriminate]. cbn in H. injection H as H.
    assert (Hc : nth_error (vm_cells m) i = Some (snd c)) by (rewrite <- Fc, nth_error_map, Ec; reflexivity).
    destruct (R _ _ Hc) as (ps & Hp). exists ps. split; [exists (snd c); auto|]. now rewrite <- (cell_points_picks _ _ _ _ _ Fp Hp).
  - intros (ps & (cell & Hc & Hp) & Ht). split; [lia|].
    rewrite <- Fc, nth_error_map in Hc. destruct (nth_error (f_cells f) i) as [c|]; [|discriminate]. cbn in Hc. injection Hc as <-.
    cbn. f_equal. now rewrite (cell_points_picks _ _ _ _ _ Fp Hp).
Qed.

Lemma listing_unique P l l' : listing P l -> listing P l' -> l = l'.
Proof.
  intros [S H] [S' H']. assert (E : forall i, In i l <-> In i l') by (intros; rewrite H, H'; reflexivity). clear H H' P.
  revert l' S' E. induction S as [|a l S IH Ha]; intros l' S' E.
  - destruct l' as [|b l']; [reflexivity|]. destruct (proj2 (E b) (or_introl eq_refl)).
  - destruct l' as [|b l']; [destruct (proj1 (E a) (or_introl eq_refl))|].
    apply StronglySorted_inv in S' as [S' Hb]. rewrite Forall_forall in Ha, Hb.
    assert (a = b).
    { destruct (proj1 (E a) (or_introl eq_refl)) as [|Hab]; [congruence|]. destruct (proj2 (E b) (or_introl eq_refl)) as [|Hba]; [congruence|].
      specialize (Ha _ Hba). specialize (Hb _ Hab). lia. }
    subst b. f_equal. apply IH; [exact S'|]. intros i. split; intros Hi.
    + destruct (proj1 (E i) (or_intror Hi)) as [<-|]; [|assumption]. specialize (Ha _ Hi). lia.
    + destruct (proj2 (E i) (or_intror Hi)) as [<-|]; [|assumption]. specialize (Hb _ Hi). lia.
Qed.

Lemma apart_separate t axis m f fuse :
  mesh_of axis m f -> (forall i cell, nth_error (vm_cells m) i = Some cell -> exists ps, picks (vm_points m) cell ps) ->
  apart t axis m fuse -> Polygon_spec.separate (map (selected t f) fuse).
Proof.
  intros Hf R [H1 H2]. split.
  - assert (forall k, (forall j j' c c' i, nth_error (skipn k fuse) j = Some c -> nth_error (skipn k fuse) j' = Some c' ->
       enclosed t axis m c i -> enclosed t axis m c' i -> j = j') -> NoDup (concat (map (selected t f) (skipn k fuse)))) as Q.
    { clear H1 H2. intros k. generalize (skipn k fuse) as l. induction l as [|c l IH]; intros H; cbn; [constructor|].
      destruct (selected_spec t m f axis c Hf R) as [Sc Ec].
      assert (NoDup (concat (map (selected t f) l))).
      { apply IH. intros j j' d d' i Hj Hj' ? ?. assert (S j = S j') by (eapply (H (S j) (S j')); eauto). congruence. }
      assert (NoDup (selected t f c)).
      { clear - Sc. induction Sc as [|x l _ IH Hx]; constructor; auto. intros Hi. rewrite Forall_forall in Hx. specialize (Hx _ Hi). lia. }
      apply Lines5_proof.NoDup_app; auto. intros i Hi Hc. apply in_concat in Hc as (y & Hy & Hiy). apply in_map_iff in Hy as (d & <- & Hd).
      apply In_nth_error in Hd as (j & Hj). assert (0 = S j); [|discriminate].
      eapply (H 0 (S j) c d i); eauto; [now apply Ec|]. now apply (selected_spec t m f axis d Hf R). }
    apply (Q 0). exact H2.
  - rewrite Forall_forall. intros l Hl. apply in_map_iff in Hl as (c & <- & Hc). destruct (H1 c Hc) as (i & Hi).
    apply (selected_spec t m f axis c Hf R) in Hi. intros E. rewrite E in Hi. destruct Hi.
Qed.

Lemma first_hd (P : nat -> Prop) l i rest : listing P l -> l = i :: rest -> first_of P i /\ forall x, P x -> first_of P x -> x = i.
Proof.
  intros [S H] ->. apply StronglySorted_inv in S as [S Hf]. rewrite Forall_forall in Hf.
  assert (F : first_of P i).
  { split; [apply H; now left|]. intros j Hj. apply H in Hj as [<-|Hj]; [lia|]. specialize (Hf _ Hj). lia. }
  split; [exact F|]. intros x Hx [_ Hm]. destruct F as [Fi Fm]. specialize (Hm i Fi). specialize (Fm x Hx). lia.
Qed.

Lemma kept_first t axis m f fuse i :
  (forall c, listing (enclosed t axis m c) (selected t f c)) ->
  ((forall c, In c fuse -> enclosed t axis m c i -> first_of (enclosed t axis m c) i) <-> ~ later (map (selected t f) fuse) i).
Proof.
  intros Sel. split.
  - intros Hr (i0 & rest & Hg & Hin). apply in_map_iff in Hg as (c & Es & Hc).
    assert (He : enclosed t axis m c i) by (apply (Sel c); rewrite Es; now right).
    destruct (first_hd _ _ _ _ (Sel c) Es) as [_ F]. rewrite (F i He (Hr c Hc He)) in Hin.
    destruct (Sel c) as [Ss _]. rewrite Es in Ss. apply StronglySorted_inv in Ss as [_ Ss]. rewrite Forall_forall in Ss.
    specialize (Ss _ Hin). lia.
  - intros Hr c Hc He. destruct (selected t f c) as [|i0 rest] eqn:Es.
    + apply (Sel c) in He. rewrite Es in He. destruct He.
    + destruct (first_hd _ _ _ _ (Sel c) Es) as [F _]. pose proof (proj2 (proj2 (Sel c) i) He) as Hin. rewrite Es in Hin.
      destruct Hin as [<-|Hin]; [exact F|]. exfalso. apply Hr. exists i0, rest. split; [|exact Hin]. rewrite <- Es. now apply in_map.
Qed.

Lemma sorted_same (l l' : list nat) : StronglySorted lt l -> StronglySorted lt l' -> (forall i, In i l <-> In i l') -> l = l'.
Proof. intros S S' E. apply (listing_unique (fun i => In i l')); split; auto. reflexivity. Qed.

Lemma circles_kept {A} (g : vgeo A) o b items fuse vo t tol0 tol m r :
  well_formed b items -> (forall vpts, length (d_point_region (v_diagram vo vpts)) = length vpts) ->
  (0 <= tol0)%R -> tidies tol0 (k_tidy t) -> tidies tol (k_clean t) ->
  voronoi_mesh g o b items vo = Ok m ->
  generate_voronoi g o b items fuse vo t = Ok r ->
  exists kept, remaining (tol0 + tol) t (v_axis vo) fuse m r kept.
Proof.
  intros WF HD P0 T0 T Em H. destruct (generated _ _ _ _ _ _ _ _ _ _ WF HD T0 T H)
    as (m' & f & f1 & E & Ef & Hf & Ld & B & Ec & Ep & Lc & N & (kept & Sk & Pk & Lk & Hk) & HK & Ht).
  assert (m' = m) by congruence. subst m'. clear E.
  assert (R := fun i cell => voronoi_polygons g o b items vo m i cell Em).
  assert (Sel := fun c => selected_spec t m f (v_axis vo) c Hf R).
  destruct (cleaned_spec _ _ f1 T) as (D1 & D2 & D3). pose proof Hf as (Fp & Fc & _ & Fg & Fx).
  assert (Lcells : length (f_cells f) = length (vm_cells m)) by (rewrite <- Fc; symmetry; apply map_length).
  destruct B as [[-> ->]|[Hne (f0 & E0 & ->)]].
  - (* no circle *)
    destruct (HK kept Pk) as (Px & Lg & Hn). rewrite Lk in Lc. exists kept. rewrite (Hk eq_refl) in *. split; [exact Sk|]. split.
    { intros i. rewrite in_seq. split; [intros; split; [lia|intros c []]|lia]. }
    do 3 (split; [assumption|]). intros k i Hi. split; [exact (Hn k i Hi)|].
    assert (k < length (vm_cells m)) by (rewrite <- (seq_length (length (vm_cells m)) 0); apply nth_error_Some; congruence).
    rewrite nth_error_seq in Hi. destruct (k <? length (vm_cells m)) eqn:Ek; [|discriminate]. injection Hi as <-.
    destruct (nth_error (f_cells f) k) as [c|] eqn:Ek'.
    2:{ apply nth_error_None in Ek'. lia. }
    destruct (D3 k c Ek') as (c' & Hc' & _ & Ho). rewrite Ec. exists c'. split; [exact Hc'|].
    intros _ ps (cell & Hcell & Hp). rewrite <- Fc, nth_error_map, Ek' in Hcell. cbn in Hcell. injection Hcell as <-.
    destruct (Ho (map (lifted (v_axis vo)) ps)) as (qs & Q1 & Q2); [rewrite Fp; apply picks_map; exact Hp|].
    exists qs. rewrite Ep. split; [exact Q1|]. clear - P0 Q2. revert Q2. generalize (map (lifted (v_axis vo)) ps) as l. intros l Q2.
    induction Q2 as [|p q l qs Hw _ IH]; constructor; auto.
    apply (within_trans _ _ _ p); [|exact Hw]. destruct p as [[x y] z]. cbn. rewrite !Rminus_eq_0, !Rabs_R0. auto.
  - destruct (fuse_rows _ _ _ _ _ _ _ _ Ld E0) as (kept' & Sk' & Hk' & Fp0 & Fdata & Fcells).
    destruct (cleaned_spec _ _ f0 T0) as (D1' & D2' & D3').
    clear kept Sk Pk Lk Hk. destruct (HK kept') as (Px & Lg & Hn); [rewrite D1'; exact Fdata|].
    pose proof (Forall2_len _ _ _ Fcells) as L1. rewrite D2' in Lc.
    exists kept'. split; [exact Sk'|]. split; [intros i; rewrite Hk', Lcells, (kept_first t (v_axis vo) m f fuse i Sel); reflexivity|].
    split; [lia|]. split; [exact Px|]. split; [exact Lg|]. intros k i Hi. split; [exact (Hn k i Hi)|].
    assert (exists c0, nth_error (f_cells f0) k = Some c0 /\ (~ In i (concat (map (selected t f) fuse)) -> nth_error (f_cells f) i = Some c0))
      as (c0 & Hc0 & Hsame).
    { clear - Fcells Hi. revert k Hi. induction Fcells as [|x c xs cs Hx _ IH]; intros [|k] Hi; cbn in *; try discriminate; eauto.
      injection Hi as <-. eauto. }
    destruct (D3' k c0 Hc0) as (c1 & Hc1 & T1 & O1). destruct (D3 k c1 Hc1) as (c2 & Hc2 & T2 & O2).
    exists c2. rewrite Ec, Ep. split; [exact Hc2|]. intros Hno ps (cell & Hcell & Hp).
    assert (Hn0 : ~ In i (concat (map (selected t f) fuse))).
    { intros Hin. apply in_concat in Hin as (l & Hl & Hil). apply in_map_iff in Hl as (c & <- & Hc). apply (Hno c Hc). now apply (Sel c). }
    specialize (Hsame Hn0). assert (snd c0 = cell) as <-.
    { rewrite <- Fc, nth_error_map in Hcell. rewrite Hsame in Hcell. cbn in Hcell. congruence. }
    eapply outlined_trans; [apply O1|exact O2]. rewrite Fp0, Fp. apply picks_map. exact Hp.
Qed.

Lemma circles_fused {A} (g : vgeo A) o b items fuse vo t tol0 tol m r :
  well_formed b items -> (forall vpts, length (d_point_region (v_diagram vo vpts)) = length vpts) ->
  (0 <= tol0)%R -> tidies tol0 (k_tidy t) -> tidies tol (k_clean t) ->
  voronoi_mesh g o b items vo = Ok m ->
  apart t (v_axis vo) m fuse -> simple_boundary t (v_axis vo) m fuse ->
  generate_voronoi g o b items fuse vo t = Ok r ->
  fused_circles (tol0 + tol) t (v_axis vo) fuse m r.
Proof.
  intros WF HD P0 T0 T Em HA HB H.
  destruct (circles_kept _ _ _ _ _ _ _ _ _ _ _ WF HD P0 T0 T Em H) as (kept & Hrem). exists kept. split; [exact Hrem|].
  destruct Hrem as (Sk & Hk & _).
  destruct (generated _ _ _ _ _ _ _ _ _ _ WF HD T0 T H)
    as (m' & f & f1 & E & Ef & Hf & Ld & B & Ec & Ep & Lc & N & _ & HK & Ht).
  assert (m' = m) by congruence. subst m'. clear E.
  assert (R := fun i cell => voronoi_polygons g o b items vo m i cell Em).
  assert (Sel := fun c => selected_spec t m f (v_axis vo) c Hf R).
  destruct (cleaned_spec _ _ f1 T) as (D1 & D2 & D3). pose proof Hf as (Fp & Fc & _ & Fg & Fx).
  destruct B as [[-> ->]|[Hne (f0 & E0 & ->)]]; [intros ? []|].
  assert (Fu := fuse_fused pt frow same_point (k_dimension t f) (k_boundary t f) same_point_spec f (map (selected t f) fuse) f0).
  destruct Fu as (Fp0 & kept' & Sk' & Hk' & Fcells & Fdata); auto.
  { apply (apart_separate t (v_axis vo) m f fuse Hf R HA). }
  { intros l poly Hl Hb. apply in_map_iff in Hl as (c & <- & Hc). eapply HB; eauto. }
  assert (Lcells : length (f_cells f) = length (vm_cells m)) by (rewrite <- Fc; symmetry; apply map_length).
  assert (kept' = kept) as ->.
  { apply sorted_same; auto. intros i. rewrite Hk, Hk', Lcells, (kept_first t (v_axis vo) m f fuse i Sel). unfold later.
    split; intros [? Hr]; (split; [assumption|]); [intros (? & ? & ? & ?); eapply Hr; eauto|intros a l Hg Hin; apply Hr; eauto]. }
  destruct (cleaned_spec _ _ f0 T0) as (D1' & D2' & D3').
  intros c Hc. destruct (proj1 HA c Hc) as (x & Hx). destruct (selected t f c) as [|i rest] eqn:Es.
  { apply (Sel c) in Hx. rewrite Es in Hx. destruct Hx. }
  clear x Hx. destruct (first_hd _ _ _ _ (Sel c) Es) as [Fi _]. pose proof Fi as [He _].
  assert (Hin : In i kept).
  { apply Hk. split.
    - destruct He as (ps & (cell & Hcell & _) & _). apply nth_error_Some. congruence.
    - intros c' Hc' He'. apply In_nth_error in Hc as (j & Hj). apply In_nth_error in Hc' as (j' & Hj').
      assert (j = j') by (eapply (proj2 HA); eauto). subst j'. rewrite Hj in Hj'. injection Hj' as <-. exact Fi. }
  apply In_nth_error in Hin as (k & Hi).
  assert (exists c0, nth_error (f_cells f0) k = Some c0 /\ fused_into (k_boundary t f) (map (selected t f) fuse) f i c0) as (c0 & Hc0 & Hinto).
  { clear - Fcells Hi. revert k Hi. induction Fcells as [|x c xs cs Hx _ IH]; intros [|k] Hi; cbn in *; try discriminate; eauto.
    injection Hi as <-. eauto. }
  destruct (D3' k c0 Hc0) as (c1 & Hc1 & T1 & O1). destruct (D3 k c1 Hc1) as (c2 & Hc2 & T2 & O2).
  destruct Hinto as [[Hni _]|(g0 & rest' & poly & Hg & -> & Hb & H7 & Hp)].
  - exfalso. apply Hni. apply in_concat. exists (selected t f c). split; [now apply in_map|]. rewrite Es. now left.
  - apply in_map_iff in Hg as (c' & Es' & Hc'). apply In_nth_error in Hc as (j & Hj). apply In_nth_error in Hc' as (j' & Hj').
    assert (enclosed t (v_axis vo) m c' i) by (apply (Sel c'); rewrite Es'; now left).
    assert (j = j') by (eapply (proj2 HA); eauto). subst j'. rewrite Hj in Hj'. injection Hj' as <-.
    exists k, i, c2, f, (i :: rest'), poly. rewrite Ec, Ep. split; [exact Hi|]. split; [exact Fi|]. split; [exact Hc2|].
    split; [congruence|]. split; [exact Hf|]. split; [rewrite <- Es'; apply Sel|].
    split; [exact Hb|]. rewrite <- Fp0 in Hp. eapply outlined_trans; [apply O1; exact Hp|]. exact O2.
Qed.

(* ---- when the mesh exists ---- *)
Lemma circles_defined {A} (g : vgeo A) o b items fuse vo t m :
  well_formed b items -> (forall vpts, length (d_point_region (v_diagram vo vpts)) = length vpts) ->
  voronoi_mesh g o b items vo = Ok m -> simple_boundary t (v_axis vo) m fuse ->
  ((exists r, generate_voronoi g o b items fuse vo t = Ok r) <->
   vm_points m <> [] /\ forall circle, In circle fuse -> (exists i, enclosed t (v_axis vo) m circle i) /\ joined t (v_axis vo) m circle).
Proof.
  intros WF HD Em HB. assert (R := fun i cell => voronoi_polygons g o b items vo m i cell Em).
  destruct (voronoi_cells g o b items vo m WF HD Em) as (S & sel & _ & _ & Lc & Lg & Lx & Hs & _).
  pose proof (voronoi_numbered _ _ _ _ _ _ WF Em) as Nm.
  unfold generate_voronoi. rewrite Em. cbn [bind].
  destruct (polygon_mesh (v_axis vo) m) as [f|e] eqn:Ef.
  2:{ unfold polygon_mesh in Ef. destruct (vm_points m); [|discriminate]. cbn [bind]. split; [intros (? & ?); discriminate|intros [? _]; congruence]. }
  assert (Hp : vm_points m <> []) by (unfold polygon_mesh in Ef; destruct (vm_points m); discriminate).
  assert (Hf : mesh_of (v_axis vo) m f) by (apply polygon_mesh_of; [congruence|exact Ef]).
  pose proof Hf as (Fp & Fc & Ft & Fg & Fx).
  assert (Sel := fun c => selected_spec t m f (v_axis vo) c Hf R).
  assert (Ld : length (f_data f) = length (f_cells f)).
  { rewrite <- (map_length snd (f_cells f)), Fc, <- (map_length snd (f_data f)), Fx. congruence. }
  assert (Hcl : forall rows kept, picks (f_data f) kept rows -> exists x y, clean_groups (Some (map fst rows)) (Some (vm_labels m)) = Ok (x, y)).
  { intros rows kept Pk. assert (Pg : picks (vm_groups m) kept (map fst rows)) by (rewrite <- Fg; apply picks_map; exact Pk).
    destruct (clean_groups_spec (map fst rows) (vm_labels m) Nm) as (data' & d' & Ec & _); [|change table with dict in Ec; eauto].
    intros c Hc. rewrite (picks_len _ _ _ Pg) in Hc.
    destruct (nth_error kept c) as [i|] eqn:Ei; [|apply nth_error_None in Ei; lia].
    pose proof (picks_nth _ _ _ _ _ Pg Ei) as Hi.
    destruct (nth_error (map fst rows) c) as [z|] eqn:Ez.
    2:{ apply nth_error_None in Ez. rewrite (picks_len _ _ _ Pg) in Ez. lia. }
    assert (Hlt : i < length sel) by (rewrite <- Lg; apply nth_error_Some; congruence).
    destruct (nth_error sel i) as [si|] eqn:Es; [|apply nth_error_None in Es; lia].
    destruct (Hs i si Es) as (s & name & _ & _ & _ & (z' & Hz' & Hin) & _). exists name, z'. split; [congruence|exact Hin]. }
  assert (Hend : forall f1, (exists kept, picks (f_data f) kept (f_data f1)) ->
    exists r, (let f2 := cleaned (k_clean t) f1 in
     let! cl := clean_groups (Some (map fst (f_data f2))) (Some (vm_labels m)) in
     let '(cg, labels) := cl in
     Ok (mkVR (f_pts f2) (f_cells f2) (match cg with Some v => v | None => map fst (f_data f2) end)
           (map snd (f_data f2)) (match labels with Some d => d | None => vm_labels m end))) = Ok r).
  { intros f1 (kept & Pk). cbv zeta. assert (D1 : f_data (cleaned (k_clean t) f1) = f_data f1).
    { unfold cleaned. destruct (k_clean t _). reflexivity. }
    rewrite D1. destruct (Hcl _ _ Pk) as (x & y & E). rewrite E. cbn [bind]. eauto. }
  assert (Hu : forall f', mesh_of (v_axis vo) m f' -> f' = f).
  { intros f' (Fp' & Fc' & Ft' & Fg' & Fx'). destruct f as [p c d], f' as [p' c' d']. cbn [f_pts f_cells f_data] in *. f_equal.
    - congruence.
    - rewrite <- Fc in Fc'. clear - Fc' Ft Ft'. revert c Fc' Ft. induction c' as [|[a x] c' IH]; intros [|[b y] c] E T; try discriminate; [reflexivity|].
      cbn in E. injection E as -> E. f_equal; [|apply IH; [|exact E|]; intros; [apply Ft'|apply T]; now right].
      specialize (T (b, y) (or_introl eq_refl)). specialize (Ft' (a, y) (or_introl eq_refl)). cbn [fst snd] in *. congruence.
    - rewrite <- Fg in Fg'. rewrite <- Fx in Fx'. clear - Fg' Fx'. revert d Fg' Fx'. induction d' as [|[a x] d' IH]; intros [|[b y] d] E T; try discriminate; [reflexivity|].
      cbn in E, T. injection E as -> E. injection T as -> T. f_equal. now apply IH. }
  cbn [bind]. unfold finish_voronoi. destruct fuse as [|fn fs] eqn:Efuse.
  - split; [intros _; split; [exact Hp|intros ? []]|]. intros _. cbn [bind]. apply Hend. exists (seq 0 (length (f_data f))). apply seq_picks.
  - rewrite <- Efuse. rewrite <- Efuse in HB. assert (Hne : fuse <> []) by (rewrite Efuse; discriminate). clear Efuse fn fs.
    assert (Fo := fuse_ok pt frow same_point (k_dimension t f) (k_boundary t f) same_point_spec f (map (selected t f) fuse)
      ltac:(intros l poly Hl Hb; apply in_map_iff in Hl as (c & <- & Hc); eapply HB; eauto)).
    assert (Hfus : Forall (fusable (k_dimension t f) (k_boundary t f) f) (map (selected t f) fuse) <->
      forall circle, In circle fuse -> (exists i, enclosed t (v_axis vo) m circle i) /\ joined t (v_axis vo) m circle).
    { rewrite Forall_forall. split.
      - intros H c Hc. destruct (H (selected t f c) (in_map _ _ _ Hc)) as (H1 & H2 & H3 & poly & H4 & H5). split.
        + destruct (selected t f c) as [|i l] eqn:Es; [contradiction|]. exists i. apply (Sel c). rewrite Es. now left.
        + intros f' ids Hf' Hl. rewrite (Hu f' Hf') in *. rewrite (listing_unique _ _ _ Hl (Sel c)). eauto.
      - intros H l Hl. apply in_map_iff in Hl as (c & <- & Hc). destruct (H c Hc) as ((i & Hi) & Hj).
        apply (Sel c) in Hi. split; [intros E; rewrite E in Hi; destruct Hi|]. split.
        + intros j Hin. apply (Sel c) in Hin as (ps & (cell & Hcell & _) & _).
          rewrite <- (map_length snd (f_cells f)), Fc. apply nth_error_Some. congruence.
        + exact (Hj f (selected t f c) Hf (Sel c)). }
    split.
    + intros (r & Hr). split; [exact Hp|]. apply Hfus, Fo.
      destruct (fuse_cells _ _ _ _ _ _ _) as [out|] eqn:E0; [eauto|discriminate].
    + intros [_ H]. destruct (proj2 Fo) as (f0 & E0).
      { split; [destruct fuse; [contradiction|discriminate]|]. now apply Hfus. }
      rewrite E0. cbn [bind]. apply Hend. destruct (fuse_rows _ _ _ _ _ _ _ _ Ld E0) as (kept & _ & _ & _ & K2 & _). exists kept.
      unfold cleaned. destruct (k_tidy t _). exact K2.
Qed.
