(* Cells of a Voronoi mesh and the candidates they come from. *)
From Coq Require Import Reals Permutation Sorted Lra.
From Verif Require Import Prelude Groups_model Groups_spec Groups_proof Surface_model.
From Verif Require Import Volume_spec Lines_spec Lines_model Lines1_proof Lines5_proof Topo_proof Topo2_proof Topo5_proof Polygon2_proof Polygon3_proof.
From Verif Require Import Voronoi_model Voronoi_spec Voronoi1_proof Voronoi2_proof Voronoi3_proof Voronoi4_proof.
Open Scope nat_scope.

Lemma region_loop_length argsort atan2 d c radius prs : forall p verts outs verts',
  region_loop argsort atan2 d c radius p prs verts = Ok (outs, verts') -> length outs = length prs.
Proof.
  induction prs as [|k prs IH]; intros p verts outs verts'; cbn [region_loop].
  - intros H. now apply Ok_inj, pair_equal_spec in H as [<- _].
  - destruct (one_region _ _ _ _ _ _ _ _) as [[reg v1]|]; [|discriminate]. cbn [bind].
    destruct (region_loop _ _ _ _ _ (S p) prs v1) as [[rs v2]|] eqn:E; [|discriminate]. cbn [bind fst snd].
    intros H. apply Ok_inj, pair_equal_spec in H as [<- _]. cbn. f_equal. eauto.
Qed.

Lemma picks_compose {A} (v : list A) ids w kept sel : picks v ids w -> picks ids kept sel ->
  exists x, picks v sel x /\ picks w kept x.
Proof.
  intros H K. induction K as [|k i kept sel Hk _ IH]; [exists []; split; constructor|].
  destruct IH as (x & X1 & X2). destruct (Forall2_nth_error _ _ _ _ _ H Hk) as (y & Hy & Ey).
  exists (y :: x). split; constructor; auto.
Qed.

Lemma picks_sorted ids kept sel : StronglySorted lt ids -> StronglySorted lt kept -> picks ids kept sel -> StronglySorted lt sel.
Proof.
  intros Hi Hk H. induction H as [|k i kept sel Hki H IH]; [constructor|].
  apply StronglySorted_inv in Hk as [Hk Hf]. constructor; [auto|].
  clear IH Hk. rewrite Forall_forall in *. intros j Hj.
  apply In_nth_error in Hj as (r & Hr).
  destruct (nth_error kept r) as [k'|] eqn:Ek.
  2:{ apply nth_error_None in Ek. apply Forall2_len in H. assert (r < length sel) by (apply nth_error_Some; congruence). lia. }
  destruct (Forall2_nth_error _ _ _ _ _ H Ek) as (j' & Hj' & Ej). rewrite Hr in Hj'. injection Hj' as <-.
  assert (Hlt := Hf k' (nth_error_In _ _ Ek)). clear - Hi Hki Ej Hlt.
  revert k k' Hki Ej Hlt. induction Hi as [|x l Hl IH Hx]; intros k k' Hki Ej Hlt; [destruct k; discriminate|].
  destruct k' as [|k']; [lia|]. destruct k as [|k].
  - cbn in Hki. injection Hki as ->. rewrite Forall_forall in Hx. apply Hx. eapply nth_error_In. exact Ej.
  - cbn in Hki, Ej. eapply IH; eauto. lia.
Qed.

Lemma insert_drop axis p : insert_axis axis (drop_axis axis p) = flattened axis p.
Proof. destruct p as [[x y] z]. destruct axis as [|[|a]]; reflexivity. Qed.

Lemma assemble_spec vo s t m :
  length (vs_active s) = length (vs_pts s) -> length (vs_groups s) = length (vs_pts s) ->
  (forall vpts, length (d_point_region (v_diagram vo vpts)) = length vpts) ->
  assemble vo s t = Ok m ->
  let act := mask_get (vs_active s) (seq 0 (length (vs_pts s))) in
  exists vpts regions verts kept sel,
    picks (map (planar (v_axis vo)) (vs_pts s)) act vpts /\
    tessellation (v_argsort vo) (v_atan2 vo) (v_diagram vo vpts) (v_infinity vo) (v_ptp vo) = Ok (regions, verts) /\
    length regions = length act /\
    StronglySorted lt kept /\ picks act kept sel /\ StronglySorted lt sel /\
    length (vm_cells m) = length sel /\
    picks (map (flattened (v_axis vo)) (vs_pts s)) sel (vm_xyz m) /\ picks (vs_groups s) sel (vm_groups m) /\
    vm_labels m = t /\
    match v_pairs vo verts with
    | None => kept = seq 0 (length act) /\
        Forall2 (fun r cell => exists ps, mapM (py_at verts) r = Ok ps /\
                   picks (vm_points m) cell (orient (v_orientation vo) (v_clip vo ps))) regions (vm_cells m)
    | Some pairs => exists pts faces,
        average_points (map (insert_axis 2) verts) (map (map Z.to_nat) regions) 0 pairs = Ok (pts, faces) /\
        map fst faces = kept /\
        Forall2 (fun f cell => exists ps, picks (map (drop_axis 2) pts) (snd f) ps /\
                   picks (vm_points m) cell (orient (v_orientation vo) (v_clip vo ps))) faces (vm_cells m)
    end.
Proof.
  intros La Lg HD. unfold assemble.
  set (n := length (vs_pts s)) in *. set (P := map (drop_axis (v_axis vo)) (vs_pts s)).
  assert (LP : length P = n) by apply map_length.
  set (act := mask_get (vs_active s) (seq 0 n)).
  set (vpts := mask_get (vs_active s) P).
  destruct (tessellation _ _ _ _ _) as [[regions verts]|] eqn:Et; [|discriminate]. cbn [bind].
  assert (Lr : length regions = length vpts).
  { unfold tessellation in Et. apply region_loop_length in Et. now rewrite Et, HD. }
  assert (Lv : length vpts = length act) by (apply mask_get_length_eq; now rewrite seq_length).
  destruct (shorten _ _ _ _ _) as [[[[active' vpts'] regions'] verts']|] eqn:Es; [|discriminate]. cbn [bind].
  destruct (v_boundary vo); cbn [negb]; [|discriminate].
  destruct (polygons _ _ _ _ _ _ _) as [[points cells]|] eqn:Ep; [|discriminate]. cbn [bind].
  intros H%Ok_inj. subst m. cbn [vm_points vm_cells vm_groups vm_labels vm_xyz].
  assert (Ea : act = mask_get (vs_active s) (seq 0 (length (vs_active s)))) by (unfold act; now rewrite La).
  assert (Lv' : length vpts = length (mask_get (vs_active s) (seq 0 (length (vs_active s))))) by (rewrite <- Ea; exact Lv).
  destruct (shorten_spec _ _ _ _ _ _ _ _ _ Lr Lv' Es)
    as (kept & K1 & K2 & La' & Psel & Pv & Lreg & Hm).
  rewrite <- Ea in Psel.
  set (sel := mask_get active' (seq 0 (length (vs_active s)))) in *.
  assert (Sact : StronglySorted lt act) by (rewrite Ea; apply mask_get_seq_sorted).
  assert (Hsel : forall A (l : list A), length l = n -> picks l sel (mask_get active' l)).
  { intros A l Hl. unfold sel. rewrite <- La'. assert (Q := mask_get_picks active' l ltac:(lia) []). exact Q. }
  assert (Hact : picks P act vpts).
  { unfold vpts. rewrite Ea. assert (Q := mask_get_picks (vs_active s) P ltac:(lia) []). exact Q. }
  destruct (polygons_spec _ _ _ _ _ _ _ _ _ Ep) as (ext & css & E1 & E2 & F). cbn [app] in E1, E2. subst css.
  exists vpts, regions, verts, kept, sel.
  split; [exact Hact|]. split; [exact Et|]. split; [lia|]. split; [exact K1|]. split; [exact Psel|].
  split; [exact (picks_sorted _ _ _ Sact K1 Psel)|].
  split. { rewrite <- (Forall2_len _ _ _ F), Lreg. now apply picks_len in Psel. }
  split.
  { destruct (picks_compose _ _ _ _ _ Hact Psel) as (x & X1 & X2).
    assert (x = vpts') by (eapply picks_fun; eauto). subst x.
    apply (picks_map (insert_axis (v_axis vo))) in X1. unfold P in X1. rewrite map_map in X1.
    erewrite map_ext in X1 by (intros; apply insert_drop). exact X1. }
  split; [apply Hsel; exact Lg|]. split; [reflexivity|].
  destruct (v_pairs vo verts) as [pairs|].
  - destruct Hm as (pts & faces & Eav & Ek & -> & ->). exists pts, faces. split; [exact Eav|]. split; [exact Ek|].
    clear - F. remember (map _ faces) as rs eqn:Er. revert faces Er. induction F as [|r cell rs cells Hr F IH]; intros [|f faces] Er; try discriminate; constructor.
    + injection Er as -> _. destruct Hr as (ps & Hps & _ & Hp). exists ps. split; [|exact Hp].
      apply mapM_Ok in Hps. clear - Hps. remember (map Z.of_nat (snd f)) as zs eqn:Ez. revert Ez. generalize (snd f) as l. clear f.
      induction Hps as [|z x zs xs Hz _ IH]; intros [|i l] Ez; try discriminate; constructor.
      * injection Ez as -> _. apply py_at_inv in Hz; [|lia]. now rewrite Nat2Z.id in Hz.
      * injection Ez as _ Ez. now apply IH.
    + injection Er as _ Er. now apply IH.
  - destruct Hm as (Ek & -> & ->). split; [rewrite <- Lv; exact Ek|]. eapply Forall2_impl; [|exact F].
    cbn. intros r cell (ps & Hps & _ & Hp). eauto.
Qed.

Lemma voronoi_cells {A} (g : vgeo A) o b items vo m : well_formed b items ->
  (forall vpts, length (d_point_region (v_diagram vo vpts)) = length vpts) ->
  voronoi_mesh g o b items vo = Ok m ->
  exists S sel, candidates g b items S /\ StronglySorted lt sel /\
    length (vm_cells m) = length sel /\ length (vm_groups m) = length sel /\ length (vm_xyz m) = length sel /\
    (forall k i, nth_error sel k = Some i -> exists s name, nth_error S i = Some s /\ ~ covered g b items s /\
       nth_error (vm_xyz m) k = Some (flattened (v_axis vo) (s_pt s)) /\
       named (vm_labels m) (vm_groups m) k name /\ site_name o b items s name) /\
    ((forall vs, v_pairs vo vs = None) ->
     forall i s, nth_error S i = Some s -> ~ covered g b items s -> In i sel).
Proof.
  intros WF HD. unfold voronoi_mesh. destruct (scatter g o b items) as [[st t]|] eqn:E; [|discriminate]. cbn [bind fst snd].
  destruct (scatter_spec g o b items WF st t E) as (S & HC & Ep & La & Lg & Lp & N & Hk).
  assert (LS : length (vs_pts st) = length S) by (rewrite Ep; apply map_length).
  intros H. destruct (assemble_spec vo st t m ltac:(lia) ltac:(lia) HD H)
    as (vpts & regions & verts & kept & sel & Hv & Ht & Lr & K1 & Ps & Ss & Lc & Px & Pg & -> & Hm).
  exists S, sel. split; [exact HC|]. split; [exact Ss|]. split; [exact Lc|].
  split; [now apply picks_len in Pg|]. split; [now apply picks_len in Px|]. split.
  - intros k i Hi. assert (Hin : In i (mask_get (vs_active st) (seq 0 (length (vs_pts st))))).
    { assert (Hs : In i sel) by (eapply nth_error_In; eauto). clear - Ps Hs. induction Ps as [|? ? ? ? Hx _ IH]; [easy|].
      destruct Hs as [->|Hs]; [eapply nth_error_In; eauto|auto]. }
    replace (length (vs_pts st)) with (length (vs_active st)) in Hin by lia.
    apply mask_get_seq_In in Hin as [_ Hin]. rewrite Nat.sub_0_r in Hin.
    assert (Hlt : i < length S) by (rewrite <- La; apply nth_error_Some; congruence).
    destruct (nth_error S i) as [s|] eqn:Es; [|apply nth_error_None in Es; lia].
    destruct (Hk i s Es) as [Ha Hn]. destruct (Hn Hin) as (name & (z & Hz & Hzin) & Hname).
    exists s, name. split; [reflexivity|]. split; [now apply Ha|]. split; [|split; [|exact Hname]].
    + rewrite (picks_nth _ _ _ _ _ Px Hi), nth_error_map, Ep, nth_error_map, Es. reflexivity.
    + exists z. split; [|exact Hzin]. rewrite (picks_nth _ _ _ _ _ Pg Hi). exact Hz.
  - intros HN i s Hi Hc. rewrite (HN verts) in Hm. destruct Hm as [Ek _].
    assert (Esel : sel = mask_get (vs_active st) (seq 0 (length (vs_pts st)))).
    { eapply picks_fun; [exact Ps|]. rewrite Ek. apply seq_picks. }
    rewrite Esel. replace (length (vs_pts st)) with (length (vs_active st)) by lia.
    apply mask_get_seq_In. split; [lia|]. rewrite Nat.sub_0_r. now apply (Hk i s Hi).
Qed.

Lemma voronoi_no_boundary {A} (g : vgeo A) o b items vo m :
  let vo' := mkVO (v_axis vo) (v_infinity vo) (v_ptp vo) (v_orientation vo) (v_diagram vo) (v_argsort vo)
               (v_atan2 vo) (v_pairs vo) false (v_valid vo) (v_clip vo) in
  voronoi_mesh g o b items vo' <> Ok m /\
  (voronoi_mesh g o b items vo = Ok m -> voronoi_mesh g o b items vo' = Err ValueError).
Proof.
  cbv zeta. unfold voronoi_mesh, assemble. cbn [v_axis v_infinity v_ptp v_orientation v_diagram v_argsort v_atan2 v_pairs v_boundary v_valid v_clip].
  destruct (scatter g o b items) as [[s gr]|]; cbn [bind fst snd]; [|split; discriminate].
  destruct (tessellation _ _ _ _ _) as [[regions verts]|]; cbn [bind]; [|split; discriminate].
  destruct (shorten _ _ _ _ _) as [[[[active' vpts'] regions'] verts']|]; cbn [bind negb]; [|split; discriminate].
  split; [discriminate|reflexivity].
Qed.
