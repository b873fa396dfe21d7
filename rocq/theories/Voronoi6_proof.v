(* Consequences: outlines, points outside, priorities; a geometry of unit intervals. *)
From Coq Require Import Reals Permutation Sorted Lra Classical_Prop.
From Verif Require Import Prelude Groups_model Groups_spec Groups_proof Surface_model.
From Verif Require Import Volume_spec Lines_spec Lines_model Lines1_proof Lines5_proof Topo_proof Topo2_proof Topo5_proof Polygon2_proof Polygon3_proof.
From Verif Require Import Voronoi_model Voronoi_spec Voronoi1_proof Voronoi2_proof Voronoi3_proof Voronoi4_proof Voronoi5_proof.
Open Scope nat_scope.

(* ---- outlines ---- *)
Lemma planar_flat axis p : planar axis (flattened axis p) = planar axis p.
Proof. destruct p as [[x y] z]. destruct axis as [|[|a]]; reflexivity. Qed.

Lemma voronoi_outlines {A} (g : vgeo A) o b items vo m : well_formed b items ->
  (forall vpts, vpts <> [] -> proper_diagram (v_diagram vo vpts) /\ d_points (v_diagram vo vpts) = vpts /\
     forall p r, region_of (v_diagram vo vpts) p r -> In (-1)%Z r -> open_ridges (v_diagram vo vpts) p <> []) ->
  sorts (v_argsort vo) -> (forall vs, v_pairs vo vs = None) ->
  voronoi_mesh g o b items vo = Ok m -> vm_xyz m <> [] ->
  (forall vpts, length (d_point_region (v_diagram vo vpts)) = length vpts) ->
  let d := v_diagram vo (map (planar (v_axis vo)) (vm_xyz m)) in
  exists verts c radius, barycenter (d_points d) c /\ (exists ext, verts = d_vertices d ++ ext) /\
    ((v_infinity vo = Some radius /\ radius <> 0%R) \/ (v_infinity vo = None \/ v_infinity vo = Some 0%R) /\ radius = (1000 * v_ptp vo)%R) /\
    forall k cell r, nth_error (vm_cells m) k = Some cell -> region_of d k r ->
      exists out ps qs, same_region d (v_atan2 vo) c radius verts k r out /\
        Forall2 (fun v q => nth_error verts (Z.to_nat v) = Some q) out ps /\
        same_outline (v_clip vo ps) qs /\ picks (vm_points m) cell qs.
Proof.
  intros WF HD Hsort HN H Hne HDl. unfold voronoi_mesh in H.
  destruct (scatter g o b items) as [[st t]|] eqn:E; [|discriminate]. cbn [bind fst snd] in H.
  destruct (scatter_spec g o b items WF st t E) as (S & HC & Ep & La & Lg & Lp & N & Hk).
  assert (LS : length (vs_pts st) = length S) by (rewrite Ep; apply map_length).
  destruct (assemble_spec vo st t m ltac:(lia) ltac:(lia) HDl H)
    as (vpts & regions & verts & kept & sel & Hv & Ht & Lr & K1 & Ps & Ss & Lc & Px & Pg & _ & Hm).
  rewrite HN in Hm. destruct Hm as [Ek F].
  assert (Esel : sel = mask_get (vs_active st) (seq 0 (length (vs_pts st)))).
  { eapply picks_fun; [exact Ps|]. rewrite Ek. apply seq_picks. }
  assert (Ev : map (planar (v_axis vo)) (vm_xyz m) = vpts).
  { apply (picks_map (planar (v_axis vo))) in Px. rewrite map_map in Px.
    erewrite map_ext in Px by (intros; apply planar_flat). rewrite Esel in Px. eapply picks_fun; [exact Px|exact Hv]. }
  intros d. assert (Ed : d = v_diagram vo vpts) by (unfold d; now rewrite Ev). clearbody d. subst d.
  assert (Hvne : vpts <> []) by (rewrite <- Ev; destruct (vm_xyz m); [congruence|discriminate]).
  destruct (HD vpts Hvne) as (PD & Edp & Hop).
  destruct (tessellation_spec (v_diagram vo vpts) PD (v_argsort vo) (v_atan2 vo) (v_infinity vo) (v_ptp vo) Hsort
              ltac:(rewrite Edp; exact Hvne) Hop) as (outs & ext & c & radius & Et & Lo & Hb & Hrad & Hr).
  rewrite Ht in Et. apply Ok_inj, pair_equal_spec in Et as [-> ->].
  exists (d_vertices (v_diagram vo vpts) ++ ext), c, radius. split; [exact Hb|]. split; [eauto|]. split; [exact Hrad|].
  intros k cell r Hcell Hreg. destruct (Hr k r Hreg) as (out & Hout & Hsame & Hval).
  destruct (Forall2_nth_error _ _ _ _ _ F Hout) as (cell' & Hcell' & ps & Hps & Hp).
  rewrite Hcell in Hcell'. injection Hcell' as <-.
  exists out, ps, (orient (v_orientation vo) (v_clip vo ps)). split; [exact Hsame|]. split; [|split; [apply orient_same|exact Hp]].
  apply mapM_Ok in Hps. clear - Hps Hval. induction Hps as [|v q out ps Hv _ IH]; constructor.
  - apply py_at_inv; [|exact Hv]. inversion Hval; lia.
  - apply IH. now inversion Hval.
Qed.

(* ---- points outside ---- *)
Lemma candidate_item {A} (g : vgeo A) b items S s i : candidates g b items S -> In s S -> s_owner s = Item i ->
  exists it l, nth_error items i = Some it /\ item_sites g (gm_cells (vb_mesh b)) i it l /\ In s l.
Proof.
  intros (order & l0 & ls & _ & (B0 & _ & _) & F & ->) Hs Ho. apply in_app_or in Hs as [Hs|Hs].
  - rewrite Forall_forall in B0. rewrite (B0 s Hs) in Ho. discriminate.
  - induction F as [|j lj order ls (it & Hit & Hsites) _ IH]; [easy|]. cbn in Hs. apply in_app_or in Hs as [Hs|Hs]; [|auto].
    assert (j = i) as ->.
    { destruct Hsites as (Hf & _). rewrite Forall_forall in Hf. destruct (Hf s Hs) as [E _]. congruence. }
    eauto.
Qed.

Lemma inside_only {A} (g : vgeo A) b items S s i it : candidates g b items S -> In s S -> s_owner s = Item i ->
  nth_error items i = Some it ->
  (exists c, In c (gm_cells (vi_mesh it)) /\ inside g (gm_cells (vb_mesh b)) (vg_center g c)) ->
  inside g (gm_cells (vb_mesh b)) (s_pt s).
Proof.
  intros HC Hs Ho Hi (c & Hc & Hin). destruct (candidate_item _ _ _ _ _ _ HC Hs Ho) as (it' & l & Hi' & Hsites & Hsl).
  rewrite Hi in Hi'. injection Hi' as <-. destruct Hsites as (_ & _ & kept & R & Em & _).
  assert (Hp : In (s_pt s) (map (vg_center g) kept)) by (rewrite <- Em; now apply in_map).
  apply in_map_iff in Hp as (c' & <- & Hc').
  destruct R as [[_ (f & Hf & ->)]|[Hno _]]; [|exfalso; eapply Hno; eauto].
  apply filter_In in Hc' as [_ Hc']. now apply Hf.
Qed.

(* active candidates of items that meet the background mesh lie in it *)
Lemma active_inside {A} (g : vgeo A) o b items st t : well_formed b items ->
  scatter g o b items = Ok (st, t) ->
  (forall it, In it items -> exists c, In c (gm_cells (vi_mesh it)) /\ inside g (gm_cells (vb_mesh b)) (vg_center g c)) ->
  exists S, candidates g b items S /\ vs_pts st = map s_pt S /\
    forall s, In s S -> s_owner s <> Background -> inside g (gm_cells (vb_mesh b)) (s_pt s).
Proof.
  intros WF H Hall. destruct (scatter_spec g o b items WF st t H) as (S & HC & Ep & _). exists S. split; [exact HC|]. split; [exact Ep|].
  intros s Hs Ho. destruct (s_owner s) as [|i] eqn:E; [congruence|].
  destruct (candidate_item _ _ _ _ _ _ HC Hs E) as (it & l & Hi & _).
  eapply inside_only; eauto. apply Hall. eapply nth_error_In; eauto.
Qed.

(* ---- priorities that are not negative ---- *)
Lemma higher_priority_wins {A} (g : vgeo A) o b items st t : well_formed b items ->
  (forall it, In it items -> (0 <= vi_prio it)%Z) ->
  scatter g o b items = Ok (st, t) ->
  exists S, candidates g b items S /\ vs_pts st = map s_pt S /\
    forall k s j a, nth_error S k = Some s -> s_owner s = Item j -> nth_error items j = Some a ->
      ((exists i it, nth_error items i = Some it /\ (vi_prio a < vi_prio it)%Z /\ covers g (gm_cells (vb_mesh b)) it (s_pt s)) ->
       nth_error (vs_active st) k = Some false) /\
      (nth_error (vs_active st) k = Some false ->
       exists i it, nth_error items i = Some it /\ (vi_prio a <= vi_prio it)%Z /\ covers g (gm_cells (vb_mesh b)) it (s_pt s)).
Proof.
  intros WF Hpos H. destruct (scatter_spec g o b items WF st t H) as (S & HC & Ep & La & _ & _ & _ & Hk). exists S.
  split; [exact HC|]. split; [exact Ep|]. intros k s j a Hs Ho Ha. destruct (Hk k s Hs) as [Hact _].
  assert (Hlt : k < length (vs_active st)) by (rewrite La; apply nth_error_Some; congruence).
  destruct (nth_error (vs_active st) k) as [x|] eqn:Ex; [|apply nth_error_None in Ex; lia].
  assert (Pa := Hpos a (nth_error_In _ _ Ha)). split.
  - intros (i & it & Hi & Hlt' & Hc). assert (Pi := Hpos it (nth_error_In _ _ Hi)).
    destruct x; [|reflexivity]. exfalso. apply (proj1 Hact eq_refl). exists i, it. split; [exact Hi|]. split; [|exact Hc].
    rewrite Ho. exists it, a. repeat split; auto. left. lia.
  - intros [= ->]. assert (Hn : ~ ~ covered g b items s).
    { intros Hn. apply Hact in Hn. discriminate. }
    (* the items are finite: search *)
    assert (Dec : (exists i it, nth_error items i = Some it /\ outranks items i (s_owner s) /\ covers g (gm_cells (vb_mesh b)) it (s_pt s)) \/
                  ~ covered g b items s).
    { unfold covered. destruct (Classical_Prop.classic (exists i it, nth_error items i = Some it /\ outranks items i (s_owner s) /\ covers g (gm_cells (vb_mesh b)) it (s_pt s))); auto. }
    destruct Dec as [(i & it & Hi & Hout & Hc)|D]; [|contradiction].
    exists i, it. split; [exact Hi|]. split; [|exact Hc]. rewrite Ho in Hout. destruct Hout as (a' & b' & Hi' & Hj & Hcmp).
    rewrite Hi in Hi'. injection Hi' as <-. rewrite Ha in Hj. injection Hj as <-.
    assert (Pi := Hpos it (nth_error_In _ _ Hi)). lia.
Qed.

(* ---- unit intervals of the x axis: cell c is [c, c + 1) ---- *)
Definition icenter (c : Z) : pt := (IZR c + / 2, 0, 0)%R.
Definition icontains (p : pt) (c : Z) : bool :=
  if Rle_dec (IZR c) (fst (fst p)) then if Rlt_dec (fst (fst p)) (IZR c + 1) then true else false else false.
Fixpoint ifind (l : list Z) (p : pt) : option nat :=
  match l with
  | [] => None
  | c :: l' => if icontains p c then Some 0 else option_map S (ifind l' p)
  end.
Definition igeo : vgeo Z := mkGeo icenter ifind.

Fixpoint zindex (k : Z) (l : list Z) : option nat :=
  match l with
  | [] => None
  | c :: l' => if (c =? k)%Z then Some 0 else option_map S (zindex k l')
  end.

Lemma ifind_center l k : ifind l (icenter k) = zindex k l.
Proof.
  induction l as [|c l IH]; [reflexivity|]. cbn [ifind zindex]. rewrite IH. unfold icontains, icenter. cbn [fst snd].
  destruct (Z.eqb_spec c k) as [->|N].
  - destruct (Rle_dec (IZR k) (IZR k + / 2)); [|exfalso; lra].
    destruct (Rlt_dec (IZR k + / 2) (IZR k + 1)); [reflexivity|exfalso; lra].
  - destruct (Rle_dec (IZR c) (IZR k + / 2)) as [H1|H1]; [|reflexivity].
    destruct (Rlt_dec (IZR k + / 2) (IZR c + 1)) as [H2|H2]; [|reflexivity].
    exfalso. assert (c < k + 1)%Z by (apply lt_IZR; rewrite plus_IZR; lra).
    assert (k < c + 1)%Z by (apply lt_IZR; rewrite plus_IZR; lra). lia.
Qed.

Definition imesh (l : list Z) : gmesh Z := mkG l None None.
Definition ibase : vbase Z := mkVB (imesh [0; 1; 2]%Z) [] PrefCell.
Definition iopt : options := mk_options "" [].

Ltac run := unfold scatter, start, iopt; cbn -[icenter ifind];
  repeat (progress (unfold clip_item; rewrite ?ifind_center; cbn -[icenter ifind])).

(* an item of cells out of the background mesh, its point is kept and active *)
Lemma outside_kept :
  exists st t, scatter igeo iopt ibase [mkVI (imesh [7]%Z) false "well" 0] = Ok (st, t) /\
    nth_error (vs_pts st) 3 = Some (icenter 7) /\ nth_error (vs_active st) 3 = Some true /\
    ~ inside igeo (gm_cells (vb_mesh ibase)) (icenter 7).
Proof.
  eexists _, _. split; [run; reflexivity|]. split; [reflexivity|]. split; [reflexivity|].
  unfold inside. cbn [vg_find igeo vb_mesh ibase imesh gm_cells]. rewrite ifind_center. cbn. congruence.
Qed.

(* two items of the same priority: the point of the first is discarded *)
Lemma equal_priority_discards :
  exists st t, scatter igeo iopt ibase [mkVI (imesh [1]%Z) false "a" 1; mkVI (imesh [1; 2]%Z) false "b" 1] = Ok (st, t) /\
    vs_pts st = map icenter [0; 1; 2; 1; 1; 2]%Z /\ vs_active st = [true; false; false; false; true; true].
Proof. eexists _, _. split; [run; reflexivity|]. split; reflexivity. Qed.

(* negative priorities: -5 wins over 1, and 1 does not win over -5 *)
Lemma negative_priority :
  exists st t, scatter igeo iopt ibase [mkVI (imesh [1]%Z) false "a" (-5); mkVI (imesh [1]%Z) false "b" 1] = Ok (st, t) /\
    vs_pts st = map icenter [0; 1; 2; 1; 1]%Z /\ vs_groups st = [0; 0; 0; 0; 2]%Z /\ t = [("default", 0); ("b", 1); ("a", 2)]%Z%string /\
    vs_active st = [true; false; true; false; true].
Proof. eexists _, _. split; [run; reflexivity|]. repeat split; reflexivity. Qed.
