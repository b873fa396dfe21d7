From Verif Require Import RealAux Perc_model Surface_model Surface_spec Volume_model Volume_spec Groups_model Groups_spec
  Stack_model Stack_spec Stack3_proof Stack6_proof Final_model Final_spec Unstr_model Unstr_spec Stack_proof Unstr1_proof Unstr3_proof Topo_model
  Settle_spec Settle_proof Paint_proof Pile_model Pile_spec Pile_proof Sweep_spec Sweep2_spec Sweep2_proof Pile2_model Pile2_spec.
From Coq Require Import Lra.
Open Scope nat_scope.

Lemma column_at ax p q : ax <= 2 -> same_column ax p q -> q = at_height ax p (coord ax q).
Proof.
  intros Hax HC. destruct p as [[x y] z], q as [[x' y'] z'].
  pose proof (HC 0 ltac:(lia)) as C0. pose proof (HC 1 ltac:(lia)) as C1. pose proof (HC 2 ltac:(lia)) as C2. cbn in C0, C1, C2.
  destruct ax as [|[|[|]]]; try lia; cbn [at_height coord fst snd];
    rewrite ?C0, ?C1, ?C2 by lia; reflexivity.
Qed.

Lemma way_at ax t p z z' : (let '(x, y, w) := at_height ax p z in let '(x', y', w') := at_height ax p z' in
  (x + t * (x' - x), y + t * (y' - y), w + t * (w' - w)))%R = at_height ax p (z + t * (z' - z))%R.
Proof.
  destruct p as [[x y] w]. unfold at_height. destruct ax as [|[|]]; (apply injective_projections; [apply injective_projections|]; cbn [fst snd]; ring).
Qed.

(* the surfaces after cutting, in terms of the calls *)
Section Surfaces.
Context {M B : Type} (ops : mesh_ops M B) (Hops : lawful ops) (ax : nat) (Hax : ax <= 2) (bu : bool).
Context (interp : list pt -> list pt -> res (list R)) (m : M) (calls : list st_call) (its js : list (item M)).
Context (HM : made ops ax bu interp m true None calls its).

Definition level_of (u : nat) : list R :=
  map (fun a => match nth_error (getp ops (it_mesh a)) u with Some q => coord ax q | None => 0%R end) js.

Lemma made_column j it u q : nth_error its j = Some it -> nth_error (getp ops (it_mesh it)) u = Some q ->
  exists p, nth_error (getp ops m) u = Some p /\ same_column ax p q.
Proof.
  intros E Hq. destruct (made_nth _ _ _ _ _ _ _ _ _ j it HM E) as (c & zs & _ & L & Eit).
  assert (Em : it_mesh it = placed ops ax m zs) by (rewrite Eit; destruct j; reflexivity). rewrite Em in Hq.
  destruct (nth_error zs u) as [z|] eqn:Ez.
  - destruct (placed_get ops Hops ax m zs u z L Ez) as (p & H1 & H2). rewrite Hq in H1. injection H1 as ->.
    exists p. split; [exact H2|]. destruct p as [[x y] w]. intros a Ha Hne. destruct ax as [|[|[|]]], a as [|[|[|]]]; cbn; try lia; reflexivity.
  - exfalso. apply nth_error_None in Ez. destruct Hops as (H1 & _). unfold placed in Hq. rewrite H1 in Hq.
    assert (u < length (map2 (fun v p => pset ax v p) zs (getp ops m))) by (apply nth_error_Some; congruence).
    rewrite map2_length in *. lia.
Qed.

Lemma made_trans : Forall (fun it => it_trans it = false) (tl its).
Proof.
  clear js.
  apply Forall_forall. intros it Hin. destruct its as [|i0 l] eqn:El; [destruct Hin|]. apply In_nth_error in Hin as [j Hj].
  destruct (made_nth _ _ _ _ _ _ _ _ _ (S j) it HM Hj) as (c & zs & _ & L & ->). reflexivity.
Qed.

Context (o : options) (extrude : M -> M -> resolution -> option string -> res B)
  (transition : M -> M -> dict -> group_arg nat -> res (B * dict)) (merge : list B -> res B) (g : B) (groups : dict) (n : nat).
Context (E : stack_generate ops o ax bu extrude transition merge its = Ok (g, groups, n, js)).

Lemma surface_count : length js = length calls.
Proof.
  destruct (stack_levels ops Hops o ax bu _ _ _ _ _ _ _ _ Hax made_trans E) as [HV _].
  rewrite <- (Forall2_len _ _ _ HV). exact (made_length _ _ _ _ _ _ _ _ _ HM).
Qed.

Lemma surface_levels : settled_heights interp bu (getp ops m) calls level_of.
Proof.
  intros u Hu. destruct (stack_levels ops Hops o ax bu _ _ _ _ _ _ _ _ Hax made_trans E) as [HV HS].
  destruct (made_levels ops Hops ax bu interp m Hax true None calls its HM ltac:(split; auto) ltac:(discriminate) u Hu) as (ls & Hls & Hlv).
  destruct (HS u ls Hlv) as (out & Ho & He). exists ls. split; [exact Hls|].
  assert (Eo : level_of u = out).
  { unfold level_of. clear - He. induction He as [|a z l l' Haz HF IH]; cbn [map]; [reflexivity|]. rewrite IH. f_equal.
    destruct Haz as (q & Hq & Hz). unfold points in Hq. rewrite Hq. exact Hz. }
  rewrite Eo. split; [destruct bu; exact Ho|].
  rewrite <- (Forall2_len _ _ _ He). exact surface_count.
Qed.

Lemma surface_point j a u p : nth_error js j = Some a -> nth_error (getp ops m) u = Some p ->
  exists z, nth_error (level_of u) j = Some z /\ nth_error (getp ops (it_mesh a)) u = Some (at_height ax p z).
Proof.
  intros Ha Hp. destruct (stack_levels ops Hops o ax bu _ _ _ _ _ _ _ _ Hax made_trans E) as [HV HS].
  assert (Hu : u < length (getp ops m)) by (apply nth_error_Some; congruence).
  destruct (made_levels ops Hops ax bu interp m Hax true None calls its HM ltac:(split; auto) ltac:(discriminate) u Hu) as (ls & Hls & Hlv).
  destruct (HS u ls Hlv) as (out & Ho & He).
  destruct (Forall2_nth_l _ _ _ He j a Ha) as (z & Hz & q & Hq & Ez). unfold points in Hq.
  exists (coord ax q). unfold level_of. rewrite nth_error_map, Ha. cbn [option_map]. rewrite Hq. split; [reflexivity|].
  f_equal. apply column_at; [exact Hax|].
  destruct (nth_error its j) as [it|] eqn:Ei; [|apply nth_error_None in Ei; pose proof (Forall2_len _ _ _ HV); assert (j < length js) by (apply nth_error_Some; congruence); lia].
  destruct (Forall2_nth_l _ _ _ HV j it Ei) as (a2 & Ha2 & _ & HC). rewrite Ha in Ha2. injection Ha2 as <-.
  assert (Hq2 : exists q0, nth_error (points ops it) u = Some q0 /\ same_column ax q0 q).
  { clear - HC Hq. revert u Hq. unfold points in *. induction HC as [|x v l l' Huv _ IH]; intros [|i] E; cbn in E; try discriminate.
    - injection E as <-. exists x. auto.
    - exact (IH i E). }
  destruct Hq2 as (q0 & Hq0 & Hcol). destruct (made_column j it u q0 Ei Hq0) as (p' & Hp' & Hcol').
  rewrite Hp in Hp'. injection Hp' as <-. intros a' G1 G2. rewrite (Hcol' a' G1 G2). exact (Hcol a' G1 G2).
Qed.

(* what the items keep from the calls *)
Lemma surface_call j b : nth_error js (S j) = Some b -> exists c, nth_error calls (S j) = Some c /\
  it_res b = ao_res (sc_opts c) /\ it_method b = ao_method (sc_opts c) /\ it_group b = ao_group (sc_opts c).
Proof.
  intros Hb. destruct (stack_levels ops Hops o ax bu _ _ _ _ _ _ _ _ Hax made_trans E) as [HV _].
  destruct (nth_error its (S j)) as [it|] eqn:Ei;
    [|apply nth_error_None in Ei; pose proof (Forall2_len _ _ _ HV); assert (S j < length js) by (apply nth_error_Some; congruence); lia].
  destruct (Forall2_nth_l _ _ _ HV (S j) it Ei) as (b2 & Hb2 & HO & _). rewrite Hb in Hb2. injection Hb2 as <-.
  destruct HO as (_ & R1 & R2 & R3 & R4 & R5 & R6).
  destruct (made_nth _ _ _ _ _ _ _ _ _ (S j) it HM Ei) as (c & zs & Hc & L & ->). exists c. split; [exact Hc|].
  cbn in *. auto.
Qed.
End Surfaces.

Lemma Forall2_choose {A B} (P : A -> B -> Prop) l : (forall x, In x l -> exists y, P x y) -> exists l', Forall2 P l l'.
Proof.
  induction l as [|x l IH]; intros H; [exists []; constructor|]. destruct (H x (or_introl eq_refl)) as [y Hy].
  destruct IH as [l' Hl]; [intros; apply H; now right|]. exists (y :: l'). now constructor.
Qed.

Section Program.
Context {D : Type} (num : Z -> D) (int : D -> Z) (Hint : forall z, int (num z) = z).
Context (interp : list pt -> list pt -> res (list R)) (o : options) (tol : R) (clean : uvol D -> uvol D) (Hclean : cleans tol clean).
Context (pvmerge : list (uvol D) -> res (uvol D)) (Hmerge : appends pvmerge).
Context (ax : nat) (Hax : ax <= 2) (bu invert : bool) (m : ubase D).
Context (calls : list st_call) (Hacc : Forall (accepted interp (us_pts (ub_surf m))) calls).

Lemma upile_made : exists its, made (uops num) ax bu interp m true None calls its /\
  stack_calls (uops num) ax bu interp (mkStack m [] false) calls = Ok (mkStack m its false).
Proof.
  destruct (calls_made (uops num) (uops_lawful num) ax bu interp m calls (mkStack m [] false) None true eq_refl eq_refl Hacc) as (its & H1 & H2).
  - left. auto.
  - exists its. split; [exact H1|]. exact H2.
Qed.

Lemma axis_ok : stack_init m None (Z.of_nat ax) = Ok (m, ax).
Proof.
  unfold stack_init. rewrite Nat2Z.id.
  replace ((0 <=? Z.of_nat ax) && (Z.of_nat ax <=? 2))%Z%bool with true by (symmetry; apply andb_true_intro; split; lia). reflexivity.
Qed.

Lemma upile_inv g labels : stack3d_uprogram num int interp o pvmerge clean (Z.of_nat ax) bu invert m calls = Ok (g, labels) ->
  exists its js, made (uops num) ax bu interp m true None calls its /\
    stack3d_umesh num int o ax bu invert pvmerge clean its = Ok (g, labels, js).
Proof.
  unfold stack3d_uprogram. destruct (get_dimension _) as [dim|]; [|discriminate]. cbn [bind].
  destruct (negb _); [discriminate|]. rewrite axis_ok. cbn [bind].
  destruct upile_made as (its & HM & HS). rewrite HS. cbn [bind st_items].
  destruct (stack3d_umesh _ _ _ _ _ _ _ _ _) as [[[g' l'] js]|] eqn:E; [|discriminate]. cbn [bind].
  intros H. injection H as -> ->. exists its, js. auto.
Qed.

Lemma uplaced_wf zs : wf_ubase m -> length zs = length (us_pts (ub_surf m)) -> wf_ubase (placed (uops num) ax m zs).
Proof.
  intros (W1 & W2 & W3) L. split; [exact W1|]. split; [exact W2|]. cbn. intros base x H1 H2. rewrite map2_length, L, Nat.min_id. exact (W3 base x H1 H2).
Qed.
Lemma uplaced_regular np types zs : regular_ubase np types m -> length zs = length (us_pts (ub_surf m)) ->
  regular_ubase np types (placed (uops num) ax m zs).
Proof.
  intros (W & T1 & T2 & T3) L. split; [now apply uplaced_wf|]. split; [exact T1|]. split; [|exact T3].
  cbn. rewrite map2_length, L, Nat.min_id. exact T2.
Qed.

Lemma upile_mesh its j it : made (uops num) ax bu interp m true None calls its -> nth_error its j = Some it ->
  exists zs, length zs = length (us_pts (ub_surf m)) /\ it_mesh it = placed (uops num) ax m zs.
Proof.
  intros HM E. destruct (made_nth _ _ _ _ _ _ _ _ _ j it HM E) as (c & zs & _ & L & Eit). exists zs. split; [exact L|].
  rewrite Eit; destruct j; reflexivity.
Qed.

Lemma upile_defined np types : regular_ubase np types m -> 2 <= length calls -> Forall regular_call (tl calls) ->
  (forall bs, 2 <= length bs -> exists g, pvmerge bs = Ok g) ->
  exists g labels, stack3d_uprogram num int interp o pvmerge clean (Z.of_nat ax) bu invert m calls = Ok (g, labels).
Proof.
  intros HR L2 Hreg HT. destruct upile_made as (its & HM & HS).
  destruct (stack_umesh_defined num int Hint o tol clean Hclean pvmerge Hmerge ax bu invert np types its) as (g & labels & js & E); auto.
  - rewrite (made_length _ _ _ _ _ _ _ _ _ HM). exact L2.
  - apply Forall_forall. intros i Hin. apply In_nth_error in Hin as [j Hj]. destruct (upile_mesh its j i HM Hj) as (zs & L & ->). now apply uplaced_regular.
  - apply Forall_forall. intros it Hin. destruct its as [|i0 l] eqn:El; [destruct Hin|]. apply In_nth_error in Hin as [j Hj].
    destruct (made_nth _ _ _ _ _ _ _ _ _ (S j) it HM Hj) as (c & zs & Hc & L & ->). split; [reflexivity|].
    rewrite Forall_forall in Hreg. assert (Hc' : regular_call c).
    { apply Hreg. destruct calls as [|c0 l']; [discriminate|]. eapply nth_error_In; exact Hc. }
    destruct Hc' as [R1 R2]. unfold positions_span, group_by_name. auto.
  - exists g, labels. unfold stack3d_uprogram.
    assert (Hf : flat m). { destruct HR as (_ & _ & _ & _ & H & _). intros ty ids Hin. destruct (H ty ids Hin) as [->|[->|[[-> _]|[-> _]]]]; cbn; auto. }
    assert (Hc : us_cells (ub_surf m) <> []). { destruct HR as (_ & Hty & _ & <- & _). intros E'. rewrite E' in Hty. now apply Hty. }
    rewrite (flat_dim m Hc Hf). cbn [bind Z.eqb Pos.eqb negb]. rewrite axis_ok. cbn [bind]. rewrite HS. cbn [bind st_items]. rewrite E. reflexivity.
Qed.

Context (Hw : wf_ubase m).
Context (g : uvol D) (labels : dict).
Context (H : stack3d_uprogram num int interp o pvmerge clean (Z.of_nat ax) bu invert m calls = Ok (g, labels)).

Lemma upile_final : exists percs lev place cells cg names,
  call_positions (tl calls) percs /\ settled_heights interp bu (us_pts (ub_surf m)) calls lev /\
  columns (length (us_cells (ub_surf m))) percs place /\
  identified num "StackItem" (map (fun p => length p - 1) percs) place g /\
  cells_of g cells /\ length cells = length place /\
  (forall i j l c, nth_error place i = Some (j, l, c) ->
    exists base cell f perc, nth_error (us_cells (ub_surf m)) c = Some base /\ nth_error percs j = Some perc /\
      extruded invert (length (us_pts (ub_surf m))) l base cell /\ nth_error cells i = Some (rename f cell) /\
      forall u h t p, In u (snd base) -> h <= 1 -> nth_error perc (l + h) = Some t -> nth_error (us_pts (ub_surf m)) u = Some p ->
        exists q r, stacked ax p (lev u) j t q /\
          nth_error (uv_pts g) (f (u + (l + h) * length (us_pts (ub_surf m)))) = Some r /\ within tol q r) /\
  numbered labels /\ NoDup (map fst (uv_cd g)) /\ In ("CellGroup"%string, cg) (uv_cd g) /\
  get_cell_group (Some (map int cg)) (Some labels) = Ok (Some (inl names)) /\ length names = length place /\
  (forall k, In k (map fst labels) <-> In k names) /\
  (forall i j l c, nth_error place i = Some (j, l, c) ->
    exists call k, nth_error calls (S j) = Some call /\ nth_error names i = Some k /\ item_name o (ubase_view m) (ao_group (sc_opts call)) c k) /\
  (uv_ghost g = [] \/ length (uv_ghost g) = length place /\ exists i, i < length place /\ flag_of (uv_ghost g) i <> 0) /\
  (forall i j l c, nth_error place i = Some (j, l, c) ->
     exists base perc, nth_error (us_cells (ub_surf m)) c = Some base /\ nth_error percs j = Some perc /\
       (thin_layer ax (us_pts (ub_surf m)) lev j perc base -> flag_of (uv_ghost g) i = 32) /\
       (~ thin_layer ax (us_pts (ub_surf m)) lev j perc base -> flag_of (uv_ghost g) i =
          match us_ghost (ub_surf m) with Some gh => flag_of gh c | None => 0 end)) /\
  (forall k, ~ In k ["ColumnId"; "LayerId"; "StackItem"; "CellGroup"]%string ->
     (In k (map fst (uv_cd g)) <-> In k (map fst (us_cd (ub_surf m))))) /\
  forall k x, In (k, x) (uv_cd g) -> ~ In k ["ColumnId"; "LayerId"; "StackItem"; "CellGroup"]%string ->
    length x = length place /\ exists w, In (k, w) (us_cd (ub_surf m)) /\
    forall i j l c, nth_error place i = Some (j, l, c) -> nth_error x i = nth_error w c.
Proof.
  destruct (upile_inv g labels H) as (its & js & HM & E).
  assert (Hnp : forall i, In i its -> length (us_pts (ub_surf (it_mesh i))) = length (us_pts (ub_surf m))).
  { intros i Hin. apply In_nth_error in Hin as [j Hj]. destruct (upile_mesh its j i HM Hj) as (zs & L & ->). cbn. now rewrite map2_length, L, Nat.min_id. }
  assert (HWf : Forall (fun i => wf_ubase (it_mesh i)) its).
  { apply Forall_forall. intros i Hin. apply In_nth_error in Hin as [j Hj]. destruct (upile_mesh its j i HM Hj) as (zs & L & ->). now apply uplaced_wf. }
  pose proof (made_trans (uops num) ax bu interp m calls its HM) as HT.
  destruct (stack_umesh_final num int Hint o tol clean Hclean pvmerge Hmerge ax bu invert its g labels js _ Hnp HWf HT E)
    as (nsubs & place & HL & HP & HI & (cells & Hc & Lc & HC) & (Hn & Hnd & cg & names & Hcg & Hgn & Ln & Hk & HG) & [HG0 HGh] & [HK HV]).
  apply (stack_umesh_inv num int o clean pvmerge) in E as (g0 & groups & n & E & _). unfold stack3d_unstructured in E.
  pose proof (surface_count (uops num) (uops_lawful num) ax Hax bu interp m calls its js HM _ _ _ _ _ _ _ E) as Ljs.
  pose proof (surface_levels (uops num) (uops_lawful num) ax Hax bu interp m calls its js HM _ _ _ _ _ _ _ E) as HLev.
  pose proof (fun j a u p => surface_point (uops num) (uops_lawful num) ax Hax bu interp m calls its js HM _ _ _ _ _ _ _ E j a u p) as HPt.
  pose proof (fun j b => surface_call (uops num) (uops_lawful num) ax Hax bu interp m calls its js HM _ _ _ _ _ _ _ E j b) as HCall.
  set (lev := level_of (uops num) ax js) in *. cbn [getp uops] in HLev, HPt.
  assert (HJ : forall j a, nth_error js j = Some a -> us_cells (ub_surf (it_mesh a)) = us_cells (ub_surf m) /\
            us_cd (ub_surf (it_mesh a)) = us_cd (ub_surf m) /\ us_ghost (ub_surf (it_mesh a)) = us_ghost (ub_surf m) /\
            length (us_pts (ub_surf (it_mesh a))) = length (us_pts (ub_surf m)) /\ ubase_view (it_mesh a) = ubase_view m).
  { intros j a Ha. destruct (stack_levels (uops num) (uops_lawful num) o ax bu _ _ _ _ _ _ _ _ Hax HT E) as [HV' _].
    destruct (nth_error its j) as [it|] eqn:Ei;
      [|apply nth_error_None in Ei; pose proof (Forall2_len _ _ _ HV'); assert (j < length js) by (apply nth_error_Some; congruence); lia].
    destruct (Forall2_nth_l _ _ _ HV' j it Ei) as (b2 & Hb2 & (HO & _) & HF2). rewrite Ha in Hb2. injection Hb2 as <-.
    destruct (upile_mesh its j it HM Ei) as (zs & L & Em). apply Forall2_len in HF2. unfold points in HF2, HO. cbn [getp uops] in HF2, HO.
    rewrite HO, Em. cbn [placed setp uops ub_surf us_cells us_cd us_ghost us_pts ubase_view]. repeat (split; [reflexivity|]).
    split; [|reflexivity]. rewrite <- HF2. apply Hnp. eapply nth_error_In; eauto. }
  destruct (Forall2_choose (fun c perc => resolution_to_perc (ao_res (sc_opts c)) (ao_method (sc_opts c)) = Ok perc) (tl calls)) as [percs HPerc].
  { intros c Hin. destruct HL as [LL HL]. apply In_nth_error in Hin as [j Hj].
    assert (Hcall : nth_error calls (S j) = Some c) by (destruct calls; [destruct j; discriminate|exact Hj]).
    pose proof (made_length _ _ _ _ _ _ _ _ _ HM) as Lits.
    destruct (nth_error (tl its) j) as [it|] eqn:Ei.
    - destruct (HL j it Ei) as (n' & _ & perc & Hp & _). exists perc.
      assert (Ei' : nth_error its (S j) = Some it) by (destruct its; [destruct j; discriminate|exact Ei]).
      destruct (made_nth _ _ _ _ _ _ _ _ _ (S j) it HM Ei') as (c' & zs & Hc' & _ & ->). rewrite Hcall in Hc'. injection Hc' as <-. exact Hp.
    - exfalso. apply nth_error_None in Ei. assert (S j < length calls) by (apply nth_error_Some; congruence). destruct its; cbn in *; lia. }
  assert (Ens : nsubs = map (fun p => length p - 1) percs).
  { destruct HL as [LL HL]. apply nth_error_ext. intros j. rewrite nth_error_map.
    pose proof (made_length _ _ _ _ _ _ _ _ _ HM) as Lits. pose proof (Forall2_len _ _ _ HPerc) as LP.
    destruct (nth_error (tl its) j) as [it|] eqn:Ei.
    - destruct (HL j it Ei) as (n' & Hn' & perc & Hp & ->).
      assert (Ei' : nth_error its (S j) = Some it) by (destruct its; [destruct j; discriminate|exact Ei]).
      destruct (made_nth _ _ _ _ _ _ _ _ _ (S j) it HM Ei') as (c' & zs & Hc' & _ & ->). cbn in Hp.
      assert (Hc2 : nth_error (tl calls) j = Some c') by (destruct calls; [discriminate|exact Hc']).
      destruct (Forall2_get _ _ _ HPerc j c' Hc2) as (perc' & Hp' & Ep). rewrite Hp in Ep. apply Ok_inj in Ep. subst perc'.
      rewrite Hn', Hp'. reflexivity.
    - apply nth_error_None in Ei. rewrite (proj2 (nth_error_None nsubs j)), (proj2 (nth_error_None percs j)); [reflexivity| |lia].
      rewrite <- LP. destruct calls, its; cbn in *; lia. }
  subst nsubs.
  assert (HPj : forall j b perc, nth_error js (S j) = Some b -> resolution_to_perc (it_res b) (it_method b) = Ok perc -> nth_error percs j = Some perc).
  { intros j b perc Hb Hp. destruct (HCall j b Hb) as (c & Hc' & E1 & E2 & _). rewrite E1, E2 in Hp.
    assert (Hc2 : nth_error (tl calls) j = Some c) by (destruct calls; [discriminate|exact Hc']).
    destruct (Forall2_get _ _ _ HPerc j c Hc2) as (perc' & Hp' & Ep). rewrite Hp in Ep. apply Ok_inj in Ep. subst perc'. exact Hp'. }
  assert (H0 : 0 < length percs -> exists a b, nth_error js 0 = Some a /\ nth_error js 1 = Some b).
  { intros Hl. rewrite <- (Forall2_len _ _ _ HPerc) in Hl. assert (1 < length js) by (rewrite Ljs; destruct calls; cbn in *; lia).
    destruct js as [|a [|b js']]; cbn in *; try lia. exists a, b. auto. }
  assert (HP0 : 0 < length percs).
  { rewrite <- (Forall2_len _ _ _ HPerc). pose proof (made_length _ _ _ _ _ _ _ _ _ HM) as Lits.
    unfold stack_generate in E. destruct its as [|i1 [|i2 its']]; try discriminate. destruct calls as [|c1 [|c2 calls']]; cbn in *; lia. }
  destruct (H0 HP0) as (a0 & b0 & Ha0 & Hb0).
  exists percs, lev, place, cells, cg, names.
  split; [exact HPerc|]. split; [exact HLev|]. split.
  { destruct HP as [HN HP]. split; [exact HN|]. intros j l c. rewrite HP. split.
    - intros (n' & a & Hn' & Ha & Hl & Hc'). rewrite nth_error_map in Hn'. destruct (nth_error percs j) as [perc|]; [|discriminate]. injection Hn' as <-.
      exists perc. split; [reflexivity|]. split; [lia|]. unfold n_base in Hc'. destruct (HJ j a Ha) as (E1 & _). rewrite E1 in Hc'. exact Hc'.
    - intros (perc & Hp & Hl & Hc').
      assert (Hj : j < length js). { assert (j < length percs) by (apply nth_error_Some; congruence). rewrite <- (Forall2_len _ _ _ HPerc) in H1. rewrite Ljs. destruct calls; cbn in *; lia. }
      destruct (nth_error js j) as [a|] eqn:Ha; [|apply nth_error_None in Ha; lia].
      exists (length perc - 1), a. rewrite nth_error_map, Hp. split; [reflexivity|]. split; [reflexivity|]. split; [lia|].
      unfold n_base. destruct (HJ j a Ha) as (E1 & _). rewrite E1. exact Hc'. }
  split; [exact HI|]. split; [exact Hc|]. split; [exact Lc|]. split.
  { intros i j l c Hi. destruct (HC i j l c Hi) as (a & b & perc & base & cell & f & Ha & Hb & Hp & Hbase & Hx & Hcell & HQ).
    destruct (HJ j a Ha) as (E1 & E2 & E3 & E4 & E5). rewrite E1 in Hbase. rewrite E4 in Hx, HQ.
    exists base, cell, f, perc. split; [exact Hbase|]. split; [now apply (HPj j b)|]. split; [exact Hx|]. split; [exact Hcell|].
    intros u h t p Hu Hh Ht Hpt. destruct (HPt j a u p Ha Hpt) as (z & Hz & Hqa). destruct (HPt (S j) b u p Hb Hpt) as (z' & Hz' & Hqb).
    destruct (HQ u h t _ _ Hu Hh Ht Hqa Hqb) as (r & Hr & Hwi).
    exists (at_height ax p (z + t * (z' - z))%R), r. split; [exists z, z'; auto|]. split; [exact Hr|].
    rewrite <- way_at. exact Hwi. }
  split; [exact Hn|]. split; [exact Hnd|]. split; [exact Hcg|]. split; [exact Hgn|]. split; [exact Ln|]. split; [exact Hk|]. split.
  { intros i j l c Hi. destruct (HG i j l c Hi) as (a & b & k & Ha & Hb & Hki & Hnm).
    destruct (HJ j a Ha) as (_ & _ & _ & _ & E5). destruct (HCall j b Hb) as (call & Hcall & _ & _ & Eg).
    rewrite E5, Eg in Hnm. exists call, k. auto. }
  split; [exact HG0|]. split.
  { intros i j l c Hi. destruct (HGh i j l c Hi) as (a & b & perc & base & Ha & Hb & Hp & Hbase & F1 & F2).
    destruct (HJ j a Ha) as (E1 & E2 & E3 & E4 & E5). rewrite E1 in Hbase. rewrite E3 in F2.
    exists base, perc. split; [exact Hbase|]. split; [now apply (HPj j b)|].
    assert (HTh : thin_layer ax (us_pts (ub_surf m)) lev j perc base <-> flat_first a b perc base).
    { assert (EL : forall t p z z', lerp t (at_height ax p z) (at_height ax p z') = at_height ax p (z + t * (z' - z))%R).
      { clear. intros t [[x y] w] z z'. unfold lerp, lerp1, at_height. destruct ax as [|[|]]; (apply injective_projections; [apply injective_projections|]; cbn [fst snd]; ring). }
      unfold thin_layer, flat_first. split.
      - intros HT' u t t' p q Hu Ht Ht' Hpa Hqb. 
        destruct (nth_error (us_pts (ub_surf m)) u) as [p0|] eqn:E0.
        2:{ exfalso. apply nth_error_None in E0. assert (u < length (us_pts (ub_surf (it_mesh a)))) by (apply nth_error_Some; congruence). lia. }
        destruct (HPt j a u p0 Ha E0) as (z & Hz & Hqa'). destruct (HPt (S j) b u p0 Hb E0) as (z' & Hz' & Hqb').
        rewrite Hpa in Hqa'. injection Hqa' as ->. rewrite Hqb in Hqb'. injection Hqb' as ->. rewrite !EL.
        apply (HT' u t t' p0 _ _ Hu Ht Ht' E0); exists z, z'; auto.
      - intros HT' u t t' p0 q q' Hu Ht Ht' E0 (z & z' & Hz & Hz' & ->) (z2 & z2' & Hz2 & Hz2' & ->).
        rewrite Hz in Hz2. injection Hz2 as <-. rewrite Hz' in Hz2'. injection Hz2' as <-.
        destruct (HPt j a u p0 Ha E0) as (w & Hw1 & Hqa'). destruct (HPt (S j) b u p0 Hb E0) as (w' & Hw2 & Hqb').
        rewrite Hz in Hw1. injection Hw1 as <-. rewrite Hz' in Hw2. injection Hw2 as <-.
        specialize (HT' u t t' _ _ Hu Ht Ht' Hqa' Hqb'). rewrite !EL in HT'. exact HT'. }
    split; [intros HX; apply F1, HTh, HX|]. intros HX. apply F2. intros HX'. apply HX, HTh, HX'. }
  split.
  { intros k Hk'. rewrite HK. split.
    - intros [HX|HX]; [destruct (Hk' HX)|]. specialize (HX 0 a0 b0 Ha0 Hb0). destruct (HJ 0 a0 Ha0) as (_ & E2 & _). rewrite E2 in HX. exact HX.
    - intros HX. right. intros j a b Ha _. destruct (HJ j a Ha) as (_ & E2 & _). rewrite E2. exact HX. }
  intros k x Hx Hk'. destruct (HV k x Hx Hk') as [Lx HX]. split; [exact Lx|].
  destruct (proj1 (HK k) (in_map fst _ _ Hx)) as [HY|HY]; [destruct (Hk' HY)|].
  specialize (HY 0 a0 b0 Ha0 Hb0). destruct (HJ 0 a0 Ha0) as (_ & E2 & _). rewrite E2 in HY. apply in_map_iff in HY as ([k' w] & <- & HY). exists w. split; [exact HY|].
  intros i j l c Hi. destruct (HX i j l c Hi) as (a & w' & Ha & Hw' & EX). destruct (HJ j a Ha) as (_ & E2' & _). rewrite E2' in Hw'.
  rewrite EX. f_equal. destruct Hw as (_ & HN & _). exact (NoDup_fst_fun _ _ _ _ HN Hw' HY).
Qed.
End Program.

(* ---- rejected meshes ---- *)
Lemma not_surface types :
  (forall ty, In ty types -> In ty [1; 3; 4]) \/
  (exists ty, In ty types /\ In ty [10; 12; 13; 14; 42]) /\ (forall ty, In ty types -> In ty [1; 3; 4; 5; 7; 8; 9; 10; 12; 13; 14; 42]) ->
  get_dimension (DCells (mkV types [] [] [])) = Err ValueError \/
  exists d, get_dimension (DCells (mkV types [] [] [])) = Ok d /\ d <> 2%Z.
Proof.
  intros H. cbn [get_dimension v_types].
  assert (HK : forall ty, In ty types -> In ty [1; 3; 4; 5; 7; 8; 9; 10; 12; 13; 14; 42]).
  { destruct H as [H|[_ H]]; [|exact H]; intros ty Hty; pose proof (H ty Hty) as Ht; cbn in Ht |- *;
      repeat (destruct Ht as [<-|Ht]; [auto 20|]); destruct Ht. }
  destruct (dims_of types HK) as (ds & E & F). rewrite E. cbn [bind].
  destruct ds as [|d ds]; [left; reflexivity|]. cbn [zmax bind]. right. eexists. split; [reflexivity|].
  assert (HD : forall x, In x (d :: ds) -> exists ty, In ty types /\ dim_of ty = Ok x).
  { intros x Hx. apply In_nth_error in Hx as [i Hi]. destruct (Forall2_get_r _ _ _ F i x Hi) as (ty & Hty & Hd). exists ty. split; [eapply nth_error_In; eauto|exact Hd]. }
  destruct (fold_max_ge ds d) as [G1 G2].
  destruct H as [H|[(ty & Hty & H3) _]].
  - assert (fold_left Z.max ds d <= 1)%Z; [|lia].
    assert (HX : forall x, In x (d :: ds) -> (x <= 1)%Z).
    { intros x Hx. destruct (HD x Hx) as (ty & Hty & Ed). pose proof (H ty Hty) as Ht. cbn in Ht.
      repeat (destruct Ht as [<-|Ht]; [injection Ed as <-; lia|]). destruct Ht. }
    apply fold_max_le; [apply HX; now left|intros; apply HX; now right].
  - assert (3 <= fold_left Z.max ds d)%Z; [|lia].
    apply In_nth_error in Hty as [i Hi]. destruct (Forall2_get _ _ _ F i ty Hi) as (x & Hx & Ed).
    assert (3 <= x)%Z. { cbn in H3. repeat (destruct H3 as [<-|H3]; [injection Ed as <-; lia|]). destruct H3. }
    apply nth_error_In in Hx. destruct Hx as [<-|Hx]; [lia|]. specialize (G2 x Hx). lia.
Qed.

Lemma upile_errors {D} (num : Z -> D) int interp o pvmerge clean axis bu invert (m : ubase D) calls :
  let types := map fst (us_cells (ub_surf m)) in
  (forall ty, In ty types -> In ty [1; 3; 4]) \/
  (exists ty, In ty types /\ In ty [10; 12; 13; 14; 42]) /\ (forall ty, In ty types -> In ty [1; 3; 4; 5; 7; 8; 9; 10; 12; 13; 14; 42]) \/
  types <> [] /\ (forall ty, In ty types -> In ty [5; 7; 8; 9]) /\
    ((axis < 0)%Z \/ (2 < axis)%Z \/
     Forall (accepted interp (us_pts (ub_surf m))) calls /\ length calls < 2 \/
     exists before ndim ncols rows opts after, calls = before ++ mkStCall (ArgArray ndim ncols rows) opts :: after /\
       Forall (accepted interp (us_pts (ub_surf m))) before /\ (ndim <> 2 \/ ncols <> 3)) ->
  stack3d_uprogram num int interp o pvmerge clean axis bu invert m calls = Err ValueError.
Proof.
  intros types H. unfold stack3d_uprogram. fold types.
  assert (HX : forall P Q, (P \/ Q) \/ (get_dimension (DCells (mkV types [] [] [])) = Ok 2%Z /\
     ((axis < 0)%Z \/ (2 < axis)%Z \/
     Forall (accepted interp (us_pts (ub_surf m))) calls /\ length calls < 2 \/
     exists before ndim ncols rows opts after, calls = before ++ mkStCall (ArgArray ndim ncols rows) opts :: after /\
       Forall (accepted interp (us_pts (ub_surf m))) before /\ (ndim <> 2 \/ ncols <> 3))) ->
    (P \/ Q -> get_dimension (DCells (mkV types [] [] [])) = Err ValueError \/
      exists d, get_dimension (DCells (mkV types [] [] [])) = Ok d /\ d <> 2%Z) ->
    (let! dim := get_dimension (DCells (mkV types [] [] [])) in
     if negb (dim =? 2)%Z then Err ValueError
     else let! ma := stack_init m None axis in
       let '(mesh, ax) := ma in
       let! st := stack_calls (uops num) ax bu interp (mkStack mesh [] false) calls in
       let! r := stack3d_umesh num int o ax bu invert pvmerge clean (st_items st) in
       let '(g, labels, _) := r in Ok (g, labels)) = Err ValueError).
  { intros P Q [HPQ|[E HE]] Hd.
    - destruct (Hd HPQ) as [E|(d & E & Hne)]; rewrite E; cbn [bind]; [reflexivity|].
      destruct (Z.eqb_spec d 2); [contradiction|reflexivity].
    - rewrite E. cbn [bind Z.eqb Pos.eqb negb]. unfold stack_init.
      destruct ((0 <=? axis) && (axis <=? 2))%Z%bool eqn:EA; cbn [negb]; [|reflexivity].
      apply andb_prop in EA as [A1 A2]. apply Z.leb_le in A1, A2. cbn [bind].
      destruct HE as [HE|[HE|[(Hacc & L)|(before & ndim & ncols & rows & opts & after & -> & Hacc & Hbad)]]]; [lia|lia| |].
      + destruct (upile_made num interp (Z.to_nat axis) bu m calls Hacc) as (its & HM & HS). rewrite HS. cbn [bind st_items].
        rewrite <- (made_length _ _ _ _ _ _ _ _ _ HM) in L. unfold stack3d_umesh, stack3d_unstructured.
        destruct its as [|i [|i' its]]; cbn in L; try lia; reflexivity.
      + destruct (upile_made num interp (Z.to_nat axis) bu m before Hacc) as (its & HM & HS).
        assert (EA : forall l st st' c l', stack_calls (uops num) (Z.to_nat axis) bu interp st l = Ok st' ->
              stack_calls (uops num) (Z.to_nat axis) bu interp st (l ++ c :: l') = stack_calls (uops num) (Z.to_nat axis) bu interp st' (c :: l')).
        { induction l as [|x l IH]; intros st st' c l' E'; cbn [stack_calls app] in E' |- *.
          - assert (EQ := Ok_inj _ _ E'). now rewrite EQ.
          - destruct (stack_add _ _ _ _ _ _ _) as [st1|]; cbn [bind] in E' |- *; [|discriminate]. now apply IH. }
        rewrite (EA _ _ _ _ _ HS). cbn [stack_calls sc_arg sc_opts]. unfold stack_add.
        destruct (Nat.eqb_spec ndim 2); [|reflexivity]. destruct (Nat.eqb_spec ncols 3); [|reflexivity]. exfalso. tauto. }
  destruct H as [H|[H|(Hne & Hf & HE)]].
  - refine (HX _ False (or_introl (or_introl H)) _). intros [K|[]]. apply not_surface. left. exact K.
  - refine (HX False _ (or_introl (or_intror H)) _). intros [[]|K]. apply not_surface. right. exact K.
  - refine (HX False False (or_intror (conj _ HE)) _); [|intros [[]|[]]].
    apply flat_dim.
    + intros E. apply Hne. unfold types. rewrite E. reflexivity.
    + intros ty ids Hin. apply Hf. unfold types. apply in_map_iff. exists (ty, ids). auto.
Qed.
