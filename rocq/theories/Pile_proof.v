From Verif Require Import RealAux Perc_model Perc_spec Perc_proof Surface_model Surface_spec Surface_proof
  Volume_model Volume_spec Volume_proof SMerge_model SMerge_spec SMerge_proof
  Groups_model Groups_spec Groups_proof Groups2_proof
  Stack_model Stack_spec Gen_proof Stack_proof Stack2_proof Stack3_proof Stack6_proof Stack7_proof
  Final_model Final_spec Final4_proof Settle_spec Settle_proof Nodes_spec Nodes_proof Pile_model Pile_spec.
From Coq Require Import Lra.
Open Scope nat_scope.

Lemma pget_pset a v p : pget a (pset a v p) = v.
Proof. destruct p as [[x y] z]. destruct a as [|[|]]; reflexivity. Qed.
Lemma pset_pset a v w p : pset a v (pset a w p) = pset a v p.
Proof. destruct p as [[x y] z]. destruct a as [|[|]]; reflexivity. Qed.
Lemma coord_pset a v p : a <= 2 -> coord a (pset a v p) = v.
Proof. intros H. destruct p as [[x y] z]. destruct a as [|[|[|]]]; try lia; reflexivity. Qed.

Lemma Forall2_nth_intro {A B} (P : A -> B -> Prop) l : forall l', length l = length l' ->
  (forall j a b, nth_error l j = Some a -> nth_error l' j = Some b -> P a b) -> Forall2 P l l'.
Proof.
  induction l as [|a l IH]; intros [|b l'] L H; cbn in L; try discriminate; constructor.
  - exact (H 0 a b eq_refl eq_refl).
  - apply IH; [lia|]. intros j. exact (H (S j)).
Qed.

Lemma list_choice {A} (P : nat -> A -> Prop) k : (forall i, i < k -> exists x, P i x) ->
  exists l, length l = k /\ forall i x, nth_error l i = Some x -> P i x.
Proof.
  induction k as [|k IH]; intros H.
  - exists []. split; [reflexivity|]. intros [|i] x Hx; discriminate.
  - destruct IH as (l & Ll & Hl); [intros i Hi; apply H; lia|]. destruct (H k ltac:(lia)) as [x Hx].
    exists (l ++ [x]). split; [rewrite app_length; cbn; lia|]. intros i y Hy. destruct (le_lt_dec (length l) i) as [G|G].
    + rewrite nth_error_app2 in Hy by exact G. destruct (i - length l) as [|u] eqn:Eu; [|destruct u; discriminate].
      injection Hy as <-. replace i with k by lia. exact Hx.
    + rewrite nth_error_app1 in Hy by exact G. now apply Hl.
Qed.

Lemma fst_fun {X} (l : list (string * X)) k v w : NoDup (map fst l) -> In (k, v) l -> In (k, w) l -> v = w.
Proof.
  induction l as [|[k' x] l IH]; intros ND H1 H2; [destruct H1|]. cbn in ND. inversion ND as [|? ? Hn ND']; subst.
  destruct H1 as [E1|H1], H2 as [E2|H2].
  - congruence.
  - injection E1 as -> ->. exfalso. apply Hn. apply in_map_iff. exists (k, w). auto.
  - injection E2 as -> ->. exfalso. apply Hn. apply in_map_iff. exists (k, v). auto.
  - now apply IH.
Qed.

Section Calls.
Context {M B : Type} (ops : mesh_ops M B) (Hops : lawful ops) (ax : nat) (bu : bool).
Context (interp : list pt -> list pt -> res (list R)) (m : M).

Definition placed (zs : list R) : M := setp ops (map2 (fun v p => pset ax v p) zs (getp ops m)) m.

(* the item made by a call *)
Definition item_of (first : bool) (c : st_call) (zs : list R) : item M :=
  if first then mkItem (placed zs) ResNone None (ao_prio (sc_opts c)) 0 GNone false
  else mkItem (placed zs) (ao_res (sc_opts c)) (ao_method (sc_opts c)) (ao_prio (sc_opts c)) (ao_thick (sc_opts c)) (ao_group (sc_opts c)) false.

Inductive made : bool -> option (list R) -> list st_call -> list (item M) -> Prop :=
| made_nil f prev : made f prev [] []
| made_cons f prev c zs rest its : length zs = length (getp ops m) ->
    (forall i, i < length zs -> exists z, nth_error zs i = Some z /\
       raised interp bu (getp ops m) i (match prev with Some l => nth_error l i | None => None end) (sc_arg c) z) ->
    made false (Some zs) rest its -> made f prev (c :: rest) (item_of f c zs :: its).

Lemma place_again zs zs' : length zs = length (getp ops m) -> length zs' = length (getp ops m) ->
  setp ops (map2 (fun v p => pset ax v p) zs' (getp ops (placed zs))) (placed zs) = placed zs'.
Proof.
  intros L L'. destruct Hops as (H1 & H2 & H3 & _). unfold placed. rewrite H1, H3. f_equal.
  revert zs zs' L L'. induction (getp ops m) as [|p l IH]; intros [|z zs] [|z' zs'] L L'; cbn in L, L'; try discriminate; [reflexivity|].
  cbn [map2]. rewrite IH by lia. f_equal. apply pset_pset.
Qed.

Lemma placed_get zs i z : length zs = length (getp ops m) -> nth_error zs i = Some z ->
  exists p, nth_error (getp ops (placed zs)) i = Some (pset ax z p) /\ nth_error (getp ops m) i = Some p.
Proof.
  intros L. destruct Hops as (H1 & _). unfold placed. rewrite H1. clear H1. revert zs i L.
  induction (getp ops m) as [|p l IH]; intros [|z' zs] [|i] L E; cbn in L, E |- *; try discriminate.
  - injection E as ->. eauto.
  - apply IH; [lia|exact E].
Qed.

Lemma step_ok st c prev f : st_base st = m -> st_flag st = false -> accepted interp (getp ops m) c ->
  (f = true /\ st_items st = [] /\ prev = None \/
   f = false /\ exists pre last zs, st_items st = pre ++ [last] /\ prev = Some zs /\ length zs = length (getp ops m) /\ it_mesh last = placed zs) ->
  exists zs, length zs = length (getp ops m) /\
    (forall i, i < length zs -> exists z, nth_error zs i = Some z /\
       raised interp bu (getp ops m) i (match prev with Some l => nth_error l i | None => None end) (sc_arg c) z) /\
    stack_add ops ax bu interp st (sc_arg c) (sc_opts c) = Ok (mkStack m (st_items st ++ [item_of f c zs]) false).
Proof.
  intros Eb Ef Ha Hst.
  assert (HI : forall zs, match st_items st with
    | [] => mkItem (placed zs) ResNone None (ao_prio (sc_opts c)) 0%R GNone false
    | _ :: _ => mkItem (placed zs) (ao_res (sc_opts c)) (ao_method (sc_opts c)) (ao_prio (sc_opts c)) (ao_thick (sc_opts c)) (ao_group (sc_opts c)) (st_flag st)
    end = item_of f c zs).
  { intros zs. rewrite Ef. destruct Hst as [(-> & -> & _)|(-> & pre & last & zs' & -> & _)]; [reflexivity|]. destruct pre; reflexivity. }
  unfold accepted in Ha. unfold stack_add. rewrite Eb. destruct (sc_arg c) as [x|fn|ndim ncols rows|pts] eqn:Ec.
  - destruct Hst as [(-> & Ei & ->)|(-> & pre & last & zs & Ei & -> & L & Em)].
    + exists (map (fun _ => x) (getp ops m)). split; [apply map_length|]. split.
      * intros i Hi. exists x. split; [|constructor]. rewrite map_length in Hi.
        rewrite nth_error_map. destruct (nth_error (getp ops m) i) eqn:E; [reflexivity|]. apply nth_error_None in E. lia.
      * rewrite Ei. cbn [rev bind app]. reflexivity.
    + exists (map (fun z => z + Rabs x * (if bu then 1 else -1))%R zs). split; [rewrite map_length; exact L|]. split.
      * intros i Hi. rewrite map_length in Hi. destruct (nth_error zs i) as [z|] eqn:E; [|apply nth_error_None in E; lia].
        exists (if bu then z + Rabs x else z - Rabs x)%R. split; [|constructor].
        rewrite nth_error_map, E. cbn [option_map]. f_equal. destruct bu; ring.
      * pose proof (HI (map (fun z => z + Rabs x * (if bu then 1 else -1))%R zs)) as HI'. rewrite Ei in *.
        rewrite rev_app_distr. cbn [rev app]. rewrite Em.
        assert (EZ : map (fun p => pget ax p + Rabs x * (if bu then 1 else -1))%R (getp ops (placed zs)) =
                     map (fun z => z + Rabs x * (if bu then 1 else -1))%R zs).
        { unfold placed. destruct Hops as (H1 & _). rewrite H1. clear -L. revert zs L.
          induction (getp ops m) as [|p l IH]; intros [|z zs] L; cbn in L |- *; try discriminate; [reflexivity|].
          rewrite IH by lia. now rewrite pget_pset. }
        rewrite EZ, place_again by (rewrite ?map_length; exact L). cbn [bind]. rewrite HI'. reflexivity.
  - exists (map (fun '(x, y, z) => fn x y z) (getp ops m)). split; [apply map_length|]. split.
    + intros i Hi. rewrite map_length in Hi. destruct (nth_error (getp ops m) i) as [[[x y] z]|] eqn:E; [|apply nth_error_None in E; lia].
      exists (fn x y z). split; [rewrite nth_error_map, E; reflexivity|]. now constructor.
    + cbn [bind]. fold (placed (map (fun '(x, y, z) => fn x y z) (getp ops m))). now rewrite HI.
  - destruct Ha as (-> & -> & zs & Hz & L). exists zs. split; [exact L|]. split.
    + intros i Hi. destruct (nth_error zs i) as [z|] eqn:E; [|apply nth_error_None in E; lia]. exists z. split; [reflexivity|].
      now apply raised_array with zs.
    + cbn [Nat.eqb]. rewrite Hz. cbn [bind]. fold (placed zs). now rewrite HI.
  - destruct Ha as (zs & Hz & L). exists zs. split; [exact L|]. split.
    + intros i Hi. destruct (nth_error zs i) as [z|] eqn:E; [|apply nth_error_None in E; lia]. exists z. split; [reflexivity|].
      now apply raised_mesh with zs.
    + rewrite Hz. cbn [bind]. fold (placed zs). now rewrite HI.
Qed.

Lemma calls_made : forall calls st prev f, st_base st = m -> st_flag st = false -> Forall (accepted interp (getp ops m)) calls ->
  (f = true /\ st_items st = [] /\ prev = None \/
   f = false /\ exists pre last zs, st_items st = pre ++ [last] /\ prev = Some zs /\ length zs = length (getp ops m) /\ it_mesh last = placed zs) ->
  exists its, made f prev calls its /\
    stack_calls ops ax bu interp st calls = Ok (mkStack m (st_items st ++ its) false).
Proof.
  induction calls as [|c calls IH]; intros st prev f Eb Ef HF Hst.
  - exists []. split; [constructor|]. rewrite app_nil_r. destruct st; cbn in *; subst. reflexivity.
  - inversion HF as [|? ? Ha HF']; subst.
    destruct (step_ok st c prev f Eb Ef Ha Hst) as (zs & L & HR & E).
    destruct (IH (mkStack m (st_items st ++ [item_of f c zs]) false) (Some zs) false eq_refl eq_refl HF') as (its & HM & E').
    { right. split; [reflexivity|]. exists (st_items st), (item_of f c zs), zs. cbn [st_items]. repeat (split; [now auto|]).
      destruct f; reflexivity. }
    exists (item_of f c zs :: its). split; [now constructor|].
    cbn [stack_calls]. rewrite E. cbn [bind]. rewrite E'. cbn [st_items]. now rewrite <- app_assoc.
Qed.

Lemma made_length f prev calls its : made f prev calls its -> length its = length calls.
Proof. induction 1; cbn; congruence. Qed.

Lemma made_levels (Hax : ax <= 2) f prev calls its : made f prev calls its -> (f = true <-> prev = None) ->
  (forall l, prev = Some l -> length l = length (getp ops m)) ->
  forall i, i < length (getp ops m) ->
  exists ls, heights interp bu (getp ops m) i (match prev with Some l => nth_error l i | None => None end) calls ls /\
    levels ops ax i its ls.
Proof.
  induction 1 as [f prev|f prev c zs rest its L HR HM IH]; intros Hf Hp i Hi.
  - exists []. split; constructor.
  - destruct (HR i ltac:(lia)) as (z & Ez & Hr).
    destruct (IH ltac:(split; discriminate) ltac:(intros l E; injection E as <-; exact L) i Hi) as (ls & H1 & H2).
    rewrite Ez in H1. eexists. split; [econstructor; [exact Hr|exact H1]|]. constructor; [|exact H2].
    cbn [fst snd]. destruct prev as [l|].
    + destruct f; [now assert (Some l = None) by (now apply Hf)|].
      destruct (nth_error l i) as [w|] eqn:Ew; [|apply nth_error_None in Ew; specialize (Hp l eq_refl); lia].
      split; [reflexivity|]. split; [reflexivity|].
      destruct (placed_get zs i z L Ez) as (p & Hp' & _). exists (pset ax z p). split; [exact Hp'|].
      now apply coord_pset.
    + assert (f = true) as -> by now apply Hf.
      split; [reflexivity|]. split; [reflexivity|].
      destruct (placed_get zs i z L Ez) as (p & Hp' & _). exists (pset ax z p). split; [exact Hp'|].
      now apply coord_pset.
Qed.

Lemma made_nth f prev calls its j it : made f prev calls its -> nth_error its j = Some it ->
  exists c zs, nth_error calls j = Some c /\ length zs = length (getp ops m) /\ it = item_of (match j with 0 => f | _ => false end) c zs.
Proof.
  intros H. revert j. induction H as [f prev|f prev c zs rest its L HR HM IH]; intros [|j] E; cbn in E; try discriminate.
  - injection E as <-. exists c, zs. auto.
  - destruct (IH j E) as (c' & zs' & E1 & E2 & E3). exists c', zs'. split; [exact E1|]. split; [exact E2|]. destruct j; exact E3.
Qed.
End Calls.

Section Program.
Context {D : Type} (num : Z -> D) (int : D -> Z) (Hint : forall z, int (num z) = z).
Context (volumes : shape3 -> list pt -> list R) (Hvol : forall dims pts, length (volumes dims pts) = n_cells dims).
Context (interp : list pt -> list pt -> res (list R)).
Context (o : options) (ax : nat) (d : shape3) (Hax : ax <= 2) (Hu : unit_along ax d) (bu : bool) (m : sbase D) (Hw : wf_base d m).
Context (calls : list st_call) (L2 : 2 <= length calls) (Hacc : Forall (accepted interp (ss_pts (sb_surf m))) calls).
Context (Hreg : Forall regular_call (tl calls)).

Lemma placed_wf zs : length zs = length (ss_pts (sb_surf m)) -> wf_base d (placed (sops num) ax m zs).
Proof.
  intros L. destruct Hw as (H1 & H2 & H3 & H4 & H5 & H6 & H7). split; [exact H1|]. split.
  - cbn. rewrite map2_length, L, Nat.min_id. exact H2.
  - repeat (split; [assumption|]). exact H7.
Qed.

Lemma placed_view zs : base_view (placed (sops num) ax m zs) = base_view m.
Proof. reflexivity. Qed.

Lemma pile_made : exists its, made (sops num) ax bu interp m true None calls its /\
  stack_calls (sops num) ax bu interp (mkStack m [] false) calls = Ok (mkStack m its false).
Proof.
  destruct (calls_made (sops num) (sops_lawful num) ax bu interp m calls (mkStack m [] false) None true eq_refl eq_refl Hacc) as (its & H1 & H2).
  { left. auto. }
  exists its. split; [exact H1|exact H2].
Qed.

Lemma pile_items its : made (sops num) ax bu interp m true None calls its ->
  Forall (fun i => wf_base d (it_mesh i)) its /\ Forall (fun it => it_trans it = false) (tl its) /\
  Forall (fun it => it_trans it = false /\ positions_span it /\ group_by_name it) (tl its) /\
  (forall ns, layer_counts (tl its) ns -> call_layers (tl calls) ns) /\
  (forall j it, nth_error its (S j) = Some it -> exists c, nth_error calls (S j) = Some c /\
     it_res it = ao_res (sc_opts c) /\ it_method it = ao_method (sc_opts c) /\ it_group it = ao_group (sc_opts c)) /\
  (forall j it, nth_error its j = Some it -> base_view (it_mesh it) = base_view m).
Proof.
  intros H.
  assert (HW : forall j it, nth_error its j = Some it -> wf_base d (it_mesh it) /\ base_view (it_mesh it) = base_view m).
  { intros j it E. destruct (made_nth _ _ _ _ _ _ _ _ _ j it H E) as (c & zs & _ & L & ->). destruct j; split; try apply placed_view; now apply placed_wf. }
  assert (HT : forall j it, nth_error its (S j) = Some it -> exists c, nth_error calls (S j) = Some c /\
     it_res it = ao_res (sc_opts c) /\ it_method it = ao_method (sc_opts c) /\ it_group it = ao_group (sc_opts c) /\ it_trans it = false).
  { intros j it E. destruct (made_nth _ _ _ _ _ _ _ _ _ (S j) it H E) as (c & zs & Hc & L & ->). exists c. repeat split; auto. }
  assert (HTl : forall it, In it (tl its) -> exists j, nth_error its (S j) = Some it).
  { intros it Hin. destruct its as [|i0 its]; [destruct Hin|]. apply In_nth_error in Hin as [j Hj]. exists j. exact Hj. }
  assert (HCl : forall j c, nth_error calls (S j) = Some c -> regular_call c).
  { intros j c Hc. rewrite Forall_forall in Hreg. apply Hreg. destruct calls as [|c0 l]; [discriminate|]. eapply nth_error_In; exact Hc. }
  split; [|split; [|split; [|split; [|split]]]].
  - apply Forall_forall. intros it Hin. apply In_nth_error in Hin as [j Hj]. now apply (HW j).
  - apply Forall_forall. intros it Hin. destruct (HTl it Hin) as [j Hj]. destruct (HT j it Hj) as (c & _ & _ & _ & _ & E). exact E.
  - apply Forall_forall. intros it Hin. destruct (HTl it Hin) as [j Hj]. destruct (HT j it Hj) as (c & Hc & E1 & E2 & E3 & E4).
    destruct (HCl j c Hc) as [R1 R2]. split; [exact E4|]. unfold positions_span, group_by_name. rewrite E1, E2, E3. auto.
  - intros ns [HL HC]. assert (LL : length (tl calls) = length ns).
    { rewrite HL. pose proof (made_length _ _ _ _ _ _ _ _ _ H) as E. destruct calls, its; cbn in *; try lia. }
    apply Forall2_nth_intro; [exact LL|]. intros j c n Hc Hn.
    assert (Hj : j < length (tl its)) by (rewrite <- HL; apply nth_error_Some; congruence).
    destruct (nth_error (tl its) j) as [it|] eqn:Ej; [|apply nth_error_None in Ej; lia].
    destruct (HC j it Ej) as (n' & Hn' & perc & Hp & ->). rewrite Hn in Hn'. injection Hn' as ->.
    assert (Ej' : nth_error its (S j) = Some it) by (destruct its; [destruct j; discriminate|exact Ej]).
    assert (Hc' : nth_error calls (S j) = Some c) by (destruct calls; [destruct j; discriminate|exact Hc]).
    destruct (HT j it Ej') as (c' & Hc2 & E1 & E2 & _). rewrite Hc' in Hc2. injection Hc2 as <-. rewrite E1, E2 in Hp. eauto.
  - intros j it E. destruct (HT j it E) as (c & H1 & H2 & H3 & H4 & _). eauto.
  - intros j it E. apply (HW j it E).
Qed.

Lemma pile_start : negb (structured_dimension (ss_dims (sb_surf m)) =? 2) = false /\
  stack_init m (Some (ss_dims (sb_surf m))) (Z.of_nat ax) = Ok (m, ax).
Proof.
  destruct Hw as (Ed & _). rewrite Ed. split.
  - destruct Hu as [H1 H2]. unfold structured_dimension, unit_axes. destruct d as [[x y] z].
    destruct ax as [|[|[|]]]; try lia; cbn in H1;
      pose proof (H2 0) as G0; pose proof (H2 1) as G1; pose proof (H2 2) as G2; cbn in G0, G1, G2; subst;
      repeat match goal with |- context [(?u =? 1)] => destruct (Nat.eqb_spec u 1); try lia end; reflexivity.
  - unfold stack_init. destruct Hu as [H1 _]. rewrite Nat2Z.id.
    replace ((0 <=? Z.of_nat ax) && (Z.of_nat ax <=? 2))%Z%bool with true by (symmetry; apply andb_true_intro; split; lia).
    cbn [negb]. rewrite H1. reflexivity.
Qed.

Lemma pile_run its : made (sops num) ax bu interp m true None calls its ->
  stack_calls (sops num) ax bu interp (mkStack m [] false) calls = Ok (mkStack m its false) ->
  exists g labels js, stack3d_mesh num int volumes o ax bu its = Ok (g, labels, js) /\
    stack3d_program num int volumes interp o (Z.of_nat ax) bu m calls = Ok (g, labels).
Proof.
  intros HM HS. destruct (pile_items its HM) as (H1 & H2 & H3 & _).
  destruct (stack_mesh_defined num int volumes o ax bu d its Hint Hax Hu) as (g & labels & js & E); auto.
  { rewrite (made_length _ _ _ _ _ _ _ _ _ HM). exact L2. }
  exists g, labels, js. split; [exact E|]. unfold stack3d_program. destruct pile_start as [-> ->]. cbn [bind]. rewrite HS. cbn [bind st_items].
  rewrite E. reflexivity.
Qed.

Lemma column_height p q h : same_column ax p q -> coord ax q = h -> q = at_height ax p h.
Proof.
  intros HC <-. destruct p as [[x y] z], q as [[x' y'] z'].
  pose proof (HC 0 ltac:(lia)) as C0. pose proof (HC 1 ltac:(lia)) as C1. pose proof (HC 2 ltac:(lia)) as C2. cbn in C0, C1, C2.
  destruct ax as [|[|[|]]]; try lia; cbn [at_height coord fst snd];
    rewrite ?C0, ?C1, ?C2 by lia; reflexivity.
Qed.

Lemma on_way_height t p h h' : on_way t (at_height ax p h) (at_height ax p h') = at_height ax p (h + t * (h' - h))%R.
Proof.
  destruct p as [[x y] z]. unfold on_way, at_height. destruct ax as [|[|]]; cbn;
    (apply injective_projections; [apply injective_projections|]; cbn [fst snd]; ring).
Qed.

Lemma placed_column zs i q : length zs = length (ss_pts (sb_surf m)) ->
  nth_error (getp (sops num) (placed (sops num) ax m zs)) i = Some q ->
  exists p, nth_error (ss_pts (sb_surf m)) i = Some p /\ same_column ax p q.
Proof.
  intros L E. destruct (nth_error zs i) as [z|] eqn:Ez.
  - destruct (placed_get (sops num) (sops_lawful num) ax m zs i z L Ez) as (p & H1 & H2). rewrite E in H1. injection H1 as ->.
    exists p. split; [exact H2|]. destruct p as [[x y] w]. intros a Ha Hne. destruct ax as [|[|[|]]], a as [|[|[|]]]; cbn; try lia; reflexivity.
  - exfalso. apply nth_error_None in Ez. cbn in E.
    assert (i < length (map2 (fun v p => pset ax v p) zs (ss_pts (sb_surf m)))) by (apply nth_error_Some; congruence).
    rewrite map2_length in *. lia.
Qed.

Lemma pile_settled its g labels js : made (sops num) ax bu interp m true None calls its ->
  stack3d_mesh num int volumes o ax bu its = Ok (g, labels, js) ->
  (forall j b, nth_error js j = Some b -> exists it, nth_error its j = Some it /\ only_points (sops num) it b) /\
  forall c p, in_shape d c -> at_coord d (ss_pts (sb_surf m)) c = Some p ->
    exists ls out, heights interp bu (ss_pts (sb_surf m)) (fidx d c) None calls ls /\ settles bu ls out /\ length out = length calls /\
    forall j h, nth_error out j = Some h -> exists a, nth_error js j = Some a /\ at_coord d (ss_pts (sb_surf (it_mesh a))) c = Some (at_height ax p h).
Proof.
  intros HM E. destruct (pile_items its HM) as (W1 & W2 & W3 & W4 & W5 & W6).
  apply stack_mesh_inv in E as (g0 & groups & n & E & _). unfold stack3d_structured in E.
  destruct (stack_levels (sops num) (sops_lawful num) _ ax bu _ _ _ _ _ _ _ _ Hax W2 E) as [HV HS]. split.
  { intros j b Hb. destruct (nth_error its j) as [it|] eqn:Ei;
      [|apply nth_error_None in Ei; pose proof (Forall2_len _ _ _ HV); assert (j < length js) by (apply nth_error_Some; congruence); lia].
    destruct (Forall2_nth_l _ _ _ HV j it Ei) as (b2 & Hb2 & HO & _). rewrite Hb in Hb2. injection Hb2 as <-. eauto. }
  intros c p Hc Hp.
  assert (Hi : fidx d c < length (ss_pts (sb_surf m))) by (apply nth_error_Some; unfold at_coord in Hp; congruence).
  destruct (made_levels (sops num) (sops_lawful num) ax bu interp m Hax true None calls its HM ltac:(split; auto) ltac:(discriminate) (fidx d c) Hi)
    as (ls & Hls & Hlv).
  destruct (HS (fidx d c) ls Hlv) as (out & Ho & He).
  exists ls, out. split; [exact Hls|]. split; [exact Ho|]. split.
  { rewrite <- (Forall2_len _ _ _ He), <- (Forall2_len _ _ _ HV). exact (made_length _ _ _ _ _ _ _ _ _ HM). }
  intros j h Hh. assert (Hj : j < length out) by (apply nth_error_Some; congruence).
  destruct (nth_error js j) as [a|] eqn:Ea; [|apply nth_error_None in Ea; pose proof (Forall2_len _ _ _ He); lia].
  exists a. split; [reflexivity|].
  destruct (Forall2_nth_l _ _ _ He j a Ea) as (h2 & Hh2 & q & Hq & Hz). rewrite Hh in Hh2. injection Hh2 as <-.
  destruct (nth_error its j) as [it|] eqn:Ei; [|apply nth_error_None in Ei; pose proof (Forall2_len _ _ _ HV); assert (j < length js) by (apply nth_error_Some; congruence); lia].
  destruct (Forall2_nth_l _ _ _ HV j it Ei) as (a2 & Ha2 & _ & HC). rewrite Ea in Ha2. injection Ha2 as <-.
  unfold at_coord. change (nth_error (points (sops num) a) (fidx d c) = Some (at_height ax p h)). rewrite Hq. f_equal.
  assert (Hq2 : exists q0, nth_error (points (sops num) it) (fidx d c) = Some q0 /\ same_column ax q0 q).
  { clear - HC Hq. revert Hq. generalize (fidx d c). induction HC as [|u v l l' Huv _ IH]; intros [|i] E; cbn in E; try discriminate.
    - injection E as <-. exists u. auto.
    - exact (IH i E). }
  destruct Hq2 as (q0 & Hq0 & Hcol).
  destruct (made_nth _ _ _ _ _ _ _ _ _ j it HM Ei) as (c0 & zs & _ & L & Eit).
  assert (Em : it_mesh it = placed (sops num) ax m zs) by (rewrite Eit; destruct j; reflexivity).
  unfold points in Hq0. rewrite Em in Hq0. destruct (placed_column zs (fidx d c) q0 L Hq0) as (p' & Hp' & Hcol').
  unfold at_coord in Hp. rewrite Hp in Hp'. injection Hp' as <-. apply column_height; [|exact Hz].
  intros a' G1 G2. rewrite (Hcol' a' G1 G2). exact (Hcol a' G1 G2).
Qed.

Lemma pile_nodes its g labels js : made (sops num) ax bu interp m true None calls its ->
  stack3d_mesh num int volumes o ax bu its = Ok (g, labels, js) ->
  exists nsubs, call_layers (tl calls) nsubs /\ sg_dims g = setc ax (S (list_sum nsubs)) d /\ length (sg_pts g) = size3 (sg_dims g) /\
    forall c p, in_shape d c -> at_coord d (ss_pts (sb_surf m)) c = Some p ->
    exists ls out, heights interp bu (ss_pts (sb_surf m)) (fidx d c) None calls ls /\ settles bu ls out /\ length out = length calls /\
      forall j call perc k t h h', nth_error calls (S j) = Some call ->
        resolution_to_perc (ao_res (sc_opts call)) (ao_method (sc_opts call)) = Ok perc -> nth_error perc k = Some t ->
        (j = 0 \/ 0 < k) -> nth_error out j = Some h -> nth_error out (S j) = Some h' ->
        at_coord (sg_dims g) (sg_pts g) (setc ax (list_sum (firstn j nsubs) + k) c) = Some (at_height ax p (h + t * (h' - h))%R).
Proof.
  intros HM E. destruct (pile_items its HM) as (W1 & W2 & W3 & W4 & W5 & W6).
  destruct (stack_nodes num int volumes o ax bu d its g labels js Hax Hu W1 W2 E) as (HO & nsubs & HL & Hd & Hlen & HN).
  exists nsubs. split; [now apply W4|]. split; [exact Hd|]. split; [exact Hlen|].
  destruct (pile_settled its g labels js HM E) as [Hit HS].
  intros c p Hc Hp. destruct (HS c p Hc Hp) as (ls & out & H1 & H2 & H3 & HQ). exists ls, out. repeat (split; [assumption|]).
  intros j call perc k t h h' Hcall Hperc Ht Hjk Hh Hh'.
  destruct (HQ j h Hh) as (a & Ha & Pa). destruct (HQ (S j) h' Hh') as (b & Hb & Pb).
  assert (Hb' : resolution_to_perc (it_res b) (it_method b) = Ok perc).
  { destruct (Hit (S j) b Hb) as (it & Ei & (_ & R1 & R2 & _)).
    destruct (W5 j it Ei) as (c2 & Hc2 & R3 & R4 & _). rewrite Hcall in Hc2. injection Hc2 as <-. rewrite R1, R2, R3, R4. exact Hperc. }
  destruct (HN j a b perc c k t _ _ Ha Hb Hb' Ht Hc Pa Pb) as (r & Hr & _ & Hr'). rewrite Hr, (Hr' Hjk), on_way_height. reflexivity.
Qed.

Lemma pile_groups its g labels js : made (sops num) ax bu interp m true None calls its ->
  stack3d_mesh num int volumes o ax bu its = Ok (g, labels, js) ->
  exists nsubs cg names, call_layers (tl calls) nsubs /\ In ("CellGroup"%string, cg) (sg_cd g) /\
    get_cell_group (Some (map int cg)) (Some labels) = Ok (Some (inl names)) /\ length names = n_cells (sg_dims g) /\
    (forall k, In k (map fst labels) <-> In k names) /\
    forall c, in_shape (cell_shape (sg_dims g)) c ->
      exists j call k, layer_in nsubs (comp ax c) j /\ nth_error calls (S j) = Some call /\
        at_coord (cell_shape (sg_dims g)) names c = Some k /\
        item_name o (base_view m) (ao_group (sc_opts call)) (fidx (cell_shape d) (setc ax 0 c)) k.
Proof.
  intros HM E. destruct (pile_items its HM) as (W1 & W2 & W3 & W4 & W5 & W6).
  destruct (stack_final num int Hint volumes Hvol o ax d its g labels Hax Hu W1 W2 bu js E)
    as (nsubs & HL & _ & (H1 & H2 & cg & names & H3 & H4 & H5 & H6 & H7) & _).
  exists nsubs, cg, names. split; [now apply W4|]. repeat (split; [assumption|]).
  intros c Hc. destruct (H7 c Hc) as (j & a & b & k & Hj & Ha & Hb & Hk & Hi).
  destruct (W5 j b Hb) as (call & Hcall & _ & _ & Eg). rewrite (W6 j a Ha), Eg in Hi.
  exists j, call, k. auto.
Qed.

Lemma pile_base its j it : made (sops num) ax bu interp m true None calls its -> nth_error its j = Some it ->
  exists zs, it_mesh it = placed (sops num) ax m zs.
Proof.
  intros HM E. destruct (made_nth _ _ _ _ _ _ _ _ _ j it HM E) as (c & zs & _ & _ & ->). exists zs. destruct j; reflexivity.
Qed.

Lemma pile_arrays its g labels js : made (sops num) ax bu interp m true None calls its ->
  stack3d_mesh num int volumes o ax bu its = Ok (g, labels, js) ->
  forall k, ~ In k ["ColumnId"; "LayerId"; "StackItem"; "CellGroup"]%string ->
  (In k (map fst (sg_cd g)) <-> In k (map fst (ss_cd (sb_surf m)))) /\
  forall x, In (k, x) (sg_cd g) -> length x = n_cells (sg_dims g) /\
    exists v, In (k, v) (ss_cd (sb_surf m)) /\
    forall c, in_shape (cell_shape (sg_dims g)) c -> at_coord (cell_shape (sg_dims g)) x c = at_coord (cell_shape d) v (setc ax 0 c).
Proof.
  intros HM E k Hk. destruct (pile_items its HM) as (W1 & W2 & W3 & W4 & W5 & W6).
  destruct (stack_final num int Hint volumes Hvol o ax d its g labels Hax Hu W1 W2 bu js E) as (nsubs & HL & Hd & _ & _ & [HK HC]).
  assert (HB : forall j a, nth_error its j = Some a -> ss_cd (sb_surf (it_mesh a)) = ss_cd (sb_surf m)).
  { intros j a Ha. destruct (pile_base its j a HM Ha) as (zs & ->). reflexivity. }
  assert (HI : In k (map fst (sg_cd g)) <-> In k (map fst (ss_cd (sb_surf m)))).
  { rewrite HK. split.
    + intros [G|G]; [contradiction|].
      pose proof (made_length _ _ _ _ _ _ _ _ _ HM) as LL. destruct its as [|a [|b its']]; cbn in LL; try lia.
      specialize (G 0 a b eq_refl eq_refl). rewrite (HB 0 a eq_refl) in G. exact G.
    + intros G. right. intros j a b Ha _. rewrite (HB j a Ha). exact G. }
  split; [exact HI|]. intros x Hx. destruct (HC k x Hx Hk) as [Hl HV]. split; [exact Hl|].
  assert (Hin : In k (map fst (ss_cd (sb_surf m)))) by (apply HI; apply in_map_iff; exists (k, x); auto).
  apply in_map_iff in Hin as ([k' v] & Ek & Hv). cbn in Ek. subst k'. exists v. split; [exact Hv|].
  intros c Hc. destruct (HV c Hc) as (j & a & v' & _ & Ha & Hv' & ->). rewrite (HB j a Ha) in Hv'.
  destruct Hw as (_ & _ & ND & _). f_equal. exact (fst_fun _ _ _ _ ND Hv' Hv).
Qed.

Lemma pile_flags its g labels js : made (sops num) ax bu interp m true None calls its ->
  stack3d_mesh num int volumes o ax bu its = Ok (g, labels, js) ->
  exists nsubs tops, call_layers (tl calls) nsubs /\ length tops = size3 d /\
    (forall i out, nth_error tops i = Some out -> exists ls, heights interp bu (ss_pts (sb_surf m)) i None calls ls /\ settles bu ls out /\ length out = length calls) /\
    (sg_ghost g = [] \/ length (sg_ghost g) = n_cells (sg_dims g) /\
       exists c, in_shape (cell_shape (sg_dims g)) c /\ flag_at (cell_shape (sg_dims g)) (sg_ghost g) c <> 0) /\
    forall c, in_shape (cell_shape (sg_dims g)) c ->
      exists j call perc block w, layer_in nsubs (comp ax c) j /\ nth_error calls (S j) = Some call /\
        resolution_to_perc (ao_res (sc_opts call)) (ao_method (sc_opts call)) = Ok perc /\
        length block = size3 (setc ax (length perc) d) /\
        (forall c' p out k t h h', in_shape d c' -> at_coord d (ss_pts (sb_surf m)) c' = Some p -> at_coord d tops c' = Some out ->
           nth_error perc k = Some t -> nth_error out j = Some h -> nth_error out (S j) = Some h' ->
           at_coord (setc ax (length perc) d) block (setc ax k c') = Some (at_height ax p (h + t * (h' - h))%R)) /\
        at_coord (cell_shape (setc ax (length perc) d)) (volumes (setc ax (length perc) d) block)
          (setc ax (comp ax c - list_sum (firstn j nsubs)) c) = Some w /\
        (w = 0%R -> flag_at (cell_shape (sg_dims g)) (sg_ghost g) c = 32) /\
        (w <> 0%R -> flag_at (cell_shape (sg_dims g)) (sg_ghost g) c = base_flag (cell_shape d) (ss_ghost (sb_surf m)) (setc ax 0 c)).
Proof.
  intros HM E. destruct (pile_items its HM) as (W1 & W2 & W3 & W4 & W5 & W6).
  destruct (stack_final num int Hint volumes Hvol o ax d its g labels Hax Hu W1 W2 bu js E) as (nsubs & HL & Hd & _ & [HG0 HG] & _).
  destruct (pile_settled its g labels js HM E) as [Hit HS].
  destruct (list_choice (fun i out => (exists ls, heights interp bu (ss_pts (sb_surf m)) i None calls ls /\ settles bu ls out /\ length out = length calls) /\
    forall p, nth_error (ss_pts (sb_surf m)) i = Some p -> forall j h, nth_error out j = Some h ->
      exists a, nth_error js j = Some a /\ nth_error (ss_pts (sb_surf (it_mesh a))) i = Some (at_height ax p h)) (size3 d)) as (tops & Lt & Ht).
  { intros i Hi. destruct (fidx_surj d i Hi) as (c & Hc & <-).
    destruct (nth_error (ss_pts (sb_surf m)) (fidx d c)) as [p|] eqn:Hp;
      [|apply nth_error_None in Hp; destruct Hw as (_ & Lp & _); lia].
    destruct (HS c p Hc Hp) as (ls & out & H1 & H2 & H3 & HQ). exists out. split; [eauto|]. intros p' E'. injection E' as <-. exact HQ. }
  exists nsubs, tops. split; [now apply W4|]. split; [exact Lt|]. split; [intros i out Ho; exact (proj1 (Ht i out Ho))|].
  split; [exact HG0|]. intros c Hc. destruct (HG c Hc) as (j & a & b & perc & block & w & Hj & Ha & Hb & Hp & [LB HB] & Hv & F0 & F1).
  destruct (Hit (S j) b Hb) as (itb & Eb & (_ & R1 & R2 & _)). destruct (W5 j itb Eb) as (call & Hcall & R3 & R4 & _).
  destruct (Hit j a Ha) as (ita & Ea & (Ema & _)). destruct (pile_base its j ita HM Ea) as (zs & Ez).
  assert (Eg : ss_ghost (sb_surf (it_mesh a)) = ss_ghost (sb_surf m)) by (rewrite Ema, Ez; reflexivity).
  exists j, call, perc, block, w. split; [exact Hj|]. split; [exact Hcall|]. split; [rewrite <- R3, <- R4, <- R1, <- R2; exact Hp|].
  split; [exact LB|]. split; [|split; [exact Hv|split; [exact F0|rewrite <- Eg; exact F1]]].
  intros c' p out k t h h' Hc' Hp' Ho Hk Hh Hh'.
  destruct (proj2 (Ht _ _ Ho) p Hp' j h Hh) as (a' & Ha' & Pa). destruct (proj2 (Ht _ _ Ho) p Hp' (S j) h' Hh') as (b' & Hb' & Pb).
  rewrite Ha in Ha'. injection Ha' as <-. rewrite Hb in Hb'. injection Hb' as <-.
  assert (E0 : setc ax 0 (setc ax k c') = c').
  { destruct Hu as [U _]. destruct c' as [[c1 c2] c3], d as [[d1 d2] d3]. destruct Hc' as (B1 & B2 & B3).
    destruct ax as [|[|[|]]]; try lia; cbn in U |- *; repeat (apply f_equal2; [|]); try reflexivity; lia. }
  assert (Ek : comp ax (setc ax k c') = k) by (destruct c' as [[? ?] ?]; destruct ax as [|[|[|]]]; try lia; reflexivity).
  rewrite (HB (setc ax k c') t (at_height ax p h) (at_height ax p h')).
  - f_equal. destruct p as [[x y] z]. unfold at_height. destruct ax as [|[|]]; cbn [fst snd];
      (apply injective_projections; [apply injective_projections|]; cbn [fst snd]; ring).
  - assert (k < length perc) by (apply nth_error_Some; congruence).
    destruct c' as [[c1 c2] c3], d as [[d1 d2] d3]. destruct Hc' as (B1 & B2 & B3). destruct ax as [|[|[|]]]; try lia; cbn; repeat split; assumption.
  - rewrite Ek. exact Hk.
  - rewrite E0. exact Pa.
  - rewrite E0. exact Pb.
Qed.
End Program.

(* identifiers, third axis *)
Lemma pile_ids {D} (num : Z -> D) (int : D -> Z) volumes interp o d bu m calls its g labels js :
  unit_along 2 d -> wf_base d m -> Forall regular_call (tl calls) ->
  2 <= length calls -> Forall (accepted interp (ss_pts (sb_surf m))) calls -> made (sops num) 2 bu interp m true None calls its ->
  stack3d_mesh num int volumes o 2 bu its = Ok (g, labels, js) ->
  exists nsubs, call_layers (tl calls) nsubs /\ sg_dims g = setc 2 (S (list_sum nsubs)) d /\ ids_of num d StackItem g nsubs.
Proof.
  intros Hu Hw Hreg L2 Hacc HM E.
  destruct (pile_items num interp 2 d (le_n 2) bu m Hw calls L2 Hacc Hreg its HM) as (W1 & W2 & W3 & W4 & W5 & W6).
  apply stack_mesh_inv in E as (g0 & groups & n & E & Ef).
  destruct (stack_ids_axis2 num volumes o bu d its g0 groups n js Hu W1 W2 E) as (nsubs & HL & -> & Hd & col & lay & itm & I1 & I2 & I3 & HI).
  exists nsubs. split; [now apply W4|].
  assert (HF : sg_dims g = sg_dims g0 /\ forall k v, k <> "CellGroup"%string -> In (k, v) (sg_cd g0) -> In (k, v) (sg_cd g)).
  { unfold finish, clean_grid in Ef. destruct (clean_groups _ _) as [[cg l]|]; [|discriminate]. cbn [bind] in Ef.
    apply Ok_inj in Ef. injection Ef as <- _. split; [reflexivity|]. cbn [sg_cd]. intros k v Hk Hin. destruct cg; [|exact Hin].
    apply aput_other; assumption. }
  destruct HF as [Ed HF]. rewrite Ed. split; [exact Hd|]. exists col, lay, itm. rewrite Ed.
  split; [apply HF; [discriminate|exact I1]|]. split; [apply HF; [discriminate|exact I2]|]. split; [apply HF; [discriminate|exact I3]|]. exact HI.
Qed.
