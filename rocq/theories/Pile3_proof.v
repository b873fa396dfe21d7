From Verif Require Import Lines_spec Lines1_proof RealAux Perc_model Perc_spec Perc_proof Surface_model Surface_spec Surface_proof
  Volume_model Volume_spec Volume_proof SMerge_model SMerge_spec SMerge_proof
  Groups_model Groups_spec Groups_proof Groups2_proof
  Stack_model Stack_spec Gen_proof Stack_proof Stack2_proof Stack3_proof Stack6_proof Stack7_proof
  Final_model Final_spec Line_spec Line3_proof Settle_spec Settle_proof Trans_model Trans5_proof Trans6_proof Input_model Input1_proof
  Pile_model Pile_spec Pile_proof Pile3_model Pile3_spec.
From Verif Require Lines_model.
From Coq Require Import Lra Ascii.
Import Lines_model(lmesh, l_pts, l_cells, l_pd, l_cd, mkL, segments, split_lines, at_res).
Open Scope nat_scope.

(* ---- the base line ---- *)
Lemma segments_seq n : forall s, segments (seq s (S n)) = map (fun k => [k; S k]) (seq s n).
Proof.
  unfold segments. induction n as [|n IH]; intros s; [reflexivity|].
  change (seq s (S (S n))) with (s :: S s :: seq (S (S s)) n). cbn [tl map2].
  specialize (IH (S s)). cbn [seq tl map2] in IH. cbn [seq map]. f_equal. exact IH.
Qed.
Lemma strip_chain n : forall s, strip_join (map (fun k => [k; S k]) (seq s (S n))) = seq s (S (S n)).
Proof.
  induction n as [|n IH]; intros s; [reflexivity|].
  specialize (IH (S s)). cbn [seq map] in IH |- *. cbn [strip_join last] in IH |- *. rewrite Nat.eqb_refl. cbn [removelast app]. f_equal.
  exact IH.
Qed.
Lemma strip_segments n : strip_join (segments (seq 0 (S (S n)))) = seq 0 (S (S n)).
Proof. rewrite segments_seq. apply strip_chain. Qed.
Lemma segments_length n : length (segments (seq 0 (S n))) = n.
Proof. rewrite segments_seq, map_length, seq_length. reflexivity. Qed.

Lemma cells_eq (cells : list (list nat)) n : (forall k, nth_error cells k = if k + 1 <? n then Some [k; k + 1] else None) ->
  cells = segments (seq 0 n).
Proof.
  intros H. apply nth_error_ext. intros k. rewrite H. destruct n as [|n].
  - replace (k + 1 <? 0) with false by (symmetry; apply Nat.ltb_ge; lia). destruct k; reflexivity.
  - rewrite segments_seq, nth_error_map. destruct (Nat.ltb_spec (k + 1) (S n)) as [L|L].
    + rewrite (nth_error_nth' _ 0) by (rewrite seq_length; lia). rewrite seq_nth by lia. cbn [option_map]. do 2 f_equal. rewrite Nat.add_comm. reflexivity.
    + rewrite (proj2 (nth_error_None (seq 0 n) k)) by (rewrite seq_length; lia). reflexivity.
Qed.

Lemma picks_len {A} (vals : list A) ids xs : picks vals ids xs -> length xs = length ids.
Proof. intros H. symmetry. exact (Forall2_len _ _ _ H). Qed.

Lemma picks_fun {A} (vals : list A) ids xs ys : picks vals ids xs -> picks vals ids ys -> xs = ys.
Proof.
  intros H. revert ys. induction H as [|i x ids xs Hx _ IH]; intros ys H'; inversion H'; subst; [reflexivity|].
  f_equal; [congruence|]. now apply IH.
Qed.

Lemma get_some {D} k (d : list (string * list D)) v : NoDup (map fst d) -> In (k, v) d -> Lines_model.get k d = Some v.
Proof.
  unfold Lines_model.get. induction d as [|[k' v'] d IH]; intros N H; [destruct H|]. cbn [map fst] in N. inversion N as [|? ? N1 N2]; subst.
  cbn [find fst]. destruct (String.eqb_spec k k') as [->|Hne].
  - destruct H as [E|H]; [injection E as <-; reflexivity|]. exfalso. apply N1. apply in_map_iff. exists (k', v). auto.
  - destruct H as [E|H]; [injection E as -> _; congruence|]. now apply IH.
Qed.
Lemma get_none {D} k (d : list (string * list D)) : ~ In k (map fst d) -> Lines_model.get k d = None.
Proof.
  unfold Lines_model.get. induction d as [|[k' v'] d IH]; intros H; [reflexivity|]. cbn [find fst].
  destruct (String.eqb_spec k k') as [->|Hne]; [exfalso; apply H; now left|]. apply IH. intros G. apply H. now right.
Qed.
Lemma get_in {D} k (d : list (string * list D)) v : Lines_model.get k d = Some v -> In (k, v) d.
Proof.
  unfold Lines_model.get. destruct (find _ d) as [[k' v']|] eqn:E; [|discriminate]. cbn. intros [= <-].
  apply find_some in E as [H1 H2]. cbn in H2. apply String.eqb_eq in H2. now subst.
Qed.

Lemma NoDup_keys {D} (f : string * list D -> bool) d : NoDup (map fst d) -> NoDup (map fst (filter f d)).
Proof.
  induction d as [|kv d IH]; intros N; [constructor|]. cbn [map] in N. inversion N as [|? ? N1 N2]; subst. cbn [filter].
  destruct (f kv); [|now apply IH]. cbn [map]. constructor; [|now apply IH].
  intros G. apply N1. apply in_map_iff in G as (kv' & E & G). apply filter_In in G as [G _]. apply in_map_iff. eauto.
Qed.

Lemma map_const_repeat {A B} (f : A -> B) x n : map f (repeat x n) = repeat (f x) n.
Proof. induction n; cbn; congruence. Qed.

(* a base line with at least two points *)
Lemma base_made {D} (int : D -> Z) ax (arg : list R + lmesh pt D) pts n : ax <= 2 -> base_ok arg -> base_points ax arg pts -> length pts = S (S n) ->
  exists line, stack2d_line ax arg = Ok line /\ ln_pts (lb_line (line_base int line)) = pts /\
    ln_ids (lb_line (line_base int line)) = seq 0 (S (S n)) /\ wf_line (S n) (line_base int line) /\
    (forall k v, In (k, v) (ln_cd (lb_line (line_base int line))) -> exists x, first_value arg k x /\ v = repeat x (S n)) /\
    (forall k, In k (map fst (ln_cd (lb_line (line_base int line)))) <->
       match arg with inl _ => False | inr m => In k (map fst (l_cd m)) /\ k <> "vtkGhostType"%string end) /\
    match ln_ghost (lb_line (line_base int line)) with
    | None => forall x, ~ first_value arg "vtkGhostType" x
    | Some gh => exists x, first_value arg "vtkGhostType" x /\ gh = repeat (Z.to_nat (int x)) (S n)
    end.
Proof.
  intros Hax Hok Hp L.
  assert (HX : exists line, stack2d_line ax arg = Ok line /\ l_pts line = pts /\ l_cells line = segments (seq 0 (S (S n))) /\
    (forall k v, In (k, v) (l_pd line) -> length v = S (S n)) /\ NoDup (map fst (l_cd line)) /\
    (forall k v, In (k, v) (l_cd line) -> exists x, first_value arg k x /\ v = repeat x (S n)) /\
    (forall k, In k (map fst (l_cd line)) <-> match arg with inl _ => False | inr m => In k (map fst (l_cd m)) end)).
  { destruct arg as [xs|m].
    - cbn [base_points] in Hp. exists (positions_line ax xs). split; [reflexivity|].
      pose proof (Forall2_len _ _ _ Hp) as LL.
      split; [|split; [cbn [positions_line l_cells]; now rewrite LL, L|]].
      + cbn [positions_line l_pts]. clear - Hp Hax. induction Hp as [|x p xs ps E _ IH]; [reflexivity|]. cbn [map]. rewrite IH, E.
        destruct ax as [|[|[|]]]; try lia; reflexivity.
      + cbn. split; [intros ? ? []|]. split; [constructor|]. split; [intros ? ? []|]. intros k. tauto.
    - destruct Hok as [W N]. destruct Hp as (ids & rest & E & Hp).
      destruct (split_lines_defined true m W) as [out Eo].
      destruct (split_lines_faithful true m out Eo) as [Lo H].
      assert (Hl : exists l0, nth_error out 0 = Some l0).
      { destruct (nth_error out 0) eqn:N0; [eauto|]. apply nth_error_None in N0. rewrite E in Lo. cbn in Lo. lia. }
      destruct Hl as [l0 El].
      destruct (H 0 ids l0 ltac:(rewrite E; reflexivity) El) as (H1 & _ & H3 & H4 & H5).
      assert (Lids : length ids = S (S n)) by (rewrite <- (picks_len _ _ _ Hp); exact L).
      exists l0. split.
      { cbn [stack2d_line]. unfold base_line. rewrite E. cbn [length Nat.eqb]. rewrite Eo. cbn [bind]. unfold at_res. now rewrite El. }
      split; [exact (picks_fun _ _ _ _ H1 Hp)|]. split; [rewrite <- Lids; now apply cells_eq|].
      assert (Hkey : map fst (l_cd l0) = map fst (l_cd m)).
      { clear - H5. induction H5 as [|? ? ? ? [E _] _ IH]; [reflexivity|]. cbn [map]. congruence. }
      split; [|split; [rewrite Hkey; exact N|split]].
      + intros k v Hin. apply In_nth_error in Hin as [j Hj].
        destruct (Forall2_nth_error_r _ _ _ _ _ H4 Hj) as (kv & _ & _ & Hpk). cbn in Hpk. rewrite (picks_len _ _ _ Hpk). exact Lids.
      + intros k v Hin. apply In_nth_error in Hin as [j Hj].
        destruct (Forall2_nth_error_r _ _ _ _ _ H5 Hj) as ([k' v'] & Hj' & Ek & x & Hx & Ev). cbn in Ek, Hx, Ev. subst k'.
        exists x. split; [|rewrite Ev, Lids; f_equal; lia]. cbn. exists v'. split; [|exact Hx]. eapply nth_error_In; exact Hj'.
      + intros k. rewrite Hkey. tauto. }
  destruct HX as (line & E & Epts & Ecells & Hpd & Hnd & Hcd & Hkeys). exists line. split; [exact E|]. split; [exact Epts|].
  assert (Eids : strip_join (l_cells line) = seq 0 (S (S n))) by (rewrite Ecells; apply strip_segments).
  assert (Enc : length (l_cells line) = S n) by (rewrite Ecells; apply segments_length).
  split; [exact Eids|].
  assert (Hcd' : forall k v, In (k, v) (ln_cd (lb_line (line_base int line))) -> exists x, first_value arg k x /\ v = repeat x (S n)).
  { intros k v Hin. cbn in Hin. apply filter_In in Hin as [Hin _]. now apply Hcd. }
  split; [|split; [exact Hcd'|split]].
  - unfold wf_line. cbn -[seq]. rewrite Epts, Eids, Enc, L, seq_length.
    repeat (split; [lia|]). split; [intros v Hv; apply in_seq in Hv; lia|].
    split; [now apply NoDup_keys|]. split; [exact Hpd|]. split.
    + intros k v Hin. destruct (Hcd' k v Hin) as (x & _ & ->). apply repeat_length.
    + split.
      * intros g Hg. destruct (Lines_model.get "vtkGhostType" (l_cd line)) as [v|] eqn:Ev; [|discriminate].
        injection Hg as <-. rewrite map_length. apply get_in in Ev. destruct (Hcd _ _ Ev) as (x & _ & ->). apply repeat_length.
      * intros g Hg. destruct (Lines_model.get "CellGroup" (l_cd line)) as [v|] eqn:Ev; [|discriminate].
        injection Hg as <-. rewrite map_length. apply get_in in Ev. destruct (Hcd _ _ Ev) as (x & _ & ->). apply repeat_length.
  - intros k. cbn. split.
    + intros Hin. apply in_map_iff in Hin as ([k' v] & Ek & Hin). cbn in Ek. subst k'. apply filter_In in Hin as [Hin Hne].
      assert (Hk : In k (map fst (l_cd line))) by (apply in_map_iff; exists (k, v); auto).
      apply Hkeys in Hk. cbn in Hne. apply Bool.negb_true_iff, String.eqb_neq in Hne. destruct arg; [contradiction|]. auto.
    + intros Hk. assert (G : In k (map fst (l_cd line)) /\ k <> "vtkGhostType"%string).
      { destruct arg; [contradiction|]. split; [now apply Hkeys|]. tauto. }
      destruct G as [G Hne]. apply in_map_iff in G as ([k' v] & Ek & Hin). cbn in Ek. subst k'.
      apply in_map_iff. exists (k, v). split; [reflexivity|]. apply filter_In. split; [exact Hin|]. cbn.
      apply Bool.negb_true_iff, String.eqb_neq. exact Hne.
  - cbn. destruct (Lines_model.get "vtkGhostType" (l_cd line)) as [v|] eqn:Ev; cbn [option_map].
    + apply get_in in Ev. destruct (Hcd _ _ Ev) as (x & Hx & ->). exists x. split; [exact Hx|]. exact (map_const_repeat _ x (S n)).
    + intros x Hx. destruct arg as [xs|m]; [exact Hx|]. destruct Hx as (v & Hin & _).
      assert (Hk : In "vtkGhostType"%string (map fst (l_cd line))) by (apply Hkeys, in_map_iff; exists ("vtkGhostType"%string, v); auto).
      apply in_map_iff in Hk as ([k' v'] & Ek & Hin'). cbn in Ek. subst k'. rewrite (get_some _ _ _ Hnd Hin') in Ev. discriminate.
Qed.

Lemma column_height' ax (Hax : ax <= 2) p q h : same_column ax p q -> coord ax q = h -> q = at_height ax p h.
Proof.
  intros HC <-. destruct p as [[x y] z], q as [[x' y'] z'].
  pose proof (HC 0 ltac:(lia)) as C0. pose proof (HC 1 ltac:(lia)) as C1. pose proof (HC 2 ltac:(lia)) as C2. cbn in C0, C1, C2.
  destruct ax as [|[|[|]]]; try lia; cbn [at_height coord fst snd];
    rewrite ?C0, ?C1, ?C2 by lia; reflexivity.
Qed.
Lemma on_way_height' ax t p h h' : on_way t (at_height ax p h) (at_height ax p h') = at_height ax p (h + t * (h' - h))%R.
Proof.
  destruct p as [[x y] z]. unfold on_way, at_height. destruct ax as [|[|]]; cbn;
    (apply injective_projections; [apply injective_projections|]; cbn [fst snd]; ring).
Qed.

Lemma first_value_fun {D} (arg : list R + lmesh pt D) k x y : base_ok arg -> first_value arg k x -> first_value arg k y -> x = y.
Proof.
  destruct arg as [xs|ml]; [intros _ []|]. intros [_ N] (v & Hv & Ex) (w & Hw' & Ey).
  pose proof (get_some _ _ _ N Hv). pose proof (get_some _ _ _ N Hw'). congruence.
Qed.

(* ---- the program ---- *)
Section Program.
Context {D : Type} (num : Z -> D) (int : D -> Z) (Hint : forall z, int (num z) = z).
Context (areas : shape3 -> list pt -> list R) (Har : forall dims pts, length (areas dims pts) = n_cells dims).
Context (interp : list pt -> list pt -> res (list R)).
Context (o : options) (ax : nat) (Hax : ax <= 2) (bu : bool) (arg : list R + lmesh pt D) (pts : list pt) (n : nat).
Context (Hok : base_ok arg) (Hpts : base_points ax arg pts) (Len : length pts = S (S n)).
Context (line : lmesh pt D) (Eline : stack2d_line ax arg = Ok line).
Context (Epts : ln_pts (lb_line (line_base int line)) = pts) (Eids : ln_ids (lb_line (line_base int line)) = seq 0 (S (S n))).
Context (Hw : wf_line (S n) (line_base int line)).
Context (calls : list st_call) (Hacc : Forall (accepted interp pts) calls).

Let m := line_base int line.

Lemma lplaced_wf zs : length zs = length pts -> wf_line (S n) (placed (lops num) ax m zs).
Proof.
  intros L. destruct Hw as (H1 & H2 & H3 & H4). split; [exact H1|]. split; [exact H2|]. split; [|exact H4].
  cbn. rewrite map2_length. fold m in Epts. unfold m in *. cbn in Epts, H3. rewrite L, <- Epts, Nat.min_id. exact H3.
Qed.

Lemma lpile_made : exists its, made (lops num) ax bu interp m true None calls its /\
  stack_calls (lops num) ax bu interp (mkStack m [] false) calls = Ok (mkStack m its false).
Proof.
  assert (Hacc' : Forall (accepted interp (getp (lops num) m)) calls) by (cbn in Epts |- *; rewrite Epts; exact Hacc).
  destruct (calls_made (lops num) (lops_lawful num) ax bu interp m calls (mkStack m [] false) None true eq_refl eq_refl Hacc') as (its & H1 & H2).
  { left. auto. }
  exists its. split; [exact H1|exact H2].
Qed.

Context (L2 : 2 <= length calls) (Hreg : Forall regular_call (tl calls)).

Lemma lpile_items its : made (lops num) ax bu interp m true None calls its ->
  Forall (fun i => wf_line (S n) (it_mesh i)) its /\ Forall (fun it => it_trans it = false) (tl its) /\
  Forall (fun it => it_trans it = false /\ positions_span it /\ group_by_name it) (tl its) /\
  (forall ns, layer_counts (tl its) ns -> call_layers (tl calls) ns) /\
  (forall j it, nth_error its (S j) = Some it -> exists c, nth_error calls (S j) = Some c /\
     it_res it = ao_res (sc_opts c) /\ it_method it = ao_method (sc_opts c) /\ it_group it = ao_group (sc_opts c)) /\
  (forall j it, nth_error its j = Some it -> exists zs, length zs = length pts /\ it_mesh it = placed (lops num) ax m zs).
Proof.
  intros H.
  assert (HW : forall j it, nth_error its j = Some it -> exists zs, length zs = length pts /\ it_mesh it = placed (lops num) ax m zs).
  { intros j it E. destruct (made_nth _ _ _ _ _ _ _ _ _ j it H E) as (c & zs & _ & L & ->). exists zs.
    split; [rewrite L; cbn in Epts |- *; now rewrite Epts|]. destruct j; reflexivity. }
  assert (HT : forall j it, nth_error its (S j) = Some it -> exists c, nth_error calls (S j) = Some c /\
     it_res it = ao_res (sc_opts c) /\ it_method it = ao_method (sc_opts c) /\ it_group it = ao_group (sc_opts c) /\ it_trans it = false).
  { intros j it E. destruct (made_nth _ _ _ _ _ _ _ _ _ (S j) it H E) as (c & zs & Hc & L & ->). exists c. repeat split; auto. }
  assert (HTl : forall it, In it (tl its) -> exists j, nth_error its (S j) = Some it).
  { intros it Hin. destruct its as [|i0 its]; [destruct Hin|]. apply In_nth_error in Hin as [j Hj]. exists j. exact Hj. }
  assert (HCl : forall j c, nth_error calls (S j) = Some c -> regular_call c).
  { intros j c Hc. rewrite Forall_forall in Hreg. apply Hreg. destruct calls as [|c0 l]; [discriminate|]. eapply nth_error_In; exact Hc. }
  split; [|split; [|split; [|split; [|split]]]].
  - apply Forall_forall. intros it Hin. apply In_nth_error in Hin as [j Hj]. destruct (HW j it Hj) as (zs & L & ->). now apply lplaced_wf.
  - apply Forall_forall. intros it Hin. destruct (HTl it Hin) as [j Hj]. destruct (HT j it Hj) as (c & _ & _ & _ & _ & E). exact E.
  - apply Forall_forall. intros it Hin. destruct (HTl it Hin) as [j Hj]. destruct (HT j it Hj) as (c & Hc & E1 & E2 & E3 & E4).
    destruct (HCl j c Hc) as [R1 R2]. split; [exact E4|]. unfold positions_span, group_by_name. rewrite E1, E2, E3. auto.
  - intros ns [HL HC]. assert (LL : length (tl calls) = length ns).
    { rewrite HL. pose proof (made_length _ _ _ _ _ _ _ _ _ H) as E. destruct calls, its; cbn in *; try lia. }
    apply Forall2_nth_intro; [exact LL|]. intros j c k Hc Hn.
    assert (Hj : j < length (tl its)) by (rewrite <- HL; apply nth_error_Some; congruence).
    destruct (nth_error (tl its) j) as [it|] eqn:Ej; [|apply nth_error_None in Ej; lia].
    destruct (HC j it Ej) as (n' & Hn' & perc & Hp & ->). rewrite Hn in Hn'. injection Hn' as ->.
    assert (Ej' : nth_error its (S j) = Some it) by (destruct its; [destruct j; discriminate|exact Ej]).
    assert (Hc' : nth_error calls (S j) = Some c) by (destruct calls; [destruct j; discriminate|exact Hc]).
    destruct (HT j it Ej') as (c' & Hc2 & E1 & E2 & _). rewrite Hc' in Hc2. injection Hc2 as <-. rewrite E1, E2 in Hp. eauto.
  - intros j it E. destruct (HT j it E) as (c & H1 & H2 & H3 & H4 & _). eauto.
  - exact HW.
Qed.

Lemma lpile_run its : made (lops num) ax bu interp m true None calls its ->
  stack_calls (lops num) ax bu interp (mkStack m [] false) calls = Ok (mkStack m its false) ->
  exists g labels js, stack2d_mesh num int areas o ax bu its = Ok (g, labels, js) /\
    stack2d_program num int areas interp o (Z.of_nat ax) bu arg calls = Ok (g, labels).
Proof.
  intros HM HS. destruct (lpile_items its HM) as (H1 & H2 & H3 & _).
  destruct (line_mesh_defined num int Hint areas Har ax Hax (S n) o bu its) as (g & labels & js & E); auto.
  { rewrite (made_length _ _ _ _ _ _ _ _ _ HM). exact L2. }
  exists g, labels, js. split; [exact E|]. unfold stack2d_program. rewrite Nat2Z.id, Eline. cbn [bind]. unfold stack_init. rewrite Nat2Z.id.
  replace ((0 <=? Z.of_nat ax) && (Z.of_nat ax <=? 2))%Z%bool with true by (symmetry; apply andb_true_intro; split; lia).
  cbn [negb bind]. fold m. rewrite HS. cbn [bind st_items]. rewrite E. reflexivity.
Qed.

Lemma lplaced_column zs i q : length zs = length pts ->
  nth_error (getp (lops num) (placed (lops num) ax m zs)) i = Some q -> exists p, nth_error pts i = Some p /\ same_column ax p q.
Proof.
  intros L E. assert (Eg : getp (lops num) m = pts) by exact Epts. destruct (nth_error zs i) as [z|] eqn:Ez.
  - destruct (placed_get (lops num) (lops_lawful num) ax m zs i z ltac:(now rewrite Eg) Ez) as (p & H1 & H2).
    rewrite E in H1. injection H1 as ->. rewrite Eg in H2.
    exists p. split; [exact H2|]. destruct p as [[x y] w]. intros a Ha Hne. destruct ax as [|[|[|]]], a as [|[|[|]]]; cbn; try lia; reflexivity.
  - exfalso. apply nth_error_None in Ez. unfold placed in E. rewrite (proj1 (lops_lawful num)) in E.
    assert (i < length (map2 (fun v p => pset ax v p) zs (getp (lops num) m))) by (apply nth_error_Some; congruence).
    rewrite map2_length in *. lia.
Qed.

(* the lines after the cut *)
Lemma lpile_settled its g labels js : made (lops num) ax bu interp m true None calls its ->
  stack2d_mesh num int areas o ax bu its = Ok (g, labels, js) ->
  forall i p, nth_error pts i = Some p ->
  exists ls out, heights interp bu pts i None calls ls /\ settles bu ls out /\ length out = length calls /\
    (forall j h, nth_error out j = Some h -> exists a, nth_error js j = Some a /\ line_point (it_mesh a) i (at_height ax p h)) /\
    forall j call b, nth_error calls (S j) = Some call -> nth_error js (S j) = Some b ->
      it_res b = ao_res (sc_opts call) /\ it_method b = ao_method (sc_opts call).
Proof.
  intros HM E i p Hp. destruct (lpile_items its HM) as (W1 & W2 & W3 & W4 & W5 & W6).
  assert (Eg : getp (lops num) m = pts) by exact Epts.
  assert (Hi : i < length (getp (lops num) m)) by (rewrite Eg; apply nth_error_Some; congruence).
  destruct (made_levels (lops num) (lops_lawful num) ax bu interp m Hax true None calls its HM ltac:(split; auto) ltac:(discriminate) i Hi)
    as (ls & Hls & Hlv). rewrite Eg in Hls.
  apply line_mesh_inv in E as (g0 & groups & k0 & E & _). unfold stack2d in E.
  destruct (stack_levels (lops num) (lops_lawful num) _ ax bu _ _ _ _ _ _ _ _ Hax W2 E) as [HV HS].
  destruct (HS i ls Hlv) as (out & Ho & He).
  exists ls, out. split; [exact Hls|]. split; [exact Ho|]. split.
  { rewrite <- (Forall2_len _ _ _ He), <- (Forall2_len _ _ _ HV). exact (made_length _ _ _ _ _ _ _ _ _ HM). }
  split.
  - intros j h Hh. assert (Hj : j < length out) by (apply nth_error_Some; congruence).
    destruct (nth_error js j) as [a|] eqn:Ea; [|apply nth_error_None in Ea; pose proof (Forall2_len _ _ _ He); lia].
    exists a. split; [reflexivity|].
    destruct (Forall2_nth_l _ _ _ He j a Ea) as (h2 & Hh2 & q & Hq & Hz). rewrite Hh in Hh2. injection Hh2 as <-.
    destruct (nth_error its j) as [it|] eqn:Ei; [|apply nth_error_None in Ei; pose proof (Forall2_len _ _ _ HV); assert (j < length js) by (apply nth_error_Some; congruence); lia].
    destruct (Forall2_nth_l _ _ _ HV j it Ei) as (a2 & Ha2 & HO & HC). rewrite Ea in Ha2. injection Ha2 as <-.
    destruct (W6 j it Ei) as (zs & Lz & Em).
    assert (Hq2 : exists q0, nth_error (points (lops num) it) i = Some q0 /\ same_column ax q0 q).
    { clear - HC Hq. revert i Hq. induction HC as [|u v l l' Huv _ IH]; intros [|i] E; cbn in E; try discriminate.
      - injection E as <-. exists u. auto.
      - exact (IH i E). }
    destruct Hq2 as (q0 & Hq0 & Hcol). unfold points in Hq0. rewrite Em in Hq0.
    destruct (lplaced_column zs i q0 Lz Hq0) as (p' & Hp' & Hcol'). rewrite Hp in Hp'. injection Hp' as <-.
    assert (Eq : q = at_height ax p h).
    { apply (column_height' ax Hax); [|exact Hz]. intros a' G1 G2. rewrite (Hcol' a' G1 G2). exact (Hcol a' G1 G2). }
    subst q. exists i. split; [|exact Hq].
    destruct HO as (Em' & _). rewrite Em', Em. change (nth_error (ln_ids (lb_line m)) i = Some i).
    unfold m. rewrite Eids. assert (Hi' : i < S (S n)) by (rewrite <- Len, <- Eg; exact Hi).
    rewrite (nth_error_nth' _ 0) by (rewrite seq_length; exact Hi'). now rewrite seq_nth.
  - intros j call b Hcall Hb.
    destruct (nth_error its (S j)) as [it|] eqn:Ei;
      [|apply nth_error_None in Ei; pose proof (Forall2_len _ _ _ HV); assert (S j < length js) by (apply nth_error_Some; congruence); lia].
    destruct (Forall2_nth_l _ _ _ HV (S j) it Ei) as (b2 & Hb2 & (_ & R1 & R2 & _) & _). rewrite Hb in Hb2. injection Hb2 as <-.
    destruct (W5 j it Ei) as (c2 & Hc2 & R3 & R4 & _). rewrite Hcall in Hc2. injection Hc2 as <-. rewrite R1, R2. auto.
Qed.

Lemma dims_eq u v : grid_dims (across ax) ax u v = strip_dims ax u v.
Proof. destruct ax as [|[|[|]]]; try lia; reflexivity. Qed.
Lemma coord_eq u v : grid_coord (across ax) ax u v = node_at ax u v.
Proof. destruct ax as [|[|[|]]]; try lia; reflexivity. Qed.
Lemma cells_dims u v : 1 <= u -> 1 <= v -> cell_shape (strip_dims ax (S u) (S v)) = strip_dims ax u v.
Proof.
  intros Hu Hv. destruct ax as [|[|[|]]]; try lia; unfold cell_shape, strip_dims; cbn;
    destruct u, v; try lia; reflexivity.
Qed.

Lemma lpile_nodes its g labels js nsubs : made (lops num) ax bu interp m true None calls its ->
  stack2d_mesh num int areas o ax bu its = Ok (g, labels, js) -> lnodes_follow ax (S n) js nsubs g ->
  sg_dims g = strip_dims ax (S (S n)) (S (list_sum nsubs)) /\ length (sg_pts g) = S (S n) * S (list_sum nsubs) /\
  forall i p, nth_error pts i = Some p -> exists out, column_heights interp bu pts i calls out /\
    forall j call perc k t h h', nth_error calls (S j) = Some call ->
      resolution_to_perc (ao_res (sc_opts call)) (ao_method (sc_opts call)) = Ok perc -> nth_error perc k = Some t ->
      (j = 0 \/ 0 < k) -> nth_error out j = Some h -> nth_error out (S j) = Some h' ->
      at_coord (sg_dims g) (sg_pts g) (node_at ax i (list_sum (firstn j nsubs) + k)) = Some (at_height ax p (h + t * (h' - h))%R).
Proof.
  intros HM E (Hd & Hl & HN). rewrite dims_eq in Hd. split; [exact Hd|]. split; [exact Hl|]. intros i p Hp.
  destruct (lpile_settled its g labels js HM E i p Hp) as (ls & out & H1 & H2 & H3 & H4 & H5).
  exists out. split; [exists ls; split; [exact H1|]; split; [destruct bu; exact H2|exact H3]|]. intros j call perc k t h h' Hcall Hperc Ht Hjk Hh Hh'.
  destruct (H4 j h Hh) as (a & Ha & Pa). destruct (H4 (S j) h' Hh') as (b & Hb & Pb).
  destruct (H5 j call b Hcall Hb) as [R1 R2].
  destruct (HN j a b perc i k t _ _ Ha Hb ltac:(rewrite R1, R2; exact Hperc) Ht Pa Pb) as (r & Hr & _ & Hr').
  rewrite coord_eq in Hr. rewrite Hr, (Hr' Hjk), (on_way_height' ax). reflexivity.
Qed.

(* groups *)
Lemma lpile_name (c : st_call) k s : regular_call c -> forall zs,
  item_name o (lbase_view (placed (lops num) ax m zs)) (ao_group (sc_opts c)) s k -> call_name (default_group o) c k.
Proof.
  intros [_ Hg] zs Hn. unfold call_name.
  assert (HB : base_name (labelled (lbase_view (placed (lops num) ax m zs))) (ignore_groups o) (the_default o "") s k -> k = default_group o).
  { intros HB. inversion HB as [cg labels k' El|Hall E']; [|reflexivity]. exfalso. unfold labelled, lbase_view in El. cbn in El.
    destruct (option_map _ _) in El; discriminate. }
  unfold item_name in Hn. destruct Hg as [Eg|[s' Eg]]; rewrite Eg in *; [now apply HB|].
  destruct Hn as (N1 & N2 & N3). split; [auto|]. split; [eauto|exact N3].
Qed.

Lemma lpile_groups its g labels js nsubs : made (lops num) ax bu interp m true None calls its ->
  stack2d_mesh num int areas o ax bu its = Ok (g, labels, js) -> 1 <= list_sum nsubs ->
  sg_dims g = strip_dims ax (S (S n)) (S (list_sum nsubs)) ->
  lgroups_follow (cell_seg ax (S n)) int o ax (S n) its nsubs g labels ->
  exists cg names, In ("CellGroup"%string, cg) (sg_cd g) /\
    get_cell_group (Some (map int cg)) (Some labels) = Ok (Some (inl names)) /\ length names = S n * list_sum nsubs /\
    (forall k, In k (map fst labels) <-> In k names) /\
    forall i l, i < S n -> l < list_sum nsubs ->
      exists j call k, layer_in nsubs l j /\ nth_error calls (S j) = Some call /\
        at_coord (strip_dims ax (S n) (list_sum nsubs)) names (node_at ax i l) = Some k /\ call_name (default_group o) call k.
Proof.
  intros HM E Hs Hd (_ & _ & cg & names & H1 & H2 & H3 & H4 & H5). destruct (lpile_items its HM) as (W1 & W2 & W3 & W4 & W5 & W6).
  exists cg, names. split; [exact H1|]. split; [exact H2|]. unfold n_cells in H3. rewrite Hd, cells_dims in * by lia. split.
  { rewrite H3. destruct ax as [|[|[|]]]; try lia; cbn [strip_dims]; unfold size3; lia. }
  split; [exact H4|]. intros i l Hi Hl. destruct (H5 i l Hi Hl) as (j & ns & a & b & k & Hj & Hns & Ha & Hb & Hk & Hn).
  destruct (W5 j b Hb) as (call & Hcall & _ & _ & Eg). destruct (W6 j a Ha) as (zs & _ & Em). rewrite Eg, Em in Hn.
  exists j, call, k. split; [exact Hj|]. split; [exact Hcall|]. unfold seg_at in Hk. rewrite coord_eq in Hk. split; [exact Hk|].
  apply (lpile_name call k _) with zs in Hn; [exact Hn|]. rewrite Forall_forall in Hreg. apply Hreg.
  destruct calls as [|c0 l0]; [discriminate|]. eapply nth_error_In; exact Hcall.
Qed.

Context (Hcd : forall k v, In (k, v) (ln_cd (lb_line m)) -> exists x, first_value arg k x /\ v = repeat x (S n)).
Context (Hkeys : forall k, In k (map fst (ln_cd (lb_line m))) <->
       match arg with inl _ => False | inr m => In k (map fst (l_cd m)) /\ k <> "vtkGhostType"%string end).
Context (Hgh : match ln_ghost (lb_line m) with
    | None => forall x, ~ first_value arg "vtkGhostType" x
    | Some gh => exists x, first_value arg "vtkGhostType" x /\ gh = repeat (Z.to_nat (int x)) (S n)
    end).

Lemma seg_lt ns i l : i < S n -> cell_seg ax (S n) ns i l < S n.
Proof.
  intros Hi. unfold cell_seg. destruct ax; [|exact Hi]. unfold swapped_seg. apply Nat.mod_upper_bound. lia.
Qed.
Lemma nth_repeat_lt {A} (x d : A) k i : i < k -> nth i (repeat x k) d = x /\ nth_error (repeat x k) i = Some x.
Proof.
  intros H. revert k H. induction i as [|i IH]; intros [|k] H; try lia; cbn; [auto|]. apply IH. lia.
Qed.

Lemma lpile_arrays its g labels js nsubs : made (lops num) ax bu interp m true None calls its ->
  stack2d_mesh num int areas o ax bu its = Ok (g, labels, js) -> 1 <= list_sum nsubs ->
  sg_dims g = strip_dims ax (S (S n)) (S (list_sum nsubs)) ->
  lcells_follow (cell_seg ax (S n)) ax (S n) its nsubs g ->
  forall k, ~ In k ["ColumnId"; "LayerId"; "StackItem"; "CellGroup"]%string ->
  (In k (map fst (sg_cd g)) <-> match arg with inl _ => False | inr ml => In k (map fst (l_cd ml)) /\ k <> "vtkGhostType"%string end) /\
  forall x, In (k, x) (sg_cd g) -> length x = S n * list_sum nsubs /\
    forall i l, i < S n -> l < list_sum nsubs ->
      exists v, first_value arg k v /\ at_coord (strip_dims ax (S n) (list_sum nsubs)) x (node_at ax i l) = Some v.
Proof.
  intros HM E Hs Hd [HK HC] k Hk. destruct (lpile_items its HM) as (W1 & W2 & W3 & W4 & W5 & W6).
  assert (HB : forall j a, nth_error its j = Some a -> ln_cd (lb_line (it_mesh a)) = ln_cd (lb_line m)).
  { intros j a Ha. destruct (W6 j a Ha) as (zs & _ & ->). reflexivity. }
  split.
  - rewrite <- Hkeys, HK. split.
    + intros [G|G]; [contradiction|].
      pose proof (made_length _ _ _ _ _ _ _ _ _ HM) as LL. destruct its as [|a [|b its']]; cbn in LL; try lia.
      specialize (G 0 a b eq_refl eq_refl). rewrite (HB 0 a eq_refl) in G. exact G.
    + intros G. right. intros j a b Ha _. rewrite (HB j a Ha). exact G.
  - intros x Hx. destruct (HC k x Hx Hk) as [Hl HV]. unfold n_cells in Hl. rewrite Hd, cells_dims in * by lia. split.
    { rewrite Hl. destruct ax as [|[|[|]]]; try lia; cbn [strip_dims]; unfold size3; lia. }
    intros i l Hi Hll. destruct (HV i l Hi Hll) as (j & ns & a & v & Hj & Hns & Ha & Hin & Hat).
    rewrite (HB j a Ha) in Hin. destruct (Hcd k v Hin) as (x0 & Hx0 & ->). exists x0. split; [exact Hx0|].
    unfold seg_at in Hat. rewrite coord_eq in Hat. rewrite Hat. apply (nth_repeat_lt x0 x0). now apply seg_lt.
Qed.

Lemma lpile_flags its g labels js nsubs : made (lops num) ax bu interp m true None calls its ->
  stack2d_mesh num int areas o ax bu its = Ok (g, labels, js) -> 1 <= list_sum nsubs ->
  sg_dims g = strip_dims ax (S (S n)) (S (list_sum nsubs)) ->
  lghosts_follow (cell_seg ax (S n)) areas ax (S n) js nsubs g ->
  exists tops, length tops = length pts /\ (forall i out, nth_error tops i = Some out -> column_heights interp bu pts i calls out) /\
  (sg_ghost g = [] \/ length (sg_ghost g) = S n * list_sum nsubs) /\
  forall i l, i < S n -> l < list_sum nsubs ->
    exists j call perc strip w, layer_in nsubs l j /\ nth_error calls (S j) = Some call /\
      resolution_to_perc (ao_res (sc_opts call)) (ao_method (sc_opts call)) = Ok perc /\
      length strip = length pts * length perc /\
      (forall i' p out k t h h', nth_error pts i' = Some p -> nth_error tops i' = Some out -> nth_error perc k = Some t ->
         nth_error out j = Some h -> nth_error out (S j) = Some h' ->
         at_coord (strip_dims ax (length pts) (length perc)) strip (node_at ax i' k) = Some (at_height ax p (h + t * (h' - h))%R)) /\
      at_coord (strip_dims ax (S n) (length perc - 1)) (areas (strip_dims ax (length pts) (length perc)) strip)
        (node_at ax i (l - list_sum (firstn j nsubs))) = Some w /\
      let flag := flag_at (strip_dims ax (S n) (list_sum nsubs)) (sg_ghost g) (node_at ax i l) in
      (w = 0%R -> flag = 32) /\ (w <> 0%R -> line_flag int arg flag).
Proof.
  intros HM E Hs Hd [HG0 HG]. destruct (lpile_items its HM) as (W1 & W2 & W3 & W4 & W5 & W6).
  destruct (list_choice (fun i out => column_heights interp bu pts i calls out /\
    forall p, nth_error pts i = Some p ->
    (forall j h, nth_error out j = Some h -> exists a, nth_error js j = Some a /\ line_point (it_mesh a) i (at_height ax p h)) /\
    forall j call b, nth_error calls (S j) = Some call -> nth_error js (S j) = Some b ->
      it_res b = ao_res (sc_opts call) /\ it_method b = ao_method (sc_opts call)) (length pts)) as (tops & Lt & Ht).
  { intros i Hi. destruct (nth_error pts i) as [p|] eqn:Hp; [|apply nth_error_None in Hp; lia].
    destruct (lpile_settled its g labels js HM E i p Hp) as (ls & out & H1 & H2 & H3 & H4 & H5).
    exists out. split; [exists ls; split; [exact H1|]; split; [destruct bu; exact H2|exact H3]|]. intros p' E'. injection E' as <-. auto. }
  exists tops. split; [exact Lt|]. split; [intros i out Ho; exact (proj1 (Ht i out Ho))|].
  unfold n_cells in HG0. rewrite Hd, cells_dims in * by lia. split.
  { destruct HG0 as [G|[G _]]; [left; exact G|right]. rewrite G. destruct ax as [|[|[|]]]; try lia; cbn [strip_dims]; unfold size3; lia. }
  intros i l Hi Hl. destruct (HG i l Hi Hl) as (j & ns & a & b & perc & strip & w & Hj & Hns & Ha & Hb & Hperc & [SL HS] & HR).
  cbv zeta in HR. destruct HR as (Hwt & F0 & F1).
  (* the item of layer l *)
  apply line_mesh_inv in E as (g0 & groups & k0 & E & _). unfold stack2d in E.
  destruct (stack_levels (lops num) (lops_lawful num) _ ax bu _ _ _ _ _ _ _ _ Hax W2 E) as [HV _].
  assert (Hit : forall q c, nth_error js q = Some c -> exists it, nth_error its q = Some it /\ only_points (lops num) it c).
  { intros q c Hc. destruct (nth_error its q) as [it|] eqn:Ei;
      [|apply nth_error_None in Ei; pose proof (Forall2_len _ _ _ HV); assert (q < length js) by (apply nth_error_Some; congruence); lia].
    destruct (Forall2_nth_l _ _ _ HV q it Ei) as (b2 & Hb2 & HO & _). rewrite Hc in Hb2. injection Hb2 as <-. eauto. }
  destruct (Hit (S j) b Hb) as (itb & Eitb & (_ & Rb1 & Rb2 & _)). destruct (W5 j itb Eitb) as (call & Hcall & R3 & R4 & _).
  assert (Hperc' : resolution_to_perc (ao_res (sc_opts call)) (ao_method (sc_opts call)) = Ok perc) by (rewrite <- R3, <- R4, <- Rb1, <- Rb2; exact Hperc).
  destruct (Hit j a Ha) as (ita & Eita & (Ema & _)). destruct (W6 j ita Eita) as (zsa & _ & Emz).
  assert (Egh : ln_ghost (lb_line (it_mesh a)) = ln_ghost (lb_line m)) by (rewrite Ema, Emz; reflexivity).
  assert (Lp : 2 <= length perc).
  { assert (Hrc : regular_call call).
    { rewrite Forall_forall in Hreg. apply Hreg. destruct calls as [|c0 l0]; [discriminate|]. eapply nth_error_In; exact Hcall. }
    destruct Hrc as [(perc' & Ep & Lp & _) _]. rewrite Hperc' in Ep. apply Ok_inj in Ep. now subst. }
  exists j, call, perc, strip, w. split; [exact Hj|]. split; [exact Hcall|]. split; [exact Hperc'|].
  rewrite Len. split; [exact SL|]. rewrite dims_eq in *. split.
  { intros i' p out k t h h' Hp Ho Hk Hh Hh'. destruct (proj2 (Ht i' out Ho) p Hp) as [HP _].
    destruct (HP j h Hh) as (a2 & Ha2 & Pa). destruct (HP (S j) h' Hh') as (b2 & Hb2 & Pb).
    rewrite Ha in Ha2. injection Ha2 as <-. rewrite Hb in Hb2. injection Hb2 as <-.
    rewrite <- coord_eq, <- (on_way_height' ax). now apply HS. }
  assert (ES : cell_shape (strip_dims ax (S (S n)) (length perc)) = strip_dims ax (S n) (length perc - 1)).
  { destruct (length perc) as [|q]; [lia|]. rewrite cells_dims by lia. f_equal. lia. }
  rewrite ES in Hwt. unfold seg_at in *. rewrite !coord_eq in *. split; [exact Hwt|]. split; [exact F0|].
  intros Hne. rewrite (F1 Hne), Egh. split.
  - intros x Hx. destruct (ln_ghost (lb_line m)) as [gh|]; [|exfalso; exact (Hgh x Hx)].
    destruct Hgh as (x' & Hx' & ->). rewrite (first_value_fun arg _ _ _ Hok Hx Hx'). apply (nth_repeat_lt (Z.to_nat (int x')) 0). now apply seg_lt.
  - intros Hno. destruct (ln_ghost (lb_line m)) as [gh|]; [|reflexivity]. destruct Hgh as (x' & Hx' & _). exfalso. exact (Hno x' Hx').
Qed.
End Program.

Lemma counts_pos {D} (its : list (item (lbase D))) ns : Forall (fun it => it_trans it = false /\ positions_span it /\ group_by_name it) (tl its) ->
  2 <= length its -> layer_counts (tl its) ns -> 1 <= list_sum ns.
Proof.
  intros HF L [HL HC]. destruct its as [|a [|b its]]; cbn in L; try lia. cbn [tl] in *. inversion HF as [|? ? (_ & HS & _) _]; subst.
  destruct (HC 0 b eq_refl) as (k & Hk & perc & Hp & ->). destruct HS as (perc' & Hp' & Lp & _). rewrite Hp in Hp'. apply Ok_inj in Hp'. subst perc'.
  destruct ns as [|n0 ns]; [discriminate|]. injection Hk as ->. cbn. lia.
Qed.

Lemma lpile_all {D : Type} (num : Z -> D) (int : D -> Z) (Hint : forall z, int (num z) = z)
  (areas : shape3 -> list pt -> list R) (Har : forall dims pts, length (areas dims pts) = n_cells dims) interp o ax bu arg pts n calls :
  ax <= 2 -> base_ok arg -> base_points ax arg pts -> length pts = S (S n) ->
  Forall (accepted interp pts) calls -> 2 <= length calls -> Forall regular_call (tl calls) ->
  exists line its g labels js nsubs, stack2d_line ax arg = Ok line /\ ln_pts (lb_line (line_base int line)) = pts /\
    ln_ids (lb_line (line_base int line)) = seq 0 (S (S n)) /\ wf_line (S n) (line_base int line) /\
    made (lops num) ax bu interp (line_base int line) true None calls its /\
    stack2d_mesh num int areas o ax bu its = Ok (g, labels, js) /\
    stack2d_program num int areas interp o (Z.of_nat ax) bu arg calls = Ok (g, labels) /\
    call_layers (tl calls) nsubs /\ 1 <= list_sum nsubs /\
    lnodes_follow ax (S n) js nsubs g /\
    lgroups_follow (cell_seg ax (S n)) int o ax (S n) its nsubs g labels /\
    lghosts_follow (cell_seg ax (S n)) areas ax (S n) js nsubs g /\
    lcells_follow (cell_seg ax (S n)) ax (S n) its nsubs g /\
    (forall k v, In (k, v) (ln_cd (lb_line (line_base int line))) -> exists x, first_value arg k x /\ v = repeat x (S n)) /\
    (forall k, In k (map fst (ln_cd (lb_line (line_base int line)))) <->
       match arg with inl _ => False | inr m => In k (map fst (l_cd m)) /\ k <> "vtkGhostType"%string end) /\
    match ln_ghost (lb_line (line_base int line)) with
    | None => forall x, ~ first_value arg "vtkGhostType" x
    | Some gh => exists x, first_value arg "vtkGhostType" x /\ gh = repeat (Z.to_nat (int x)) (S n)
    end.
Proof.
  intros Hax Hok Hp Len Hacc L2 Hreg.
  destruct (base_made int ax arg pts n Hax Hok Hp Len) as (line & E1 & E2 & E3 & E4 & E5 & E6 & E7).
  destruct (lpile_made num int interp ax bu pts line E2 calls Hacc) as (its & HM & HS).
  destruct (lpile_run num int Hint areas Har interp o ax Hax bu arg pts n Len line E1 E2 E4 calls Hacc L2 Hreg its HM HS) as (g & labels & js & EM & EP).
  destruct (lpile_items num int interp ax Hax bu pts n Len line E2 E4 calls Hacc L2 Hreg its HM) as (W1 & W2 & W3 & W4 & _).
  destruct (line_final num int Hint areas Har ax Hax (S n) o bu its g labels js W1 W2 EM) as (_ & nsubs & H1 & H2 & H3 & H4 & H5 & _).
  exists line, its, g, labels, js, nsubs. repeat (split; [assumption|]). split; [now apply W4|]. split.
  { apply (counts_pos its); auto. rewrite (made_length _ _ _ _ _ _ _ _ _ HM). exact L2. }
  repeat (split; [assumption|]). exact E7.
Qed.

(* identifiers, second and third axes *)
Lemma lpile_ids {D : Type} (num : Z -> D) (int : D -> Z) (Hint : forall z, int (num z) = z)
  (areas : shape3 -> list pt -> list R) (Har : forall dims pts, length (areas dims pts) = n_cells dims) interp o ax bu arg pts n calls g labels :
  1 <= ax <= 2 -> base_ok arg -> base_points ax arg pts -> length pts = S (S n) ->
  Forall (accepted interp pts) calls -> 2 <= length calls -> Forall regular_call (tl calls) ->
  stack2d_program num int areas interp o (Z.of_nat ax) bu arg calls = Ok (g, labels) ->
  exists nsubs col lay itm, call_layers (tl calls) nsubs /\
    In ("ColumnId"%string, col) (sg_cd g) /\ In ("LayerId"%string, lay) (sg_cd g) /\ In ("StackItem"%string, itm) (sg_cd g) /\
    forall i l, i < S n -> l < list_sum nsubs ->
      at_coord (strip_dims ax (S n) (list_sum nsubs)) col (node_at ax i l) = Some (num (Z.of_nat i)) /\
      at_coord (strip_dims ax (S n) (list_sum nsubs)) lay (node_at ax i l) = Some (num (Z.of_nat l)) /\
      exists j, layer_in nsubs l j /\ at_coord (strip_dims ax (S n) (list_sum nsubs)) itm (node_at ax i l) = Some (num (Z.of_nat j)).
Proof.
  intros [Hax1 Hax] Hok Hp Len Hacc L2 Hreg E0.
  destruct (base_made int ax arg pts n Hax Hok Hp Len) as (line & E1 & E2 & E3 & E4 & E5 & E6 & E7).
  destruct (lpile_made num int interp ax bu pts line E2 calls Hacc) as (its & HM & HS).
  destruct (lpile_run num int Hint areas Har interp o ax Hax bu arg pts n Len line E1 E2 E4 calls Hacc L2 Hreg its HM HS) as (g1 & labels1 & js & EM & EP).
  rewrite E0 in EP. assert (EQ := Ok_inj _ _ EP). injection EQ as <- <-.
  destruct (lpile_items num int interp ax Hax bu pts n Len line E2 E4 calls Hacc L2 Hreg its HM) as (W1 & W2 & W3 & W4 & _).
  destruct (line_final num int Hint areas Har ax Hax (S n) o bu its g labels js W1 W2 EM) as (_ & nsubs & H1 & H2 & _ & _ & _ & H6).
  assert (Hs : 1 <= list_sum nsubs).
  { apply (counts_pos its); auto. rewrite (made_length _ _ _ _ _ _ _ _ _ HM). exact L2. }
  destruct (lpile_nodes num int areas interp o ax Hax bu arg pts n Hp Len line E1 E2 E3 E4 calls Hacc L2 Hreg its g labels js nsubs HM EM H2) as (Hd & _).
  destruct H6 as (col & lay & itm & I1 & I2 & I3 & HI). exists nsubs, col, lay, itm. split; [now apply W4|]. repeat (split; [assumption|]).
  assert (ES : cell_shape (strip_dims ax (S (S n)) (S (list_sum nsubs))) = strip_dims ax (S n) (list_sum nsubs)).
  { destruct (list_sum nsubs); [lia|]. destruct ax as [|[|[|]]]; try lia; reflexivity. }
  rewrite Hd, ES in HI. intros i l Hi Hl. destruct (HI i l Hi Hl) as (j & ns & Hj & Hns & A1 & A2 & A3).
  assert (EC : seg_at ax i l = node_at ax i l) by (clear - Hax; destruct ax as [|[|[|]]]; try lia; reflexivity).
  rewrite EC in A1, A2, A3. unfold cell_seg, cell_lev in A1, A2. destruct ax as [|a]; [lia|].
  unfold own_seg in A1. unfold own_lev in A2. split; [exact A1|]. split; [|exists j; auto].
  rewrite A2. do 3 f_equal. unfold layer_in in Hj. lia.
Qed.
