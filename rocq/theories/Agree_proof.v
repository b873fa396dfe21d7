From Coq Require Import Lia.
From Verif Require Import Prelude Topo_model Topo_spec Topo_proof Topo2_proof Topo3_proof Agree_spec.
Open Scope nat_scope.

Definition bounded (n : nat) (rows : list (list Z)) : Prop := forall r z, In r rows -> In z r -> z = (-1)%Z \/ (0 <= z < Z.of_nat n)%Z.

Lemma append_ok n (z : Z) j (nb : list (list Z)) : length nb = n -> (0 <= z < Z.of_nat n)%Z -> exists nb', append_at (Z.to_nat z) j nb = Ok nb' /\ length nb' = n /\
  forall i r, nth_error nb i = Some r -> nth_error nb' i = Some (if (z =? Z.of_nat i)%Z then r ++ [j] else r).
Proof.
  intros L H. unfold append_at. destruct (nth_error nb (Z.to_nat z)) as [r0|] eqn:E; [|apply nth_error_None in E; lia].
  eexists. split; [reflexivity|]. split; [now rewrite upd_length|]. intros i r Hr. rewrite upd_nth_error.
  assert (Li : i < length nb) by (apply nth_error_Some; congruence).
  destruct (Z.eqb_spec z (Z.of_nat i)) as [->|N].
  - rewrite Nat2Z.id in *. rewrite Nat.eqb_refl. assert (r0 = r) by congruence. subst r0. rewrite (proj2 (Nat.ltb_lt _ _)) by exact Li. reflexivity.
  - rewrite (proj2 (Nat.eqb_neq _ _)) by lia. exact Hr.
Qed.

Lemma loops_agree n rows : bounded n rows -> forall nb, length nb = n ->
  match connectivity_lines rows with
  | Ok lines => exists nb', neighbor_loop rows nb = Ok nb' /\ length nb' = n /\
      forall i r, nth_error nb i = Some r -> nth_error nb' i = Some (r ++ flat_map (other_end i) lines)
  | Err e => neighbor_loop rows nb = Err e
  end.
Proof.
  induction rows as [|row rows IH]; intros B nb L.
  - exists nb. split; [reflexivity|]. split; [exact L|]. intros i r H. cbn [flat_map]. now rewrite app_nil_r.
  - assert (B' : bounded n rows) by (intros r z Hr; apply B; now right). specialize (IH B').
    destruct row as [|a [|b [|]]]; try reflexivity.
    cbn [connectivity_lines neighbor_loop]. pose proof (B _ a (or_introl eq_refl) ltac:(cbn; auto)) as Ba. pose proof (B _ b (or_introl eq_refl) ltac:(cbn; auto)) as Bb.
    destruct (Z.eqb_spec a (-1)) as [Ea|Na]; cbn [orb negb andb].
    { specialize (IH nb L). destruct (connectivity_lines rows); cbn [bind]; exact IH. }
    destruct (Z.eqb_spec b (-1)) as [Eb|Nb]; cbn [orb negb andb].
    { specialize (IH nb L). destruct (connectivity_lines rows); cbn [bind]; exact IH. }
    destruct (append_ok n a b nb L ltac:(lia)) as (nb1 & E1 & L1 & H1). destruct (append_ok n b a nb1 L1 ltac:(lia)) as (nb2 & E2 & L2 & H2).
    rewrite E1. cbn [bind]. rewrite E2. cbn [bind]. specialize (IH nb2 L2). destruct (connectivity_lines rows) as [lines|e]; cbn [bind]; [|exact IH].
    destruct IH as (nb' & E & L' & H). exists nb'. split; [exact E|]. split; [exact L'|]. intros i r Hr.
    rewrite (H i _ (H2 i _ (H1 i r Hr))). f_equal. cbn [flat_map other_end]. rewrite app_assoc. f_equal.
    destruct (a =? Z.of_nat i)%Z; destruct (b =? Z.of_nat i)%Z; cbn [app]; rewrite <- ?app_assoc, ?app_nil_r; reflexivity.
Qed.

Lemma mask_get_In {A} (mask : list bool) (l : list A) x : In x (mask_get mask l) -> In x l.
Proof. revert l. induction mask as [|b mask IH]; intros [|y l] H; cbn in H; try contradiction. destruct b; [destruct H as [->|H]; [now left|]|]; right; now apply IH. Qed.
Lemma drop_bounded nonzero n g0 g : bounded n (g_rows g0) -> drop_collapsed nonzero g0 = Ok g -> bounded n (g_rows g).
Proof.
  intros B H. unfold drop_collapsed in H. destruct (forallb _ _); [injection H as <-; exact B|].
  remember (mask_get (map nonzero (g_faces g0)) (g_rows g0)) as rows eqn:E. destruct rows as [|r0 rs]; [discriminate|].
  remember (filter _ _) as keep in H. apply Ok_inj in H. subst g. cbn [g_rows]. intros r z Hr Hz. set (rows := r0 :: rs) in *.
  apply in_map_iff in Hr as (r1 & <- & Hr1). apply in_map_iff in Hz as (j & <- & _). 
  destruct (nth_in_or_default j r1 (-1)%Z) as [Hin| ->]; [|now left]. apply (B r1); [|exact Hin]. apply (mask_get_In (map nonzero (g_faces g0))). now rewrite <- E.
Qed.

Theorem extracted_bounded nonzero rg d g : wf_mesh (cast d) -> extract_cell_geometry nonzero rg d = Ok g -> bounded (length (v_types (cast d))) (g_rows g).
Proof.
  intros W H. destruct (extract_Ok _ _ _ _ W H) as (n & faces & g0 & H1 & H2 & H3 & H4). pose proof (get_polydata_once _ _ H3) as [Ho _].
  assert (B : bounded (length (v_types (cast d))) (g_rows g0)) by (intros r z Hr Hz; rewrite <- (proj1 H2); eapply once_ids; eauto).
  destruct rg; [eapply drop_bounded; eauto|injection H4 as <-; exact B].
Qed.

Theorem agree nonzero rg d : wf_mesh (cast d) -> forall P (centers : list P),
  match get_connectivity nonzero rg d [length (v_types (cast d)); 3] centers with
  | Ok (c, lines) => c = centers /\ exists nb, get_neighborhood nonzero rg d = Ok nb /\ length nb = length (v_types (cast d)) /\
      forall i r, nth_error nb i = Some r -> r = flat_map (other_end i) lines
  | Err e => get_neighborhood nonzero rg d = Err e
  end.
Proof.
  intros W P centers. unfold get_connectivity, get_neighborhood.
  replace (list_eqb [length (v_types (cast d)); 3] [length (v_types (cast d)); 3]) with true by (symmetry; now apply list_eqb_eq). cbn [negb].
  destruct (extract_cell_geometry nonzero rg d) as [g|e] eqn:E; cbn [bind]; [|reflexivity].
  pose proof (loops_agree _ _ (extracted_bounded _ _ _ _ W E) (repeat [] (length (v_types (cast d)))) (repeat_length _ _)) as H.
  destruct (connectivity_lines (g_rows g)) as [lines|e]; cbn [bind]; [|exact H].
  destruct H as (nb & En & L & H). split; [reflexivity|]. exists nb. split; [exact En|]. split; [exact L|]. intros i r Hr.
  assert (Hi : i < length (v_types (cast d))) by (rewrite <- L; apply nth_error_Some; congruence).
  rewrite (H i []) in Hr; [now injection Hr as <-|]. apply nth_error_repeat, Hi.
Qed.
