(* Collapsed faces, face tables, flattened connectivity, dimension, extraction: proofs. *)
From Coq Require Import Permutation Sorted.
From Verif Require Import Topo_model Volume_spec Topo_spec Topo_proof Topo2_proof Topo3_proof.
Open Scope nat_scope.

(* ---- get_neighborhood and get_connectivity ---- *)
Theorem neighborhood_spec nonzero rg d nb : wf_mesh (cast d) -> get_neighborhood nonzero rg d = Ok nb ->
  exists n faces, get_dimension d = Ok n /\ mesh_faces rg (cast d) n faces /\
    (no_collapse nonzero rg faces ->
     length nb = length (v_types (cast d)) /\
     (forall i r, nth_error nb i = Some r -> forall z, In z r <-> exists j, z = Z.of_nat j /\ share faces i j) /\
     (forall i r j, nth_error nb i = Some r -> multiplicity faces i j (count_occ Z.eq_dec r (Z.of_nat j))) /\
     (forall i j ri rj, nth_error nb i = Some ri -> nth_error nb j = Some rj ->
        count_occ Z.eq_dec ri (Z.of_nat j) = count_occ Z.eq_dec rj (Z.of_nat i))).
Proof.
  intros W H. unfold get_neighborhood in H.
  destruct (extract_cell_geometry nonzero rg d) as [g|] eqn:E; [|discriminate]. cbn [bind] in H.
  destruct (geometry_faces _ _ _ _ W E) as (n & faces & H1 & H2 & H3).
  exists n, faces. split; [auto|]. split; [auto|]. intros Hn. destruct (H3 Hn) as [Ho _].
  pose proof (proj1 H2) as Hl. rewrite <- Hl in *. destruct (neighbors_share _ _ _ Ho H) as (A & B & C).
  split; [exact A|]. split; [exact B|]. split; [|exact C]. intros i r j Hi. eapply neighbors_count; eauto.
Qed.

Theorem neighborhood_iff nonzero rg d g : wf_mesh (cast d) -> extract_cell_geometry nonzero rg d = Ok g ->
  exists n faces, get_dimension d = Ok n /\ mesh_faces rg (cast d) n faces /\
    (no_collapse nonzero rg faces ->
     ((exists nb, get_neighborhood nonzero rg d = Ok nb) <-> used 2 faces /\ ~ used 3 faces)).
Proof.
  intros W E. destruct (geometry_faces _ _ _ _ W E) as (n & faces & H1 & H2 & H3).
  exists n, faces. split; [auto|]. split; [auto|]. intros Hn. destruct (H3 Hn) as [Ho [w Hw]].
  unfold get_neighborhood. rewrite E; cbn [bind]. rewrite <- (proj1 H2).
  apply neighbors_iff with (w := w); auto.
Qed.

Lemma connectivity_pairs occ g lines : lists_once occ g ->
  connectivity_lines (g_rows g) = Ok lines -> shared_pairs occ g lines.
Proof.
  intros Ho H. apply connectivity_lines_Ok in H as [H2 ->]. unfold shared_pairs.
  assert (Hrow : forall k f r, nth_error (g_faces g) k = Some f -> nth_error (g_rows g) k = Some r ->
     existsb (Z.eqb (-1)) r = false ->
     exists p q i j f1 f2, p < q /\ (nth 0 r 0%Z, nth 1 r 0%Z) = (Z.of_nat i, Z.of_nat j) /\
             nth_error occ p = Some (i, f1) /\ nth_error occ q = Some (j, f2) /\
             same_set f1 f /\ same_set f2 f /\
             (forall r k h, nth_error occ r = Some (k, h) -> same_set h f -> r = p \/ r = q)).
  { intros k f r Hf Hr He.
    destruct (once_row _ _ _ _ Ho Hr) as (f' & ps & sel & n & Ef & Erow & Hsel & Hsort & F & Hiff).
    assert (f' = f) as -> by congruence.
    assert (Hlen : length r = 2) by (apply H2; eapply nth_error_In; eauto).
    destruct r as [|a [|b [|c r]]]; try discriminate.
    destruct (row2_split _ _ _ _ Erow Hsel) as [(o & _ & ->)|([i f1] & [j f2] & -> & -> & ->)].
    { simpl in He. rewrite orb_true_r in He; discriminate. }
    inversion F as [|p ? ps' ? Hp F']; subst. inversion F' as [|q ? ps2 ? Hq F2]; subst. inversion F2; subst.
    exists p, q, i, j, f1, f2. repeat split; auto.
    - inversion Hsort as [|? ? _ Hlt]; subst. inversion Hlt; auto.
    - apply (proj2 (Hiff _ _ Hp)); simpl; auto.
    - apply (proj2 (Hiff _ _ Hp)); simpl; auto.
    - apply (proj2 (Hiff _ _ Hq)); simpl; auto.
    - apply (proj2 (Hiff _ _ Hq)); simpl; auto.
    - intros r k0 h Hr' Hs. apply (Hiff _ _ Hr') in Hs. simpl in Hs; intuition auto. }
  destruct Ho as (pos & L1 & L2 & _).
  assert (Hl : length (g_faces g) = length (g_rows g)) by lia. clear L1 L2 pos.
  clear H2. revert Hl Hrow. generalize (g_faces g) (g_rows g).
  intros fs rows; revert fs; induction rows as [|r rows IH]; intros [|f fs] Hl Hrow; try discriminate; simpl; [constructor|].
  destruct (existsb (Z.eqb (-1)) r) eqn:E; simpl.
  - apply IH; [simpl in Hl; lia|]. intros k; apply (Hrow (S k)).
  - constructor; [apply (Hrow 0 f r); auto|]. apply IH; [simpl in Hl; lia|]. intros k; apply (Hrow (S k)).
Qed.

Theorem connectivity_spec {P} nonzero rg d shape (centers : list P) c lines : wf_mesh (cast d) ->
  get_connectivity nonzero rg d shape centers = Ok (c, lines) ->
  c = centers /\ shape = [length (v_types (cast d)); 3] /\
  exists n faces g, get_dimension d = Ok n /\ mesh_faces rg (cast d) n faces /\
    (no_collapse nonzero rg faces -> lists_once (incidences faces) g /\ shared_pairs (incidences faces) g lines).
Proof.
  intros W. unfold get_connectivity. destruct (list_eqb shape [length (v_types (cast d)); 3]) eqn:Es; [|discriminate].
  apply list_eqb_eq in Es. cbn [negb].
  destruct (extract_cell_geometry nonzero rg d) as [g|] eqn:E; [|discriminate]. cbn [bind].
  destruct (connectivity_lines (g_rows g)) as [l|] eqn:El; [|discriminate]. cbn [bind].
  intros H%Ok_inj. apply pair_equal_spec in H as [-> ->]. split; [auto|]. split; [auto|].
  destruct (geometry_faces _ _ _ _ W E) as (n & faces & H1 & H2 & H3).
  exists n, faces, g. split; [auto|]. split; [auto|]. intros Hn. destruct (H3 Hn) as [Ho _].
  split; [auto|]. apply connectivity_pairs; auto.
Qed.

Theorem connectivity_rejects {P} nonzero rg d shape (centers : list P) :
  shape <> [length (v_types (cast d)); 3] -> get_connectivity nonzero rg d shape centers = Err ValueError.
Proof.
  intros H. unfold get_connectivity. destruct (list_eqb shape _) eqn:E; auto.
  apply list_eqb_eq in E; congruence.
Qed.

(* ---- collapsed faces removed ---- *)
Lemma mask_get_filter {A B} (f : A -> bool) (l : list A) (m : list B) : length l = length m ->
  mask_get (map f l) m = map snd (filter (fun x => f (fst x)) (combine l m)).
Proof.
  revert m; induction l as [|x l IH]; intros [|y m] H; simpl in *; try lia; auto.
  destruct (f x); simpl; rewrite IH by lia; auto.
Qed.

Lemma filter_combine_l {A B} (f : A -> bool) (l : list A) (m : list B) : length l = length m ->
  map fst (filter (fun x => f (fst x)) (combine l m)) = filter f l.
Proof.
  revert m; induction l as [|x l IH]; intros [|y m] H; simpl in *; try lia; auto.
  destruct (f x); simpl; rewrite IH by lia; auto.
Qed.

Lemma constant_spec v : constant v = true <-> exists x, forall y, In y v -> y = x.
Proof.
  destruct v as [|x v]; simpl; split; auto.
  - intros _; exists 0%Z; tauto.
  - intros H. exists x. rewrite forallb_forall in H. intros y [<-|Hy]; auto.
    apply H in Hy; apply Z.eqb_eq in Hy; auto.
  - intros (z & Hz). apply forallb_forall. intros y Hy. apply Z.eqb_eq.
    rewrite (Hz x), (Hz y); auto.
Qed.

Lemma nth_row_form ids n j : nth j (map Z.of_nat ids ++ repeat (-1)%Z n) (-1)%Z = (-1)%Z <-> length ids <= j.
Proof.
  destruct (Nat.lt_ge_cases j (length ids)) as [H|H].
  - rewrite app_nth1 by (rewrite map_length; auto).
    rewrite nth_indep with (d' := Z.of_nat 0) by (rewrite map_length; auto). rewrite map_nth. lia.
  - rewrite app_nth2 by (rewrite map_length; auto). split; [auto|intros _].
    rewrite map_length. destruct (Nat.lt_ge_cases (j - length ids) n).
    + apply nth_repeat.
    + apply nth_overflow. rewrite repeat_length; auto.
Qed.

Lemma filter_seq_prefix (f : nat -> bool) a n :
  (forall i j, f i = true -> j <= i -> f j = true) -> exists m, m <= n /\ filter f (seq a n) = seq a m /\
    (forall i, a <= i < a + n -> (f i = true <-> i < a + m)).
Proof.
  intros Hf. revert a; induction n as [|n IH]; intros a.
  - exists 0; repeat split; auto; intros; lia.
  - simpl. destruct (f a) eqn:E.
    + destruct (IH (S a)) as (m & Hm & Hs & Hi). exists (S m). split; [lia|]. split; [simpl; f_equal; auto|].
      intros i Hia. destruct (Nat.eq_dec i a) as [->|Hne]; [split; intros; auto; lia|].
      rewrite (Hi i) by lia. lia.
    + exists 0. split; [lia|]. assert (Hnone : forall i, a <= i -> f i = false).
      { intros i Hi. destruct (f i) eqn:Ei; auto. rewrite (Hf i a) in E; auto; discriminate. }
      split.
      * simpl. clear -Hnone. assert (forall b, a <= b -> filter f (seq b n) = []) as H; [|apply H; lia].
        induction n as [|n IH]; intros b Hb; simpl; auto. rewrite Hnone by lia. apply IH; lia.
      * intros i Hi. rewrite Hnone by lia. split; [discriminate|lia].
Qed.

Lemma map_nth_seq_firstn (r : list Z) m : m <= length r ->
  map (fun j => nth j r (-1)%Z) (seq 0 m) = firstn m r.
Proof.
  intros H. apply nth_error_ext; intros i. rewrite nth_error_map, nth_error_seq.
  destruct (Nat.ltb_spec i m) as [Hi|Hi]; simpl.
  - symmetry. rewrite <- (nth_error_app1 (firstn m r) (skipn m r)) by (rewrite firstn_length; lia).
    rewrite firstn_skipn. apply nth_error_nth'; lia.
  - symmetry; apply nth_error_None; rewrite firstn_length; lia.
Qed.

Theorem drop_collapsed_spec nonzero g0 g w : length (g_faces g0) = length (g_rows g0) ->
  (forall r, In r (g_rows g0) -> length r = w /\ row_form r) ->
  drop_collapsed nonzero g0 = Ok g ->
  (* two kept faces with different first cells, and one with a single cell *)
  (exists f1 r1 f2 r2, In (f1, r1) (combine (g_faces g0) (g_rows g0)) /\ In (f2, r2) (combine (g_faces g0) (g_rows g0)) /\
     nonzero f1 = true /\ nonzero f2 = true /\ nth 0 r1 (-1)%Z <> nth 0 r2 (-1)%Z) ->
  (exists f1 r1, In (f1, r1) (combine (g_faces g0) (g_rows g0)) /\ nonzero f1 = true /\ nth 1 r1 (-1)%Z = (-1)%Z) ->
  g_faces g = filter nonzero (g_faces g0) /\
  exists n, map (fun r => r ++ repeat (-1)%Z n) (g_rows g) =
    map snd (filter (fun fr => nonzero (fst fr)) (combine (g_faces g0) (g_rows g0))).
Proof.
  intros Hlen Hform H Htwo Hone. unfold drop_collapsed in H.
  rewrite !mask_get_filter, forallb_id_map in H by auto.
  set (kept := map snd (filter (fun fr => nonzero (fst fr)) (combine (g_faces g0) (g_rows g0)))) in *.
  assert (Hsub : forall r, In r kept -> In r (g_rows g0)).
  { unfold kept. intros r Hr. apply in_map_iff in Hr as ((f & r') & <- & Hr). apply filter_In in Hr as [Hr _].
    apply in_combine_r in Hr; auto. }
  assert (Hkeep : forall f r, In (f, r) (combine (g_faces g0) (g_rows g0)) -> nonzero f = true -> In r kept).
  { intros f r Hin Hf. unfold kept. apply in_map_iff. exists (f, r); split; auto. apply filter_In; auto. }
  destruct (forallb nonzero (g_faces g0)) eqn:Eall.
  - apply Ok_inj in H; subst g. split.
    + rewrite forallb_forall in Eall. clear -Eall. induction (g_faces g0) as [|f l IH]; simpl; auto.
      rewrite Eall by (simpl; auto). f_equal; apply IH; intros; apply Eall; simpl; auto.
    + exists 0. simpl.
      transitivity (g_rows g0); [rewrite <- (map_id (g_rows g0)) at 2; apply map_ext; intros; apply app_nil_r|].
      unfold kept. rewrite forallb_forall in Eall. clear -Eall Hlen.
      revert Hlen Eall; generalize (g_faces g0) (g_rows g0). intros fs rs; revert fs.
      induction rs as [|r rs IH]; intros [|f fs] Hl Ha; simpl in *; try lia; auto.
      rewrite Ha by auto. simpl. f_equal. apply IH; [lia|]. auto.
  - destruct kept as [|r0 kept'] eqn:Ek.
    { destruct Htwo as (f1 & r1 & _ & _ & A & _ & B & _). destruct (Hkeep f1 r1 A B). }
    rewrite <- Ek in *. apply Ok_inj in H; subst g; simpl. split.
    + clear. induction (g_faces g0) as [|f l IH]; simpl; auto. destruct (nonzero f); simpl; rewrite IH; auto.
    + assert (Hw : length r0 = w) by (apply Hform; apply Hsub; rewrite Ek; simpl; auto).
      rewrite Hw.
      destruct (filter_seq_prefix (fun j => negb (constant (column kept j))) 0 w) as (m & Hm & Hs & Hi).
      { intros i j Hci Hji. apply negb_true_iff. apply negb_true_iff in Hci.
        destruct (constant (column kept j)) eqn:Ecj; auto. exfalso.
        apply constant_spec in Ecj as [x Hx]. unfold column in Hx.
        destruct (Nat.eq_dec j 0) as [->|Hj0].
        - destruct Htwo as (f1 & r1 & f2 & r2 & A1 & A2 & B1 & B2 & Hne). apply Hne.
          rewrite (Hx (nth 0 r1 (-1)%Z)), (Hx (nth 0 r2 (-1)%Z)); auto; apply in_map_iff; eauto.
        - (* column j is -1 everywhere, hence column i *)
          destruct Hone as (f1 & r1 & A & B & C).
          assert (Hj1 : nth j r1 (-1)%Z = (-1)%Z).
          { destruct (Hform r1) as [_ (ids & n & -> & _)]; [apply Hsub; eauto|].
            apply nth_row_form. apply nth_row_form in C. lia. }
          assert (x = (-1)%Z) as ->.
          { rewrite <- Hj1. symmetry; apply Hx; apply in_map_iff; eauto. }
          assert (Hci' : constant (column kept i) = true); [|congruence].
          apply constant_spec. exists (-1)%Z. intros y Hy. apply in_map_iff in Hy as (r & <- & Hr).
          destruct (Hform r) as [_ (ids & n & Er & _)]; [auto|]. 
          assert (nth j r (-1)%Z = (-1)%Z) as Hjr by (apply Hx; apply in_map_iff; eauto).
          rewrite Er in *. apply nth_row_form. apply nth_row_form in Hjr. lia. }
      rewrite Hs. exists (w - m). rewrite map_map.
      transitivity (map (fun r => r) kept); [|apply map_id]. apply map_ext_in. intros r Hr.
      destruct (Hform r) as [Hlr (ids & n & Er & Hne)]; [auto|].
      rewrite map_nth_seq_firstn by lia.
      rewrite <- (firstn_skipn m r) at 2. f_equal.
      apply nth_error_ext; intros i.
      destruct (Nat.lt_ge_cases i (w - m)) as [Hlt|Hge].
      * rewrite repeat_nth_error by auto.
        assert (Hcon : constant (column kept (m + i)) = true).
        { destruct (constant (column kept (m + i))) eqn:E; auto.
          assert (negb (constant (column kept (m + i))) = true) as E' by (rewrite E; auto).
          apply (Hi (m + i)) in E'; lia. }
        apply constant_spec in Hcon as [x Hx].
        destruct Hone as (f1 & r1 & A & B & C).
        assert (Hmi : m + i <> 0).
        { intros E0. replace m with 0 in * by lia. replace i with 0 in * by lia.
          destruct Htwo as (g1 & q1 & g2 & q2 & A1 & A2 & B1 & B2 & Hd). apply Hd.
          rewrite (Hx (nth 0 q1 (-1)%Z)), (Hx (nth 0 q2 (-1)%Z)); auto; apply in_map_iff; eauto. }
        assert (Hj1 : nth (m + i) r1 (-1)%Z = (-1)%Z).
        { destruct (Hform r1) as [_ (ids1 & n1 & -> & _)]; [apply Hsub; eauto|].
          apply nth_row_form. apply nth_row_form in C. lia. }
        assert (Hri : nth (m + i) r (-1)%Z = (-1)%Z).
        { transitivity x; [apply Hx; apply in_map_iff; eauto|].
          rewrite <- Hj1. symmetry; apply Hx; apply in_map_iff; eauto. }
        assert (nth_error (skipn m r) i = nth_error r (m + i)) as ->.
        { rewrite <- (firstn_skipn m r) at 2. rewrite nth_error_app2 by (rewrite firstn_length; lia).
          f_equal. rewrite firstn_length; lia. }
        symmetry. rewrite <- Hri. apply nth_error_nth'. lia.
      * rewrite !(proj2 (nth_error_None _ _)); auto; rewrite ?skipn_length, ?repeat_length; lia.
Qed.
