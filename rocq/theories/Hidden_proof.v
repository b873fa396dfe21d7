From Coq Require Import Sorted Lia.
From Verif Require Import Prelude Topo_model Topo_spec Topo_proof Topo2_proof Topo3_proof Topo4_proof Topo7_proof Agree_spec Agree_proof Hidden_spec.
Open Scope nat_scope.

Lemma In_combine_nth {A B} (l : list A) (l' : list B) a b : In (a, b) (combine l l') <-> exists k, nth_error l k = Some a /\ nth_error l' k = Some b.
Proof.
  revert l'. induction l as [|x l IH]; intros [|y l'].
  - split; [intros []|intros ([|k] & H & _); discriminate].
  - split; [intros []|intros ([|k] & H & _); discriminate].
  - split; [intros []|intros ([|k] & _ & H); discriminate].
  - cbn [combine In]. rewrite IH. split.
    + intros [[= -> ->]|(k & H)]; [exists 0; split; reflexivity|exists (S k); exact H].
    + intros ([|k] & H1 & H2); [left; cbn in *; congruence|right; exists k; auto].
Qed.

(* a row of two entries, before the columns of -1 at its end were dropped *)
Lemma padded_row (sel : list (nat * list nat)) n m a b : [a; b] ++ repeat (-1)%Z m = map (fun o => Z.of_nat (fst o)) sel ++ repeat (-1)%Z n -> sel <> [] ->
  (exists o, sel = [o] /\ b = (-1)%Z) \/ (exists o1 o2, sel = [o1; o2] /\ a = Z.of_nat (fst o1) /\ b = Z.of_nat (fst o2)).
Proof.
  intros H Hs. destruct sel as [|o1 [|o2 [|o3 sel]]]; cbn in H; try congruence.
  - left. exists o1. split; [reflexivity|]. destruct n; cbn in H; [|congruence]. discriminate.
  - right. exists o1, o2. split; [reflexivity|]. injection H as -> -> _. auto.
  - exfalso. destruct m; cbn in H; [discriminate|]. injection H as _ _ H _. lia.
Qed.

Theorem drop_varied nonzero g0 g w : length (g_faces g0) = length (g_rows g0) ->
  (forall r, In r (g_rows g0) -> length r = w /\ row_form r) ->
  drop_collapsed nonzero g0 = Ok g ->
  varied nonzero g0 ->
  g_faces g = filter nonzero (g_faces g0) /\
  exists n, map (fun r => r ++ repeat (-1)%Z n) (g_rows g) =
    map snd (filter (fun fr => nonzero (fst fr)) (combine (g_faces g0) (g_rows g0))).
Proof.
  intros Hlen Hform H Hv. unfold drop_collapsed in H.
  rewrite !mask_get_filter, forallb_id_map in H by auto.
  set (kept := map snd (filter (fun fr => nonzero (fst fr)) (combine (g_faces g0) (g_rows g0)))) in *.
  assert (Hsub : forall r, In r kept -> In r (g_rows g0)).
  { unfold kept. intros r Hr. apply in_map_iff in Hr as ((f & r') & <- & Hr). apply filter_In in Hr as [Hr _].
    apply in_combine_r in Hr; auto. }
  assert (Hkeep : forall f r, In (f, r) (combine (g_faces g0) (g_rows g0)) -> nonzero f = true -> In r kept).
  { intros f r Hin Hf. unfold kept. apply in_map_iff. exists (f, r); split; auto. apply filter_In; auto. }
  assert (Hnone : forall j x, (forall y, In y (column kept j) -> y = x) -> forall r, In r kept -> nth j r (-1)%Z = (-1)%Z).
  { intros j x Hx r Hr. destruct (Z.eq_dec (nth j r (-1)%Z) (-1)%Z) as [E|N]; [exact E|exfalso].
    pose proof Hr as Hr'. unfold kept in Hr'. apply in_map_iff in Hr' as ((f & r') & Er & Hf). apply filter_In in Hf as [Hc Hz]. cbn in Er, Hz. subst r'.
    destruct (Hv j f r Hc Hz N) as (f1 & r1 & f2 & r2 & A1 & A2 & B1 & B2 & Hne). apply Hne. unfold column in Hx.
    rewrite (Hx (nth j r1 (-1)%Z)), (Hx (nth j r2 (-1)%Z)); auto; apply in_map_iff; eauto. }
  destruct (forallb nonzero (g_faces g0)) eqn:Eall.
  - apply Ok_inj in H; subst g. split.
    + rewrite forallb_forall in Eall. clear -Eall. induction (g_faces g0) as [|f l IH]; simpl; auto.
      rewrite Eall by (simpl; auto). f_equal; apply IH; intros; apply Eall; simpl; auto.
    + exists 0. simpl.
      transitivity (g_rows g0); [rewrite <- (map_id (g_rows g0)) at 2; apply map_ext; intros; apply app_nil_r|].
      unfold kept. rewrite forallb_forall in Eall. clear -Eall Hlen.
      revert Hlen Eall; generalize (g_faces g0) (g_rows g0). intros fs rs; revert fs.
      induction rs as [|r rs IH]; intros [|f fs] Hl Ha; simpl in *; try lia; auto.
      rewrite Ha by auto. simpl. f_equal. apply IH; [lia|]. auto.
  - destruct kept as [|r0 kept'] eqn:Ek.
    { discriminate. }
    rewrite <- Ek in *. apply Ok_inj in H; subst g; simpl. split.
    + clear. induction (g_faces g0) as [|f l IH]; simpl; auto. destruct (nonzero f); simpl; rewrite IH; auto.
    + assert (Hw : length r0 = w) by (apply Hform; apply Hsub; rewrite Ek; simpl; auto).
      rewrite Hw.
      destruct (filter_seq_prefix (fun j => negb (constant (column kept j))) 0 w) as (m & Hm & Hs & Hi).
      { intros i j Hci Hji. apply negb_true_iff. apply negb_true_iff in Hci.
        destruct (constant (column kept j)) eqn:Ecj; auto. exfalso.
        apply constant_spec in Ecj as [x Hx].
        assert (Hci' : constant (column kept i) = true); [|congruence].
        apply constant_spec. exists (-1)%Z. intros y Hy. apply in_map_iff in Hy as (r & <- & Hr).
        pose proof (Hnone j x Hx r Hr) as Hjr. destruct (Hform r) as [_ (ids & n & Er & _)]; [auto|].
        rewrite Er in *. apply nth_row_form. apply nth_row_form in Hjr. lia. }
      rewrite Hs. exists (w - m). rewrite map_map.
      transitivity (map (fun r => r) kept); [|apply map_id]. apply map_ext_in. intros r Hr.
      destruct (Hform r) as [Hlr (ids & n & Er & Hne)]; [auto|].
      rewrite map_nth_seq_firstn by lia.
      rewrite <- (firstn_skipn m r) at 2. f_equal.
      apply nth_error_ext; intros i.
      destruct (Nat.lt_ge_cases i (w - m)) as [Hlt|Hge].
      * rewrite repeat_nth_error by auto.
        assert (Hcon : constant (column kept (m + i)) = true).
        { destruct (constant (column kept (m + i))) eqn:E; auto.
          assert (negb (constant (column kept (m + i))) = true) as E' by (rewrite E; auto).
          apply (Hi (m + i)) in E'; lia. }
        apply constant_spec in Hcon as [x Hx].
        pose proof (Hnone (m + i) x Hx r Hr) as Hri.
        assert (nth_error (skipn m r) i = nth_error r (m + i)) as ->.
        { rewrite <- (firstn_skipn m r) at 2. rewrite nth_error_app2 by (rewrite firstn_length; lia).
          f_equal. rewrite firstn_length; lia. }
        symmetry. rewrite <- Hri. apply nth_error_nth'. lia.
      * rewrite !(proj2 (nth_error_None _ _)); auto; rewrite ?skipn_length, ?repeat_length; lia.
Qed.

(* and only then, when a face is collapsed *)
Lemma picked_fewer (p : nat -> bool) : forall (r : list Z) a,
  length (filter (fun z => negb (z =? -1)%Z) (map (fun j => nth (j - a) r (-1)%Z) (filter p (seq a (length r))))) <=
  length (filter (fun z => negb (z =? -1)%Z) r) /\
  forall j, j < length r -> p (a + j) = false -> nth j r (-1)%Z <> (-1)%Z ->
  length (filter (fun z => negb (z =? -1)%Z) (map (fun j => nth (j - a) r (-1)%Z) (filter p (seq a (length r))))) <
  length (filter (fun z => negb (z =? -1)%Z) r).
Proof.
  induction r as [|z r IH]; intros a; [cbn; split; [lia|intros; lia]|].
  destruct (IH (S a)) as [I1 I2].
  assert (E : map (fun j => nth (j - a) (z :: r) (-1)%Z) (filter p (seq (S a) (length r))) =
              map (fun j => nth (j - S a) r (-1)%Z) (filter p (seq (S a) (length r)))).
  { apply map_ext_in. intros j Hj. apply filter_In in Hj as [Hj _]. apply in_seq in Hj.
    replace (j - a) with (S (j - S a)) by lia. reflexivity. }
  cbn [length seq filter]. split.
  - destruct (p a); cbn [map filter]; rewrite E; [rewrite Nat.sub_diag; cbn [nth]|]; destruct (z =? -1)%Z; cbn; lia.
  - intros [|j] Hj Hp Hn.
    + rewrite Nat.add_0_r in Hp. rewrite Hp, E. cbn in Hn. apply Z.eqb_neq in Hn. rewrite Hn. cbn. lia.
    + assert (L := I2 j ltac:(cbn in Hj; lia) ltac:(rewrite <- Hp; f_equal; lia) Hn).
      destruct (p a); cbn [map filter]; rewrite E; [rewrite Nat.sub_diag; cbn [nth]|]; destruct (z =? -1)%Z; cbn; lia.
Qed.

Theorem varied_needed nonzero g0 g w : length (g_faces g0) = length (g_rows g0) ->
  (forall r, In r (g_rows g0) -> length r = w) ->
  drop_collapsed nonzero g0 = Ok g -> (exists f, In f (g_faces g0) /\ nonzero f = false) ->
  (exists n, map (fun r => r ++ repeat (-1)%Z n) (g_rows g) =
    map snd (filter (fun fr => nonzero (fst fr)) (combine (g_faces g0) (g_rows g0)))) ->
  varied nonzero g0.
Proof.
  intros Hlen Hw H (fz & Hfz & Ezf) (n & Hn) j f r Hc Hf Hr. unfold drop_collapsed in H.
  rewrite !mask_get_filter, forallb_id_map in H by auto.
  set (kept := map snd (filter (fun fr => nonzero (fst fr)) (combine (g_faces g0) (g_rows g0)))) in *.
  assert (Hsub : forall r, In r kept -> exists f, In (f, r) (combine (g_faces g0) (g_rows g0)) /\ nonzero f = true).
  { unfold kept. intros r' Hr'. apply in_map_iff in Hr' as ((f' & r2) & <- & Hr'). apply filter_In in Hr' as [A B]. eauto. }
  assert (Hkr : In r kept).
  { unfold kept. apply in_map_iff. exists (f, r); split; auto. apply filter_In; auto. }
  destruct (forallb (fun r' => (nth j r' (-1) =? nth j r (-1))%Z) kept) eqn:Ea.
  2:{ destruct (existsb (fun r' => negb (nth j r' (-1) =? nth j r (-1))%Z) kept) eqn:Ee.
      - apply existsb_exists in Ee as (r2 & H2 & Hne). apply negb_true_iff, Z.eqb_neq in Hne.
        destruct (Hsub _ H2) as (f2 & A2 & B2). exists f2, r2, f, r. auto.
      - exfalso. rewrite <- Bool.not_true_iff_false in Ea. apply Ea. apply forallb_forall. intros r' Hr'.
        destruct (nth j r' (-1) =? nth j r (-1))%Z eqn:Ez; auto. rewrite <- Bool.not_true_iff_false in Ee. exfalso; apply Ee.
        apply existsb_exists. exists r'. now rewrite Ez. }
  exfalso. rewrite forallb_forall in Ea.
  destruct (forallb nonzero (g_faces g0)) eqn:Eall; [rewrite forallb_forall in Eall; rewrite Eall in Ezf; [discriminate|auto]|].
  destruct kept as [|r0 kept'] eqn:Ek; [discriminate|]. rewrite <- Ek in *. apply Ok_inj in H; subst g; cbn [g_rows] in Hn.
  assert (HL : forall r, In r kept -> length r = w).
  { intros r' Hr'. destruct (Hsub _ Hr') as (f' & A & _). apply Hw. apply in_combine_r in A; auto. }
  rewrite (HL r0) in Hn by (rewrite Ek; cbn; auto). rewrite map_map in Hn.
  assert (Hn2 := eq_trans Hn (eq_sym (map_id kept))). clear Hn; rename Hn2 into Hn.
  pose proof (ext_in_map Hn r Hkr) as Er. cbn beta in Er.
  destruct (picked_fewer (fun j => negb (constant (column kept j))) r 0) as [_ P]. rewrite (HL r Hkr) in P.
  assert (Hj : j < w).
  { destruct (Nat.lt_ge_cases j w) as [|G]; auto. exfalso. apply Hr. apply nth_overflow. rewrite (HL r Hkr). lia. }
  specialize (P j Hj). cbn [Nat.add] in P.
  assert (Hcst : negb (constant (column kept j)) = false).
  { apply negb_false_iff, constant_spec. exists (nth j r (-1)%Z). intros y Hy. apply in_map_iff in Hy as (r' & <- & Hr').
    apply Z.eqb_eq. auto. }
  specialize (P Hcst Hr).
  apply (f_equal (fun l => length (filter (fun z => negb (z =? -1)%Z) l))) in Er. cbn beta in Er. rewrite filter_app, app_length in Er.
  rewrite (map_ext (fun j => nth (j - 0) r (-1)%Z) (fun j => nth j r (-1)%Z)) in P by (intros; now rewrite Nat.sub_0_r).
  assert (filter (fun z => negb (z =? -1)%Z) (repeat (-1)%Z n) = []) as E0 by (clear; induction n; cbn; auto).
  rewrite E0 in Er. cbn [length] in Er. lia.
Qed.

Lemma geometry_varied nonzero d g : wf_mesh (cast d) -> extract_cell_geometry nonzero true d = Ok g ->
  exists n faces g0 w, get_dimension d = Ok n /\ mesh_faces true (cast d) n faces /\
    lists_once (incidences faces) g0 /\ common_width w g0 /\ drop_collapsed nonzero g0 = Ok g /\
    (varied nonzero g0 -> g_faces g = filter nonzero (g_faces g0) /\
     exists n, map (fun r => r ++ repeat (-1)%Z n) (g_rows g) =
       map snd (filter (fun fr => nonzero (fst fr)) (combine (g_faces g0) (g_rows g0)))).
Proof.
  intros W H. destruct (extract_Ok _ _ _ _ W H) as (n & faces & g0 & H1 & H2 & H3 & H4).
  destruct (get_polydata_once _ _ H3) as [Ho [w Hw]]. exists n, faces, g0, w. do 5 (split; [assumption|]). intros A.
  eapply (drop_varied nonzero g0 g w); eauto.
  - destruct Ho as (pos & L1 & L2 & _). congruence.
  - intros r Hr. split; [now apply Hw|eapply once_row_form; eauto].
Qed.

Theorem geometry_exact nonzero d g : wf_mesh (cast d) -> extract_cell_geometry nonzero true d = Ok g ->
  exists n faces g0 w, get_dimension d = Ok n /\ mesh_faces true (cast d) n faces /\
    lists_once (incidences faces) g0 /\ common_width w g0 /\
    (varied nonzero g0 -> g_faces g = filter nonzero (g_faces g0)) /\
    ((exists f, In f (g_faces g0) /\ nonzero f = false) ->
     ((exists n, map (fun r => r ++ repeat (-1)%Z n) (g_rows g) =
        map snd (filter (fun fr => nonzero (fst fr)) (combine (g_faces g0) (g_rows g0)))) <-> varied nonzero g0)).
Proof.
  intros W H. destruct (geometry_varied _ _ _ W H) as (n & faces & g0 & w & H1 & H2 & Ho & Hw & Hd & H3).
  exists n, faces, g0, w. do 4 (split; [assumption|]). split; [intros V; exact (proj1 (H3 V))|].
  intros Hf. split; [|intros V; exact (proj2 (H3 V))]. intros Hr.
  apply (varied_needed nonzero g0 g w); try assumption.
  - destruct Ho as (pos & L1 & L2 & _). congruence.
  - intros r Hin. now apply Hw.
Qed.

Theorem kept_neighbors nonzero d nb : wf_mesh (cast d) -> get_neighborhood nonzero true d = Ok nb ->
  (forall f f', same_set f f' -> nonzero f = nonzero f') ->
  exists n faces g0 w, get_dimension d = Ok n /\ mesh_faces true (cast d) n faces /\
    lists_once (incidences faces) g0 /\ common_width w g0 /\
    (varied nonzero g0 ->
     length nb = length (v_types (cast d)) /\
     forall i r, nth_error nb i = Some r -> forall z, In z r <-> exists j, z = Z.of_nat j /\ share_kept nonzero faces i j).
Proof.
  intros W H Hinv. unfold get_neighborhood in H. destruct (extract_cell_geometry nonzero true d) as [g|] eqn:E; [|discriminate]. cbn [bind] in H.
  destruct (geometry_varied _ _ _ W E) as (n & faces & g0 & w & H1 & H2 & Ho & Hw & _ & H3). exists n, faces, g0, w. do 4 (split; [assumption|]). intros C1.
  destruct (H3 C1) as (_ & m & Hrows). apply neighbor_loop_Ok in H as (Hl & Hr2 & Hn). rewrite repeat_length in Hl. split; [exact Hl|]. intros i r Hi z.
  assert (Er : r = flat_map (contrib i) (g_rows g)).
  { assert (Li : i < length (v_types (cast d))) by (rewrite <- Hl; apply nth_error_Some; congruence). rewrite Hn, nth_error_repeat in Hi by exact Li. injection Hi as <-. reflexivity. }
  assert (Rows : forall row, In row (g_rows g) <-> exists k f r0, nth_error (g_faces g0) k = Some f /\ nth_error (g_rows g0) k = Some r0 /\ nonzero f = true /\ r0 = row ++ repeat (-1)%Z m).
  { intros row. split.
    - intros Hin. assert (Hin' : In (row ++ repeat (-1)%Z m) (map (fun r => r ++ repeat (-1)%Z m) (g_rows g))) by (apply in_map_iff; eauto).
      rewrite Hrows in Hin'. apply in_map_iff in Hin' as ((f, r0) & Er0 & Hf). apply filter_In in Hf as (Hc & Hnz). apply In_combine_nth in Hc as (k & K1 & K2). exists k, f, r0. cbn in *. auto.
    - intros (k & f & r0 & K1 & K2 & Hnz & ->). assert (Hin' : In (row ++ repeat (-1)%Z m) (map (fun r => r ++ repeat (-1)%Z m) (g_rows g))).
      { rewrite Hrows. apply in_map_iff. exists (f, row ++ repeat (-1)%Z m). split; [reflexivity|]. apply filter_In. split; [apply In_combine_nth; eauto|exact Hnz]. }
      apply in_map_iff in Hin' as (row' & Er' & Hin'). apply app_inv_tail in Er'. now subst row'. }
  subst r. rewrite in_flat_map. split.
  - intros (row & Hin & Hz). apply contrib_In in Hz; [|now apply Hr2]. destruct Hz as (a & b & -> & Ha & Hb & Hab).
    apply Rows in Hin as (k & f & r0 & K1 & K2 & Hnz & ->). destruct (once_row _ _ _ _ Ho K2) as (f' & ps & sel & n' & K1' & Es & Hs & So & F & Hps). rewrite K1 in K1'. injection K1' as <-.
    destruct (padded_row _ _ _ _ _ Es Hs) as [(o & _ & Hbm)|(o1 & o2 & -> & -> & ->)]; [congruence|].
    inversion F as [|p ? ps1 ? P1 F1]; subst. inversion F1 as [|q ? ps2 ? Q1 F2]; subst. inversion F2; subst.
    assert (Npq : p <> q) by (inversion So as [|? ? _ Hq]; subst; inversion Hq; lia).
    destruct o1 as [i1 h1], o2 as [i2 h2]. pose proof (proj2 (Hps p _ P1) ltac:(now left)) as S1. pose proof (proj2 (Hps q _ Q1) ltac:(cbn; auto)) as S2. cbn [fst snd] in *.
    rewrite !Nat2Z.id in Hab. destruct Hab as [[-> ->]|[-> ->]].
    + exists i2. split; [reflexivity|]. exists p, q, h1, h2. split; [exact Npq|]. split; [exact P1|]. split; [exact Q1|]. split; [intros x; rewrite (S1 x); symmetry; apply S2|]. rewrite (Hinv _ _ S1). exact Hnz.
    + exists i1. split; [reflexivity|]. exists q, p, h2, h1. split; [auto|]. split; [exact Q1|]. split; [exact P1|]. split; [intros x; rewrite (S2 x); symmetry; apply S1|]. rewrite (Hinv _ _ S2). exact Hnz.
  - intros (j & -> & p & q & f & h & Npq & P1 & Q1 & Sfh & Hnz). destruct (once_find _ _ _ _ _ Ho P1) as (k & f0 & r0 & K1 & K2 & S0).
    assert (Hnz0 : nonzero f0 = true) by (rewrite <- (Hinv _ _ S0); exact Hnz).
    destruct (once_row _ _ _ _ Ho K2) as (f' & ps & sel & n' & K1' & Es & Hs & _ & F & Hps). rewrite K1 in K1'. injection K1' as <-.
    assert (Ip : In p ps) by (apply (Hps p _ P1); exact S0). assert (Iq : In q ps) by (apply (Hps q _ Q1); intros x; cbn [snd]; rewrite <- (Sfh x); apply S0).
    assert (Hrow : exists row, In row (g_rows g) /\ r0 = row ++ repeat (-1)%Z m).
    { assert (Hin' : In r0 (map (fun r => r ++ repeat (-1)%Z m) (g_rows g))).
      { rewrite Hrows. apply in_map_iff. exists (f0, r0). split; [reflexivity|]. apply filter_In. split; [apply In_combine_nth; eauto|exact Hnz0]. }
      apply in_map_iff in Hin' as (row & <- & Hin). eauto. }
    destruct Hrow as (row & Hin & E0). pose proof (Hr2 row Hin) as L2. destruct row as [|a [|b [|]]]; try discriminate L2.
    rewrite E0 in Es. destruct (padded_row _ _ _ _ _ Es Hs) as [(o & -> & _)|(o1 & o2 & -> & -> & ->)].
    { inversion F as [|? ? ps1 ? _ F1]; subst. inversion F1; subst. cbn in Ip, Iq. destruct Ip as [<-|[]]. destruct Iq as [<-|[]]. congruence. }
    exists [Z.of_nat (fst o1); Z.of_nat (fst o2)]. split; [exact Hin|]. apply contrib_In; [reflexivity|]. do 2 eexists. split; [reflexivity|]. split; [lia|]. split; [lia|].
    inversion F as [|p1 ? ps1 ? A1 F1]; subst. inversion F1 as [|p2 ? ps2 ? A2 F2]; subst. inversion F2; subst. rewrite !Nat2Z.id. cbn in Ip, Iq.
    destruct Ip as [<-|[<-|[]]]; destruct Iq as [<-|[<-|[]]]; try congruence; rewrite P1 in *; rewrite Q1 in *;
      repeat match goal with X : Some _ = Some _ |- _ => injection X as X; subst end; cbn [fst]; auto.
Qed.

Lemma other_end_In i z lines : In z (flat_map (other_end i) lines) <-> In (Z.of_nat i, z) lines \/ In (z, Z.of_nat i) lines.
Proof.
  rewrite in_flat_map. split.
  - intros ((a, b) & Hin & Hz). unfold other_end in Hz. apply in_app_or in Hz. destruct (Z.eqb_spec a (Z.of_nat i)); destruct (Z.eqb_spec b (Z.of_nat i)); cbn in Hz; subst; intuition (subst; auto).
  - intros [H|H]; (eexists; split; [exact H|]); unfold other_end; rewrite Z.eqb_refl; apply in_or_app; [left|right]; now left.
Qed.

Theorem kept_lines nonzero d P (centers c : list P) shape lines : wf_mesh (cast d) -> get_connectivity nonzero true d shape centers = Ok (c, lines) ->
  (forall f f', same_set f f' -> nonzero f = nonzero f') ->
  exists n faces g0 w, get_dimension d = Ok n /\ mesh_faces true (cast d) n faces /\
    lists_once (incidences faces) g0 /\ common_width w g0 /\
    (varied nonzero g0 ->
     forall i j, i < length (v_types (cast d)) ->
       (In (Z.of_nat i, Z.of_nat j) lines \/ In (Z.of_nat j, Z.of_nat i) lines <-> share_kept nonzero faces i j)).
Proof.
  intros W H Hinv. assert (Sh : shape = [length (v_types (cast d)); 3]).
  { unfold get_connectivity in H. destruct (list_eqb shape _) eqn:Es; [now apply list_eqb_eq|discriminate]. }
  subst shape. pose proof (agree nonzero true d W P centers) as A. rewrite H in A. destruct A as (_ & nb & En & _ & Hnb).
  destruct (kept_neighbors nonzero d nb W En Hinv) as (n & faces & g0 & w & H1 & H2 & Ho & Hw & H3). exists n, faces, g0, w. do 4 (split; [assumption|]). intros C1 i j Hi.
  destruct (H3 C1) as (L & N). destruct (nth_error nb i) as [r|] eqn:Er; [|apply nth_error_None in Er; lia].
  rewrite <- other_end_In, <- (Hnb i r Er), (N i r Er). split; [intros (j' & E & S); apply Nat2Z.inj in E; now subst j'|intros S; eauto].
Qed.
