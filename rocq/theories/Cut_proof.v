From Verif Require Import RealAux Surface_model Surface_spec Volume_model SMerge_model SMerge_spec Groups_model
  Stack_model Stack_spec.
From Coq Require Import Lra.
Open Scope R_scope.

Lemma pget_coord ax p : pget ax p = coord ax p.
Proof. destruct p as [[? ?] ?], ax as [|[|]]; reflexivity. Qed.
Lemma coord_pset ax v p : coord ax (pset ax v p) = v.
Proof. destruct p as [[? ?] ?], ax as [|[|]]; reflexivity. Qed.
Lemma pset_column ax v p : (ax <= 2)%nat -> same_column ax p (pset ax v p).
Proof.
  intros Hx a Ha Hn. destruct p as [[? ?] ?], ax as [|[|[|]]], a as [|[|[|]]]; try lia; reflexivity.
Qed.

Lemma with_mesh_self {M} (i : item M) : with_mesh (it_mesh i) i = i.
Proof. destruct i; reflexivity. Qed.

Section Cut.
Context {M B : Type} (ops : mesh_ops M B) (Hops : lawful ops) (ax : nat).

Lemma only_points_refl i : only_points ops i i.
Proof.
  destruct Hops as (_ & H & _). unfold only_points, points. rewrite H. repeat split; auto.
Qed.

Lemma only_points_with p i : only_points ops i (with_mesh (setp ops p (it_mesh i)) i).
Proof.
  destruct Hops as (H & _). unfold only_points, points, with_mesh; cbn. rewrite H. repeat split; auto.
Qed.

(* what happens to one column *)
Definition column_cut (bu : bool) (t : R) (lowers : bool) (p q p' q' : R * R * R) : Prop :=
  let s := if bu then coord ax q - coord ax p - t else (coord ax q - coord ax p - t) * (-1) in
  if Rltb s 0 then
    if lowers then p' = p /\ q' = pset ax (coord ax q - s) q
    else p' = pset ax (coord ax p + s) p /\ q' = q
  else p' = p /\ q' = q.

Lemma cut_pair_inv bu i1 i2 j1 j2 :
  cut_pair ops ax bu i1 i2 = Ok (j1, j2) ->
  only_points ops i1 j1 /\ only_points ops i2 j2 /\
  (it_trans i2 = true -> j1 = i1 /\ j2 = i2) /\
  (it_trans i2 = false ->
   length (points ops i1) = length (points ops i2) /\
   length (points ops j1) = length (points ops i1) /\
   length (points ops j2) = length (points ops i2) /\
   ((it_prio i2 < it_prio i1)%Z -> j1 = i1) /\ ((it_prio i1 <= it_prio i2)%Z -> j2 = i2) /\
   forall k p q p' q', nth_error (points ops i1) k = Some p -> nth_error (points ops i2) k = Some q ->
     nth_error (points ops j1) k = Some p' -> nth_error (points ops j2) k = Some q' ->
     column_cut bu (it_thick i2) (it_prio i2 <? it_prio i1)%Z p q p' q').
Proof.
  unfold cut_pair. destruct (it_trans i2) eqn:Et.
  { intros H%Ok_inj. apply pair_equal_spec in H as [<- <-].
    split; [apply only_points_refl|]. split; [apply only_points_refl|].
    split; [auto|discriminate]. }
  destruct (Nat.eqb_spec (length (getp ops (it_mesh i1))) (length (getp ops (it_mesh i2)))) as [El|];
    [|discriminate]. cbn [negb].
  destruct Hops as (Hg & Hs & _).
  destruct (Z.ltb_spec (it_prio i2) (it_prio i1)) as [Hp|Hp];
    intros H%Ok_inj; apply pair_equal_spec in H as [<- <-];
    (split; [first [apply only_points_refl|apply only_points_with]|]);
    (split; [first [apply only_points_refl|apply only_points_with]|]);
    (split; [discriminate|]); intros _; unfold points; cbn [with_mesh it_mesh]; rewrite ?Hg.
  - repeat split; auto; try lia.
    + rewrite !map2_length. lia.
    + intros k p q p' q' E1 E2 E3 E4.
      rewrite map2_nth_error, E2, map2_nth_error, E1, E2 in E4. rewrite E1 in E3.
      injection E3 as <-. injection E4 as <-. unfold column_cut.
      rewrite <- !pget_coord. destruct bu; destruct (Rltb _ 0); auto.
  - repeat split; auto; try lia.
    + rewrite !map2_length. lia.
    + intros k p q p' q' E1 E2 E3 E4.
      rewrite map2_nth_error, E1, map2_nth_error, E1, E2 in E3. rewrite E2 in E4.
      injection E3 as <-. injection E4 as <-. unfold column_cut.
      rewrite <- !pget_coord. destruct bu; destruct (Rltb _ 0); auto.
Qed.

Lemma cut_pair_defined bu i1 i2 : length (points ops i1) = length (points ops i2) ->
  exists j, cut_pair ops ax bu i1 i2 = Ok j.
Proof.
  intros H. unfold cut_pair, points in *. destruct (it_trans i2); [eauto|].
  rewrite H, Nat.eqb_refl; cbn [negb]. destruct (_ <? _)%Z; eauto.
Qed.

(* C30 *)
Lemma cut_pair_spec i1 i2 j1 j2 : (ax <= 2)%nat ->
  it_trans i2 = false -> cut_pair ops ax true i1 i2 = Ok (j1, j2) ->
  above ops ax j1 j2 /\
  only_points ops i1 j1 /\ only_points ops i2 j2 /\
  ((it_prio i2 < it_prio i1)%Z -> j1 = i1) /\ ((it_prio i1 <= it_prio i2)%Z -> j2 = i2) /\
  length (points ops j1) = length (points ops i1) /\
  length (points ops j2) = length (points ops i2) /\
  forall k p q p' q', nth_error (points ops i1) k = Some p -> nth_error (points ops i2) k = Some q ->
     nth_error (points ops j1) k = Some p' -> nth_error (points ops j2) k = Some q' ->
     same_column ax p p' /\ same_column ax q q' /\
     (coord ax q - coord ax p >= it_thick i2 -> p' = p /\ q' = q) /\
     (coord ax q - coord ax p < it_thick i2 -> coord ax q' - coord ax p' = it_thick i2).
Proof.
  intros Hax Ht Hc. apply cut_pair_inv in Hc as (O1 & O2 & _ & H). specialize (H Ht).
  destruct H as (L0 & L1 & L2 & P1 & P2 & H).
  assert (Hcol : forall k p q p' q', nth_error (points ops i1) k = Some p -> nth_error (points ops i2) k = Some q ->
     nth_error (points ops j1) k = Some p' -> nth_error (points ops j2) k = Some q' ->
     same_column ax p p' /\ same_column ax q q' /\
     (coord ax q - coord ax p >= it_thick i2 -> p' = p /\ q' = q) /\
     (coord ax q - coord ax p < it_thick i2 -> coord ax q' - coord ax p' = it_thick i2)).
  { intros k p q p' q' E1 E2 E3 E4. specialize (H k p q p' q' E1 E2 E3 E4).
    unfold column_cut in H. destruct (Rltb_spec (coord ax q - coord ax p - it_thick i2) 0) as [Hs|Hs].
    - destruct (_ <? _)%Z; destruct H as [-> ->]; rewrite ?coord_pset;
        (split; [first [apply pset_column; auto|intros ? ? ?; reflexivity]|]);
        (split; [first [apply pset_column; auto|intros ? ? ?; reflexivity]|]);
        split; intros; lra.
    - destruct H as [-> ->]. repeat split; auto; try (intros ? ? ?; reflexivity). intros; lra. }
  split; [|exact (conj O1 (conj O2 (conj P1 (conj P2 (conj L1 (conj L2 Hcol))))))].
  intros _ k p' q' E3 E4.
  assert (exists p, nth_error (points ops i1) k = Some p) as [p E1].
  { destruct (nth_error (points ops i1) k) eqn:E; eauto. apply nth_error_None in E.
    assert (k < length (points ops j1))%nat by (apply nth_error_Some; congruence). lia. }
  assert (exists q, nth_error (points ops i2) k = Some q) as [q E2].
  { destruct (nth_error (points ops i2) k) eqn:E; eauto. apply nth_error_None in E.
    assert (k < length (points ops j2))%nat by (apply nth_error_Some; congruence). lia. }
  destruct (Hcol k p q p' q' E1 E2 E3 E4) as (_ & _ & C1 & C2).
  destruct O2 as (_ & _ & _ & _ & Eth & _). rewrite Eth.
  destruct (Rlt_le_dec (coord ax q - coord ax p) (it_thick i2)) as [Hlt|Hge].
  - rewrite C2; auto; lra.
  - destruct (C1 ltac:(lra)) as [-> ->]. lra.
Qed.

Lemma yields_only i1 i2 j1 j2 : only_points ops i1 j1 -> only_points ops i2 j2 ->
  yields i1 i2 -> yields j1 j2.
Proof.
  intros (_ & _ & _ & P1 & _) (_ & _ & _ & P2 & _ & _ & T2) H. unfold yields in *.
  rewrite P1, P2, T2. auto.
Qed.

Lemma cut_pair_len_trans i1 i2 j1 j2 bu : cut_pair ops ax bu i1 i2 = Ok (j1, j2) ->
  it_trans j2 = it_trans i2.
Proof. intros H. apply cut_pair_inv in H as (_ & O2 & _). apply O2. Qed.

(* C31: in a stack where, from the second pair on, the later item yields *)
Lemma cut_loop_ordered : (ax <= 2)%nat -> forall rest i1 js,
  chain yields rest ->
  cut_loop ops ax true i1 rest = Ok js -> chain (above ops ax) js.
Proof.
  intros Hax.
  (* generalised: the head of the result is above what precedes if it is not lowered *)
  assert (G : forall rest i1 js, chain yields (i1 :: rest) ->
            cut_loop ops ax true i1 rest = Ok js ->
            (exists tl, js = i1 :: tl) /\ chain (above ops ax) js).
  { induction rest as [|i2 rest IH]; intros i1 js Hy; simpl cut_loop.
    - intros <-%Ok_inj. split; [eauto|simpl; auto].
    - destruct (cut_pair ops ax true i1 i2) as [[j1 j2]|] eqn:Hc; [|discriminate]. cbn [bind].
      destruct (cut_loop ops ax true j2 rest) as [tl|] eqn:Hl; [|discriminate]. cbn [bind].
      intros <-%Ok_inj. destruct Hy as [Hy1 Hy2].
      assert (Hyj : chain yields (j2 :: rest)).
      { destruct rest as [|i3 rest]; [simpl; auto|]. destruct Hy2 as [Ha Hb]. split; auto.
        apply cut_pair_inv in Hc as (_ & O2 & _).
        apply (yields_only i2 i3); auto. apply only_points_refl. }
      destruct (IH j2 tl Hyj Hl) as ([tl' ->] & Hch).
      destruct (it_trans i2) eqn:Et.
      + apply cut_pair_inv in Hc as (_ & O2 & T & _). destruct (T Et) as [-> ->].
        split; [eauto|]. split; auto. intros Hf. congruence.
      + pose proof (cut_pair_spec _ _ _ _ Hax Et Hc) as (Hab & _ & _ & P1 & _).
        rewrite (P1 (Hy1 Et)) in *. split; [eauto|]. split; auto. }
  intros [|i2 rest] i1 js Hy; simpl cut_loop.
  - intros <-%Ok_inj. simpl; auto.
  - destruct (cut_pair ops ax true i1 i2) as [[j1 j2]|] eqn:Hc; [|discriminate]. cbn [bind].
    destruct (cut_loop ops ax true j2 rest) as [tl|] eqn:Hl; [|discriminate]. cbn [bind].
    intros <-%Ok_inj.
    assert (Hyj : chain yields (j2 :: rest)).
    { destruct rest as [|i3 rest]; [simpl; auto|]. destruct Hy as [Ha Hb]. split; auto.
      apply cut_pair_inv in Hc as (_ & O2 & _).
      apply (yields_only i2 i3); auto. apply only_points_refl. }
    destruct (G rest j2 tl Hyj Hl) as ([tl' ->] & Hch). split; auto.
    intros Hf. rewrite (cut_pair_len_trans _ _ _ _ _ Hc) in Hf.
    pose proof (cut_pair_spec _ _ _ _ Hax Hf Hc) as (Hab & _).
    apply Hab. rewrite (cut_pair_len_trans _ _ _ _ _ Hc); auto.
Qed.

(* the last pair is always right *)
Lemma cut_loop_last : (ax <= 2)%nat -> forall rest i1 js lo up tl,
  cut_loop ops ax true i1 rest = Ok js -> js = tl ++ [lo; up] -> above ops ax lo up.
Proof.
  intros Hax. induction rest as [|i2 rest IH]; intros i1 js lo up tl; simpl cut_loop.
  - intros <-%Ok_inj E. apply (f_equal (@length _)) in E. rewrite app_length in E. simpl in E. lia.
  - destruct (cut_pair ops ax true i1 i2) as [[j1 j2]|] eqn:Hc; [|discriminate]. cbn [bind].
    destruct (cut_loop ops ax true j2 rest) as [js'|] eqn:Hl; [|discriminate]. cbn [bind].
    intros <-%Ok_inj E. destruct tl as [|x tl].
    + simpl in E. injection E as -> ->. destruct rest as [|i3 rest].
      * simpl in Hl. injection Hl as ->.
        intros Hf. rewrite (cut_pair_len_trans _ _ _ _ _ Hc) in Hf.
        pose proof (cut_pair_spec _ _ _ _ Hax Hf Hc) as (Hab & _).
        apply Hab. rewrite (cut_pair_len_trans _ _ _ _ _ Hc); auto.
      * exfalso. simpl in Hl.
        destruct (cut_pair ops ax true j2 i3) as [[k1 k2]|]; [|discriminate]. cbn [bind] in Hl.
        destruct (cut_loop ops ax true k2 rest) as [ks|] eqn:Hk; [|discriminate]. cbn [bind] in Hl.
        apply Ok_inj in Hl. injection Hl as _ ->. clear -Hk.
        destruct rest; simpl in Hk; [discriminate|].
        destruct (cut_pair _ _ _ _ _) as [[? ?]|]; [|discriminate]. cbn [bind] in Hk.
        destruct (cut_loop _ _ _ _ _); discriminate.
    + simpl in E. injection E as -> ->. apply (IH j2 (tl ++ [lo; up]) lo up tl); auto.
Qed.

(* nothing moves when nothing crosses *)
Lemma cut_pair_id (bu : bool) i1 i2 :
  length (points ops i1) = length (points ops i2) ->
  ((if bu as b return Prop then above ops ax i1 i2
   else it_trans i2 = false -> forall k p q, nth_error (points ops i1) k = Some p ->
          nth_error (points ops i2) k = Some q -> coord ax q - coord ax p <= it_thick i2) : Prop) ->
  cut_pair ops ax bu i1 i2 = Ok (i1, i2).
Proof.
  intros Hl Hab. unfold cut_pair. destruct (it_trans i2) eqn:Et; auto.
  unfold points in Hl. rewrite Hl, Nat.eqb_refl. cbn [negb].
  destruct Hops as (Hg & Hs & _).
  assert (S : forall k p q, nth_error (points ops i1) k = Some p -> nth_error (points ops i2) k = Some q ->
     Rltb (if bu then pget ax q - pget ax p - it_thick i2
           else (pget ax q - pget ax p - it_thick i2) * (-1)) 0 = false).
  { intros k p q E1 E2. rewrite !pget_coord. destruct bu.
    - specialize (Hab Et k p q E1 E2). destruct (Rltb_spec (coord ax q - coord ax p - it_thick i2) 0); auto; lra.
    - specialize (Hab eq_refl k p q E1 E2).
      destruct (Rltb_spec ((coord ax q - coord ax p - it_thick i2) * (-1)) 0); auto; lra. }
  unfold points in S.
  destruct (_ <? _)%Z.
  - match goal with |- Ok (_, with_mesh (setp ops ?q _) _) = _ => assert (E : q = getp ops (it_mesh i2)) end.
    2: { rewrite E, Hs, with_mesh_self; auto. }
    apply nth_error_ext. intros k. rewrite !map2_nth_error.
    destruct (nth_error (getp ops (it_mesh i2)) k) as [q|] eqn:E2; auto.
    destruct (nth_error (getp ops (it_mesh i1)) k) as [p|] eqn:E1.
    + rewrite (S k p q); auto.
    + apply nth_error_None in E1. assert (k < length (getp ops (it_mesh i2)))%nat
        by (apply nth_error_Some; congruence). lia.
  - match goal with |- Ok (with_mesh (setp ops ?q _) _, _) = _ => assert (E : q = getp ops (it_mesh i1)) end.
    2: { rewrite E, Hs, with_mesh_self; auto. }
    apply nth_error_ext. intros k. rewrite !map2_nth_error.
    destruct (nth_error (getp ops (it_mesh i1)) k) as [p|] eqn:E1; auto.
    destruct (nth_error (getp ops (it_mesh i2)) k) as [q|] eqn:E2.
    + rewrite (S k p q); auto.
    + apply nth_error_None in E2. assert (k < length (getp ops (it_mesh i1)))%nat
        by (apply nth_error_Some; congruence). lia.
Qed.

Lemma cut_loop_id rest : forall i1,
  (forall i, In i (i1 :: rest) -> length (points ops i) = length (points ops i1)) ->
  chain (above ops ax) (i1 :: rest) -> cut_loop ops ax true i1 rest = Ok (i1 :: rest).
Proof.
  induction rest as [|i2 rest IH]; intros i1 Hl Hc; simpl cut_loop; auto.
  destruct Hc as [H1 H2].
  rewrite cut_pair_id; auto.
  - cbn [bind]. rewrite IH; auto. intros i Hi. rewrite (Hl i) by (right; auto).
    symmetry; apply Hl; simpl; auto.
  - symmetry; apply Hl; simpl; auto.
Qed.

Lemma cut_loop_id_down rest : forall i1,
  (forall i, In i (i1 :: rest) -> length (points ops i) = length (points ops i1)) ->
  (forall i, In i (i1 :: rest) -> 0 <= it_thick i) ->
  chain (below ops ax) (i1 :: rest) -> cut_loop ops ax false i1 rest = Ok (i1 :: rest).
Proof.
  induction rest as [|i2 rest IH]; intros i1 Hl Ht Hc; simpl cut_loop; auto.
  destruct Hc as [H1 H2].
  rewrite cut_pair_id; auto.
  - cbn [bind]. rewrite IH; auto.
    + intros i Hi. rewrite (Hl i) by (right; auto). symmetry; apply Hl; simpl; auto.
    + intros i Hi. apply Ht. right; auto.
  - symmetry; apply Hl; simpl; auto.
  - intros Et k p q E1 E2. specialize (H1 Et k p q E1 E2).
    assert (0 <= it_thick i2) by (apply Ht; simpl; auto). lra.
Qed.

Lemma cut_loop_lengths bu rest : forall i1 js n,
  (forall i, In i (i1 :: rest) -> length (points ops i) = n) ->
  cut_loop ops ax bu i1 rest = Ok js ->
  Forall2 (only_points ops) (i1 :: rest) js /\ (forall j, In j js -> length (points ops j) = n).
Proof.
  induction rest as [|i2 rest IH]; intros i1 js n Hn; simpl cut_loop.
  - intros <-%Ok_inj. split; [constructor; [apply only_points_refl|constructor]|].
    intros j [<-|[]]. apply Hn; simpl; auto.
  - destruct (cut_pair ops ax bu i1 i2) as [[j1 j2]|] eqn:Hc; [|discriminate]. cbn [bind].
    destruct (cut_loop ops ax bu j2 rest) as [js'|] eqn:Hl; [|discriminate]. cbn [bind].
    intros <-%Ok_inj. pose proof Hc as Hc'.
    apply cut_pair_inv in Hc as (O1 & O2 & T & F).
    assert (Hj : length (points ops j1) = n /\ length (points ops j2) = n).
    { destruct (it_trans i2) eqn:Et.
      - destruct (T eq_refl) as [-> ->]. split; apply Hn; simpl; auto.
      - destruct (F eq_refl) as (A1 & A2 & A3 & _). rewrite A2, A3. split; apply Hn; simpl; auto. }
    destruct Hj as [Hj1 Hj2].
    destruct (IH j2 js' n) as [I1 I2]; auto.
    { intros i [<-|Hi]; auto. apply Hn; simpl; auto. }
    split.
    + constructor; auto. inversion I1 as [|? y ? ys Hy Hys]; subst. constructor; auto.
      destruct O2 as (B1 & B2). destruct Hy as (C1 & C2). unfold only_points.
      destruct Hops as (Hg & Hs & Hss & _ & _).
      split; [|intuition congruence].
      rewrite C1 at 1. rewrite B1. apply Hss.
    + intros j [<-|Hj]; auto.
Qed.
End Cut.
