(* Faces and incidences: proofs. *)
From Coq Require Import Permutation Sorted.
From Verif Require Import Topo_model Volume_spec Topo_spec.
Open Scope nat_scope.

Lemma list_eqb_eq l m : list_eqb l m = true <-> l = m.
Proof.
  revert m; induction l as [|x l IH]; intros [|y m]; simpl; split; intros H; try congruence; auto.
  - apply andb_true_iff in H as [H1 H2]; apply Nat.eqb_eq in H1; apply IH in H2; congruence.
  - injection H as -> ->; rewrite Nat.eqb_refl; apply IH; auto.
Qed.

Lemma sinsert_In x l y : In y (sinsert x l) <-> y = x \/ In y l.
Proof.
  induction l as [|z l IH]; simpl; [intuition auto|].
  destruct (x <? z) eqn:E; [simpl; intuition auto|].
  destruct (x =? z) eqn:E2.
  - apply Nat.eqb_eq in E2; subst; simpl; intuition auto.
  - simpl; rewrite IH; intuition auto.
Qed.

Lemma sinsert_sorted x l : StronglySorted lt l -> StronglySorted lt (sinsert x l).
Proof.
  induction 1 as [|z l Hl IH Hz]; simpl; [repeat constructor|].
  destruct (x <? z) eqn:E.
  - apply Nat.ltb_lt in E. constructor; [constructor; auto|].
    constructor; auto. eapply Forall_impl; [|exact Hz]; simpl; lia.
  - destruct (x =? z) eqn:E2; [constructor; auto|].
    apply Nat.ltb_ge in E; apply Nat.eqb_neq in E2.
    constructor; auto. apply Forall_forall; intros y Hy; apply sinsert_In in Hy as [->|Hy]; [lia|].
    rewrite Forall_forall in Hz; auto.
Qed.

Lemma vset_In f x : In x (vset f) <-> In x f.
Proof.
  induction f as [|y f IH]; simpl; [tauto|].
  change (fold_right sinsert [] f) with (vset f). rewrite sinsert_In, IH; intuition auto.
Qed.

Lemma vset_sorted f : StronglySorted lt (vset f).
Proof.
  induction f; simpl; [constructor|]. change (fold_right sinsert [] f) with (vset f).
  apply sinsert_sorted; auto.
Qed.

Lemma sorted_ext l m : StronglySorted lt l -> StronglySorted lt m ->
  (forall x, In x l <-> In x m) -> l = m.
Proof.
  intros Hl; revert m; induction Hl as [|x l Hl IH Hx]; intros m Hm H.
  - destruct m as [|y m]; auto. destruct (proj2 (H y)); simpl; auto.
  - destruct Hm as [|y m Hm Hy]; [destruct (proj1 (H x)); simpl; auto|].
    rewrite Forall_forall in Hx, Hy.
    assert (x = y) as ->.
    { destruct (proj1 (H x)) as [->|Hxm]; simpl; auto.
      destruct (proj2 (H y)) as [->|Hyl]; simpl; auto.
      specialize (Hx _ Hyl); specialize (Hy _ Hxm); lia. }
    f_equal. apply IH; auto. intros z; split; intros Hz.
    + destruct (proj1 (H z)) as [->|]; simpl; auto. specialize (Hx _ Hz); lia.
    + destruct (proj2 (H z)) as [->|]; simpl; auto. specialize (Hy _ Hz); lia.
Qed.

Lemma vset_same f g : vset f = vset g <-> same_set f g.
Proof.
  split.
  - intros H x. rewrite <- vset_In, H, vset_In; tauto.
  - intros H; apply sorted_ext; try apply vset_sorted.
    intros x; rewrite !vset_In; auto.
Qed.

(* ---- entries ---- *)
Definition ids_in (key : list nat) (occ : list (nat * list nat)) : list nat :=
  map fst (filter (fun o => list_eqb (vset (snd o)) key) occ).

Definition good (occ : list (nat * list nat)) (p : nat) (e : entry) : Prop :=
  exists i f, nth_error occ p = Some (i, f) /\ e_face e = f /\ e_key e = vset f /\
    (forall q j h, q < p -> nth_error occ q = Some (j, h) -> vset h <> vset f) /\
    e_ids e = ids_in (e_key e) occ.

Record inv (occ : list (nat * list nat)) (l : list entry) (pos : list nat) : Prop := {
  inv_sorted : StronglySorted lt pos;
  inv_good : Forall2 (good occ) pos l;
  inv_all : forall o, In o occ -> In (vset (snd o)) (map e_key l) }.

Lemma ids_in_app key a b : ids_in key (a ++ b) = ids_in key a ++ ids_in key b.
Proof. unfold ids_in; rewrite filter_app, map_app; auto. Qed.

Lemma add_entry_new i c l : ~ In (vset c) (map e_key l) ->
  add_entry i c l = l ++ [mkEntry (vset c) [i] c].
Proof.
  induction l as [|e l IH]; simpl; intros H; auto.
  destruct (list_eqb (e_key e) (vset c)) eqn:E.
  - apply list_eqb_eq in E; tauto.
  - rewrite IH; auto.
Qed.

Lemma add_entry_old i c l : In (vset c) (map e_key l) ->
  exists l1 e l2, l = l1 ++ e :: l2 /\ e_key e = vset c /\ ~ In (vset c) (map e_key l1) /\
    add_entry i c l = l1 ++ mkEntry (e_key e) (e_ids e ++ [i]) (e_face e) :: l2.
Proof.
  induction l as [|e l IH]; simpl; intros H; [tauto|].
  destruct (list_eqb (e_key e) (vset c)) eqn:E.
  - apply list_eqb_eq in E. exists [], e, l; simpl; repeat split; auto.
  - destruct H as [H|H]; [apply list_eqb_eq in H; congruence|].
    destruct (IH H) as (l1 & e' & l2 & -> & H2 & H3 & H4).
    exists (e :: l1), e', l2; simpl; rewrite H4; repeat split; auto.
    intros [Hk|Hk]; auto. apply list_eqb_eq in Hk; congruence.
Qed.

Lemma good_app occ x p e : good occ p e -> vset (snd x) <> e_key e -> good (occ ++ [x]) p e.
Proof.
  intros (i & f & H1 & H2 & H3 & H4 & H5) Hx. exists i, f; repeat split; auto.
  - rewrite nth_error_app1; auto. apply nth_error_Some; congruence.
  - intros q j h Hq Hn. apply (H4 q j); auto.
    rewrite nth_error_app1 in Hn; auto.
    assert (p < length occ) by (apply nth_error_Some; congruence); lia.
  - rewrite ids_in_app, <- H5. unfold ids_in at 1; simpl.
    destruct (list_eqb (vset (snd x)) (e_key e)) eqn:E; [apply list_eqb_eq in E; congruence|].
    simpl; rewrite app_nil_r; auto.
Qed.

Lemma good_app_same occ i c p e : good occ p e -> vset c = e_key e ->
  good (occ ++ [(i, c)]) p (mkEntry (e_key e) (e_ids e ++ [i]) (e_face e)).
Proof.
  intros (i0 & f & H1 & H2 & H3 & H4 & H5) Hx. exists i0, f; simpl; repeat split; auto.
  - rewrite nth_error_app1; auto. apply nth_error_Some; congruence.
  - intros q j h Hq Hn. apply (H4 q j); auto.
    rewrite nth_error_app1 in Hn; auto.
    assert (p < length occ) by (apply nth_error_Some; congruence); lia.
  - rewrite ids_in_app, <- H5. unfold ids_in at 1; simpl.
    assert (list_eqb (vset c) (e_key e) = true) as -> by (apply list_eqb_eq; auto). auto.
Qed.

Lemma SSorted_app_r {A} (R : A -> A -> Prop) l x :
  StronglySorted R l -> (forall y, In y l -> R y x) -> StronglySorted R (l ++ [x]).
Proof.
  induction 1 as [|y l Hl IH Hy]; simpl; intros H; [repeat constructor|].
  constructor; [apply IH; auto|]. apply Forall_app; split; auto.
Qed.

(* keys are distinct *)
Lemma inv_keys occ l pos : inv occ l pos -> NoDup (map e_key l).
Proof.
  intros [H1 H2 _]. revert l H2; induction H1 as [|p pos Hp IH Hlt]; intros l H2.
  - inversion H2; subst; constructor.
  - inversion H2 as [|? e ? l' Hg Hl]; subst; simpl; constructor; auto.
    intros Hin; apply in_map_iff in Hin as (e' & He' & Hin').
    apply In_nth_error in Hin' as [k Hk].
    destruct (nth_error pos k) as [p'|] eqn:Hp'.
    2:{ apply nth_error_None in Hp'. apply Forall2_len in Hl.
        assert (k < length l') by (apply nth_error_Some; congruence). lia. }
    destruct (Forall2_nth_error _ _ _ _ _ Hl Hp') as (e'' & He'' & Hg'').
    assert (e'' = e') as -> by congruence.
    destruct Hg as (i & f & A1 & A2 & A3 & _), Hg'' as (i' & f' & B1 & B2 & B3 & B4 & _).
    rewrite Forall_forall in Hlt.
    apply (B4 p i f); auto; [apply Hlt; eapply nth_error_In; eauto|congruence].
Qed.

Lemma Forall2_imp_in {A B} (P Q : A -> B -> Prop) l m :
  Forall2 P l m -> (forall x y, In y m -> P x y -> Q x y) -> Forall2 Q l m.
Proof.
  induction 1; intros HH; constructor; [apply HH; simpl; auto|].
  apply IHForall2; intros; apply HH; simpl; auto.
Qed.

Lemma inv_step occ l pos i c : inv occ l pos -> exists pos', inv (occ ++ [(i, c)]) (add_entry i c l) pos'.
Proof.
  intros Hi; pose proof (inv_keys _ _ _ Hi) as Hnd; destruct Hi as [H1 H2 H3].
  destruct (in_dec (list_eq_dec Nat.eq_dec) (vset c) (map e_key l)) as [Hin|Hin].
  - destruct (add_entry_old i c l Hin) as (l1 & e & l2 & -> & He & Hn1 & ->).
    rewrite map_app in Hnd; simpl in Hnd. apply NoDup_remove_2 in Hnd. rewrite He in Hnd.
    exists pos. constructor; auto.
    + apply Forall2_app_inv_r in H2 as (p1 & p2 & F1 & F2 & ->).
      inversion F2 as [|p ? p2' ? Hg F3]; subst.
      apply Forall2_app; [|constructor].
      * eapply Forall2_imp_in; [exact F1|]. intros p0 e0 Hin0 Hg0. apply good_app; auto; simpl.
        intros E; apply Hnd; apply in_or_app; left; rewrite E; apply in_map; auto.
      * apply good_app_same; auto.
      * eapply Forall2_imp_in; [exact F3|]. intros p0 e0 Hin0 Hg0. apply good_app; auto; simpl.
        intros E; apply Hnd; apply in_or_app; right; rewrite E; apply in_map; auto.
    + intros o Ho. rewrite map_app in *; simpl in *.
      apply in_app_or in Ho as [Ho|[<-|[]]]; auto; apply H3; auto.
  - rewrite add_entry_new by auto. exists (pos ++ [length occ]). constructor.
    + apply SSorted_app_r; auto. intros p Hp. apply In_nth_error in Hp as [k Hk].
      destruct (Forall2_nth_error _ _ _ _ _ H2 Hk) as (e & _ & (j & f & Hn & _)).
      apply nth_error_Some; congruence.
    + apply Forall2_app.
      * eapply Forall2_imp_in; [exact H2|]. intros p0 e0 Hin0 Hg0. apply good_app; auto; simpl.
        intros E; apply Hin; rewrite E; apply in_map; auto.
      * constructor; [|constructor]. exists i, c; simpl; repeat split; auto.
        -- rewrite nth_error_app2, Nat.sub_diag by lia; auto.
        -- intros q j h Hq Hn E. rewrite nth_error_app1 in Hn by lia.
           apply nth_error_In in Hn. apply H3 in Hn; simpl in Hn. rewrite E in Hn; auto.
        -- rewrite ids_in_app. replace (ids_in (vset c) occ) with (@nil nat).
           ++ unfold ids_in; simpl. assert (list_eqb (vset c) (vset c) = true) as -> by (apply list_eqb_eq; auto). auto.
           ++ symmetry; unfold ids_in. apply map_eq_nil with (f := fun x : nat => x).
              rewrite map_id. apply length_zero_iff_nil. rewrite map_length.
              apply length_zero_iff_nil.
              destruct (filter _ occ) as [|o r] eqn:E; auto.
              assert (In o (o :: r)) as Ho by (simpl; auto). rewrite <- E in Ho.
              apply filter_In in Ho as [Ho1 Ho2]. apply list_eqb_eq in Ho2.
              apply H3 in Ho1. rewrite Ho2 in Ho1; tauto.
    + intros o Ho. rewrite map_app; apply in_or_app.
      apply in_app_or in Ho as [Ho|[<-|[]]]; [left; auto|right; simpl; auto].
Qed.

Lemma inv_fold occ l pos i cell : inv occ l pos ->
  exists pos', inv (occ ++ map (fun f => (i, f)) cell) (fold_left (fun l c => add_entry i c l) cell l) pos'.
Proof.
  revert occ l pos; induction cell as [|c cell IH]; intros occ l pos H; simpl.
  - rewrite app_nil_r; eauto.
  - destruct (inv_step _ _ _ i c H) as [pos' H'].
    destruct (IH _ _ _ H') as [pos'' H'']. exists pos''. rewrite <- app_assoc in H''; exact H''.
Qed.

Definition incid (i : nat) (faces : list (list (list nat))) : list (nat * list nat) :=
  concat (map2 (fun i fs => map (fun f => (i, f)) fs) (seq i (length faces)) faces).

Lemma inv_cells occ l pos i cells : inv occ l pos ->
  exists pos', inv (occ ++ incid i cells) (add_cells i cells l) pos'.
Proof.
  revert i occ l pos; induction cells as [|c cells IH]; intros i occ l pos H; simpl.
  - unfold incid; simpl; rewrite app_nil_r; eauto.
  - destruct (inv_fold _ _ _ i c H) as [pos' H'].
    destruct (IH (S i) _ _ _ H') as [pos'' H'']. exists pos''.
    unfold incid; simpl. rewrite <- app_assoc in H''; exact H''.
Qed.

Lemma inv_init cells : exists pos, inv (incidences cells) (add_cells 0 cells []) pos.
Proof.
  apply (inv_cells [] [] [] 0 cells). constructor; [constructor|constructor|simpl; tauto].
Qed.

Lemma ids_in_len key occ : length (ids_in key occ) = length (filter (fun o => list_eqb (vset (snd o)) key) occ).
Proof. unfold ids_in; apply map_length. Qed.

Lemma list_max_in l : l <> [] -> In (list_max l) l.
Proof.
  induction l as [|x l IH]; [congruence|]. intros _. destruct l as [|y l].
  - simpl; left; lia.
  - change (list_max (x :: y :: l)) with (Nat.max x (list_max (y :: l))).
    destruct (Nat.max_spec x (list_max (y :: l))) as [[_ ->]|[_ ->]]; [right; apply IH; congruence|left; auto].
Qed.

Lemma list_max_ge l x : In x l -> x <= list_max l.
Proof.
  intros H. pose proof (proj1 (list_max_le l (list_max l)) (le_n _)) as Hm.
  rewrite Forall_forall in Hm; auto.
Qed.

Lemma get_polydata_once cells g : get_polydata cells = Ok g ->
  lists_once (incidences cells) g /\ exists w, common_width w g.
Proof.
  unfold get_polydata. destruct (inv_init cells) as [pos Hi].
  destruct (add_cells 0 cells []) as [|e0 l0] eqn:El; [discriminate|].
  set (l := e0 :: l0) in *. set (w := list_max _).
  intros H%Ok_inj; subst g.
  pose proof Hi as [H1 H2 H3].
  split.
  - exists pos; simpl. pose proof (Forall2_len _ _ _ H2) as Hlen.
    split; [change (e_face e0 :: map e_face l0) with (map e_face l); rewrite map_length; symmetry; exact Hlen|].
    split; [change (pad w (e_ids e0) :: map (fun e => pad w (e_ids e)) l0) with (map (fun e => pad w (e_ids e)) l);
            rewrite map_length; symmetry; exact Hlen|].
    split; [auto|].
    split.
    + intros k p Hp. destruct (Forall2_nth_error _ _ _ _ _ H2 Hp) as (e & He & i & f & A1 & A2 & A3 & A4 & A5).
      exists i, f. split; [auto|]. split.
      { change (e_face e0 :: map e_face l0) with (map e_face l). rewrite nth_error_map, He; simpl; congruence. }
      split.
      { intros q j h Hq Hn Hs. apply (A4 q j h Hq Hn). apply vset_same; auto. }
      exists (filter (fun o => list_eqb (vset (snd o)) (e_key e)) (incidences cells)), (w - length (e_ids e)).
      split.
      { change (pad w (e_ids e0) :: map (fun e => pad w (e_ids e)) l0) with (map (fun e => pad w (e_ids e)) l).
        rewrite nth_error_map, He; simpl. unfold pad. f_equal. f_equal.
        rewrite A5 at 1. unfold ids_in. rewrite map_map; auto. }
      eexists; split; [reflexivity|]. intros o; simpl. rewrite A3, list_eqb_eq, vset_same; tauto.
    + intros o Ho. apply H3 in Ho. apply in_map_iff in Ho as (e & He & Hin).
      apply In_nth_error in Hin as [k Hk].
      destruct (nth_error pos k) as [p|] eqn:Hp.
      2:{ apply nth_error_None in Hp. assert (k < length l) by (apply nth_error_Some; congruence). lia. }
      destruct (Forall2_nth_error _ _ _ _ _ H2 Hp) as (e' & He' & i & f & A1 & A2 & A3 & _).
      assert (e' = e) as -> by congruence.
      exists k, f. split.
      * change (e_face e0 :: map e_face l0) with (map e_face l). rewrite nth_error_map, Hk; simpl; congruence.
      * apply vset_same; congruence.
  - exists w. split; simpl.
    + intros r Hr. change (In r (map (fun e => pad w (e_ids e)) l)) in Hr.
      apply in_map_iff in Hr as (e & <- & He). unfold pad.
      rewrite app_length, map_length, repeat_length.
      assert (length (e_ids e) <= w); [|lia].
      apply list_max_ge. apply in_map_iff; eauto.
    + assert (In w (map (fun e => length (e_ids e)) l)) as Hw by (apply list_max_in; discriminate).
      apply in_map_iff in Hw as (e & He & Hin). exists (pad w (e_ids e)). split.
      { change (In (pad w (e_ids e)) (map (fun e => pad w (e_ids e)) l)). apply in_map_iff; eauto. }
      unfold pad. rewrite He, Nat.sub_diag; simpl. rewrite app_nil_r.
      intros Hi1. apply in_map_iff in Hi1 as (z & Hz & _). lia.
Qed.

Lemma get_polydata_def cells : incidences cells <> [] -> exists g, get_polydata cells = Ok g.
Proof.
  intros Hn. unfold get_polydata. destruct (inv_init cells) as [pos [H1 H2 H3]].
  destruct (add_cells 0 cells []) as [|e0 l0] eqn:El; [|eauto].
  destruct (incidences cells) as [|o r]; [congruence|].
  destruct (H3 o); simpl; auto.
Qed.
