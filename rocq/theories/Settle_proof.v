From Verif Require Import RealAux Surface_model Surface_spec Volume_model Volume_spec SMerge_model SMerge_spec Groups_model
  Stack_model Stack_spec Cut_proof Settle_spec.
From Coq Require Import Lra.
Open Scope R_scope.

Section Settle.
Context {M B : Type} (ops : mesh_ops M B) (Hops : lawful ops) (ax : nat) (Hax : (ax <= 2)%nat).

Lemma same_column_refl p : same_column ax p p.
Proof. intros a _ _. reflexivity. Qed.
Lemma same_column_trans p q r : same_column ax p q -> same_column ax q r -> same_column ax p r.
Proof. intros H1 H2 a H N. rewrite (H1 a H N). now apply H2. Qed.

Lemma only_points_trans i j l : only_points ops i j -> only_points ops j l -> only_points ops i l.
Proof.
  destruct Hops as (_ & _ & H3 & _).
  intros (A1 & A2 & A3 & A4 & A5 & A6 & A7) (B1 & B2 & B3 & B4 & B5 & B6 & B7).
  repeat split; congruence.
Qed.
Lemma moved_refl i : moved_along ops ax i i.
Proof.
  split; [apply only_points_refl; exact Hops|]. induction (points ops i); constructor; auto. apply same_column_refl.
Qed.
Lemma moved_trans i j l : moved_along ops ax i j -> moved_along ops ax j l -> moved_along ops ax i l.
Proof.
  intros [A1 A2] [B1 B2]. split; [eapply only_points_trans; eauto|].
  clear A1 B1. revert B2. generalize (points ops l). induction A2; intros r Hr; inversion Hr; subst; constructor.
  - eapply same_column_trans; eauto.
  - apply IHA2. assumption.
Qed.

Lemma nth_Forall2 {X Y} (R : X -> Y -> Prop) l l' : length l = length l' ->
  (forall k x y, nth_error l k = Some x -> nth_error l' k = Some y -> R x y) -> Forall2 R l l'.
Proof.
  revert l'. induction l as [|a l IH]; intros [|b l'] E H; cbn in E; try discriminate; constructor.
  - exact (H 0%nat a b eq_refl eq_refl).
  - apply IH; [lia|]. intros k x y. exact (H (S k) x y).
Qed.

Lemma some_nth {X} (l : list X) n k : length l = n -> (k < n)%nat -> exists x, nth_error l k = Some x.
Proof. intros <- H. destruct (nth_error l k) eqn:E; eauto. apply nth_error_None in E. lia. Qed.

(* one pair *)
Lemma pair_levels bu i1 i2 j1 j2 : it_trans i2 = false -> cut_pair ops ax bu i1 i2 = Ok (j1, j2) ->
  moved_along ops ax i1 j1 /\ moved_along ops ax i2 j2 /\
  ((it_prio i2 < it_prio i1)%Z -> j1 = i1 /\ forall k z z', elevation ops ax k i1 z -> elevation ops ax k i2 z' ->
     elevation ops ax k j2 (if bu then Rmax z' (z + it_thick i2) else z' + Rmax 0 (z' - z - it_thick i2))) /\
  ((it_prio i1 <= it_prio i2)%Z -> j2 = i2 /\ forall k z z', elevation ops ax k i1 z -> elevation ops ax k i2 z' ->
     elevation ops ax k j1 (if bu then Rmin z (z' - it_thick i2) else z - Rmax 0 (z' - z - it_thick i2))).
Proof.
  intros Ht Hc. apply cut_pair_inv in Hc as (O1 & O2 & _ & H); [|exact Hops]. specialize (H Ht).
  destruct H as (L0 & L1 & L2 & P1 & P2 & H).
  assert (HM : forall k p q p' q', nth_error (points ops i1) k = Some p -> nth_error (points ops i2) k = Some q ->
     nth_error (points ops j1) k = Some p' -> nth_error (points ops j2) k = Some q' -> same_column ax p p' /\ same_column ax q q').
  { intros k p q p' q' E1 E2 E3 E4. specialize (H k p q p' q' E1 E2 E3 E4). unfold column_cut in H.
    destruct bu; destruct (Rltb _ 0); try (destruct (_ <? _)%Z); destruct H as [-> ->]; split;
      first [apply same_column_refl|now apply pset_column]. }
  split; [|split; [|split]].
  - split; [exact O1|]. apply nth_Forall2; [lia|]. intros k p p' E1 E3.
    assert (Hk : (k < length (points ops i1))%nat) by (apply nth_error_Some; congruence).
    destruct (some_nth (points ops i2) _ k eq_refl ltac:(lia)) as [q E2].
    destruct (some_nth (points ops j2) _ k eq_refl ltac:(lia)) as [q' E4].
    exact (proj1 (HM k p q p' q' E1 E2 E3 E4)).
  - split; [exact O2|]. apply nth_Forall2; [lia|]. intros k q q' E2 E4.
    assert (Hk : (k < length (points ops i2))%nat) by (apply nth_error_Some; congruence).
    destruct (some_nth (points ops i1) _ k eq_refl ltac:(lia)) as [p E1].
    destruct (some_nth (points ops j1) _ k eq_refl ltac:(lia)) as [p' E3].
    exact (proj2 (HM k p q p' q' E1 E2 E3 E4)).
  - intros Hp. split; [auto|]. intros k z z' (p & E1 & <-) (q & E2 & <-).
    assert (Hk : (k < length (points ops i1))%nat) by (apply nth_error_Some; congruence).
    destruct (some_nth (points ops j1) _ k eq_refl ltac:(lia)) as [p' E3].
    destruct (some_nth (points ops j2) _ k eq_refl ltac:(lia)) as [q' E4].
    exists q'. split; [exact E4|]. specialize (H k p q p' q' E1 E2 E3 E4). unfold column_cut in H.
    destruct (Z.ltb_spec (it_prio i2) (it_prio i1)); [|lia].
    destruct bu; match type of H with context [Rltb ?s 0] => destruct (Rltb_spec s 0) as [Hs|Hs] end;
      destruct H as [-> ->]; rewrite ?coord_pset; unfold Rmax; destruct (Rle_dec _ _); lra.
  - intros Hp. split; [auto|]. intros k z z' (p & E1 & <-) (q & E2 & <-).
    assert (Hk : (k < length (points ops i1))%nat) by (apply nth_error_Some; congruence).
    destruct (some_nth (points ops j1) _ k eq_refl ltac:(lia)) as [p' E3].
    destruct (some_nth (points ops j2) _ k eq_refl ltac:(lia)) as [q' E4].
    exists p'. split; [exact E3|]. specialize (H k p q p' q' E1 E2 E3 E4). unfold column_cut in H.
    destruct (Z.ltb_spec (it_prio i2) (it_prio i1)); [lia|].
    destruct bu; match type of H with context [Rltb ?s 0] => destruct (Rltb_spec s 0) as [Hs|Hs] end;
      destruct H as [-> ->]; rewrite ?coord_pset; unfold Rmax, Rmin; destruct (Rle_dec _ _); lra.
Qed.

Definition settles (bu : bool) := if bu then settled else settled_down.

Lemma loop_levels bu : forall rest i1 js, Forall (fun i => it_trans i = false) rest ->
  cut_loop ops ax bu i1 rest = Ok js ->
  Forall2 (moved_along ops ax) (i1 :: rest) js /\
  forall k ls, levels ops ax k (i1 :: rest) ls ->
    exists out, settles bu ls out /\ Forall2 (elevation ops ax k) js out.
Proof.
  induction rest as [|i2 rest IH]; intros i1 js Ht; simpl cut_loop.
  - intros <-%Ok_inj. split; [repeat constructor; apply moved_refl|].
    intros k ls H. inversion H as [|? [[p t] z] ? ? (E1 & E2 & E3) Hn]; subst. inversion Hn; subst.
    exists [z]. split; [destruct bu; constructor|]. repeat constructor. exact E3.
  - inversion Ht as [|? ? Ht2 Ht']; subst.
    destruct (cut_pair ops ax bu i1 i2) as [[j1 j2]|] eqn:Ec; [cbn [bind]|discriminate].
    destruct (cut_loop ops ax bu j2 rest) as [tl|] eqn:El; [cbn [bind]|discriminate]. intros <-%Ok_inj.
    destruct (pair_levels bu i1 i2 j1 j2 Ht2 Ec) as (M1 & M2 & HR & HL).
    destruct (IH j2 tl Ht' El) as [HM HE].
    split.
    { constructor; [exact M1|]. inversion HM as [|? y ? tl' Hm Hr]; subst. constructor; [|exact Hr].
      eapply moved_trans; eauto. }
    intros k ls H. inversion H as [|? [[p t] z] ? ls1 (E1 & E2 & E3) Hn]; subst.
    inversion Hn as [|? [[p' t'] z'] ? ls2 (E1' & E2' & E3') Hn']; subst. cbn [fst snd] in *.
    destruct M2 as [(_ & _ & _ & Pj & Tj & _) _].
    destruct (Z.lt_ge_cases (it_prio i2) (it_prio i1)) as [Hp|Hp].
    + destruct (HR Hp) as [-> HR'].
      destruct (HE k ((p', t', if bu then Rmax z' (z + t') else z' + Rmax 0 (z' - z - t')) :: ls2)) as (out & Ho & Hf).
      { constructor; [|exact Hn']. cbn [fst snd]. split; [congruence|]. split; [congruence|].
        specialize (HR' k z z' E3 E3'). rewrite <- E2' in HR'. exact HR'. }
      exists (z :: out). split.
      * destruct bu; [apply settled_raise|apply down_raise]; try congruence; try exact Ho; lia.
      * constructor; assumption.
    + destruct (HL Hp) as [-> HL'].
      destruct (HE k ((p', t', z') :: ls2)) as (out & Ho & Hf).
      { constructor; [|exact Hn']. cbn [fst snd]. auto. }
      exists ((if bu then Rmin z (z' - t') else z - Rmax 0 (z' - z - t')) :: out). split.
      * destruct bu; [apply settled_lower|apply down_lower]; try exact Ho; lia.
      * constructor; [|assumption]. specialize (HL' k z z' E3 E3'). rewrite <- E2' in HL'. exact HL'.
Qed.
End Settle.

Lemma stack_levels {M B} (ops : mesh_ops M B) (Hops : lawful ops) o ax bu extrude transition merge items g groups n js :
  (ax <= 2)%nat -> Forall (fun i => it_trans i = false) (tl items) ->
  stack_generate ops o ax bu extrude transition merge items = Ok (g, groups, n, js) ->
  Forall2 (moved_along ops ax) items js /\
  forall k ls, levels ops ax k items ls -> exists out, settles bu ls out /\ Forall2 (elevation ops ax k) js out.
Proof.
  intros Hax Ht. unfold stack_generate. destruct items as [|i1 [|i2 rest]]; try discriminate.
  destruct (cut_loop ops ax bu i1 (i2 :: rest)) as [js'|] eqn:Ec; [|discriminate]. cbn [bind].
  destruct js' as [|j1 rest']; [discriminate|].
  destruct (gen_loop _ _ _ _ _ _ _ _ _ _) as [[[bs gr] n']|]; [|discriminate]. cbn [bind].
  destruct (merge bs); [|discriminate]. cbn [bind]. intros E. injection E as <- <- <- <-.
  exact (loop_levels ops Hops ax Hax bu (i2 :: rest) i1 _ Ht Ec).
Qed.

(* equal priorities: every surface is lowered to the one that follows as it was *)
Lemma settled_equal p : forall ls out, Forall (fun l => fst (fst l) = p) ls -> settled ls out ->
  length out = length ls /\
  forall j l, nth_error ls j = Some l -> nth_error out j =
    Some (match nth_error ls (S j) with Some l' => Rmin (snd l) (snd l' - snd (fst l')) | None => snd l end).
Proof.
  intros ls out H Hs. revert H. induction Hs as [q t z|q t z q' t' z' rest out Hq Hs IH|q t z q' t' z' rest out Hq Hs IH]; intros H.
  - split; [reflexivity|]. intros [|[|]] l E; cbn in E; try discriminate. injection E as <-. reflexivity.
  - inversion H as [|? ? H1 H2]; subst. inversion H2; subst. cbn in *. lia.
  - inversion H as [|? ? H1 H2]; subst. destruct (IH H2) as [L IH']. split; [cbn in *; lia|].
    intros [|j] l E.
    + injection E as <-. reflexivity.
    + exact (IH' j l E).
Qed.

(* the column of a surface *)
Lemma levels_exist {M B} (ops : mesh_ops M B) ax k items :
  Forall (fun i => (k < length (points ops i))%nat) items -> exists ls, levels ops ax k items ls.
Proof.
  induction 1 as [|i items Hi _ IH]; [exists []; constructor|]. destruct IH as [ls IH].
  destruct (nth_error (points ops i) k) as [p|] eqn:E; [|apply nth_error_None in E; lia].
  exists ((it_prio i, it_thick i, coord ax p) :: ls). constructor; [|exact IH]. repeat split. exists p. auto.
Qed.

(* the elevations after the stack are determined by those before *)
Lemma settled_total : forall n ls, length ls = S n -> exists out, settled ls out.
Proof.
  induction n as [|n IH]; intros [|[[p t] z] [|[[p' t'] z'] ls]] E; cbn in E; try discriminate.
  - eexists. constructor.
  - destruct (Z.lt_ge_cases p' p) as [H|H].
    + destruct (IH ((p', t', Rmax z' (z + t')) :: ls)) as [out Ho]; [cbn in *; lia|]. eexists. apply settled_raise; eauto.
    + destruct (IH ((p', t', z') :: ls)) as [out Ho]; [cbn in *; lia|]. eexists. apply settled_lower; eauto.
Qed.
Lemma settled_unique ls o1 : settled ls o1 -> forall o2, settled ls o2 -> o1 = o2.
Proof.
  induction 1; intros o2 H2; inversion H2; subst; try lia; try reflexivity; f_equal; auto.
Qed.

Lemma Forall2_nth_l {X Y} (R : X -> Y -> Prop) l l' : Forall2 R l l' ->
  forall j x, nth_error l j = Some x -> exists y, nth_error l' j = Some y /\ R x y.
Proof.
  induction 1 as [|x y l l' H _ IH]; intros [|j] a E; cbn in E; try discriminate.
  - injection E as <-. exists y. auto.
  - destruct (IH j a E) as (b & Eb & Hb). exists b. auto.
Qed.

Lemma stack_equal {M B} (ops : mesh_ops M B) (Hops : lawful ops) o ax extrude transition merge items g groups n js p :
  (ax <= 2)%nat -> Forall (fun i => it_trans i = false) (tl items) -> Forall (fun i => it_prio i = p) items ->
  stack_generate ops o ax true extrude transition merge items = Ok (g, groups, n, js) ->
  forall j a a' k z, nth_error items j = Some a -> nth_error js j = Some a' -> elevation ops ax k a z ->
    (nth_error items (S j) = None -> elevation ops ax k a' z) /\
    (forall b, nth_error items (S j) = Some b -> exists z', elevation ops ax k b z' /\ elevation ops ax k a' (Rmin z (z' - it_thick b))).
Proof.
  intros Hax Ht Hp Hg j a a' k z Ea Ea' Hz.
  destruct (stack_levels ops Hops o ax true extrude transition merge items g groups n js Hax Ht Hg) as [HM HE].
  (* all the surfaces have as many points *)
  assert (HL : exists np, Forall (fun i => length (points ops i) = np) items).
  { unfold stack_generate in Hg. destruct items as [|i1 [|i2 rest]]; try discriminate.
    destruct (cut_loop ops ax true i1 (i2 :: rest)) as [js'|] eqn:Ec; [|discriminate].
    clear - Ec Ht Hops. exists (length (points ops i1)). remember (i2 :: rest) as l. clear i2 rest Heql. cbn [tl] in Ht. revert i1 js' Ec Ht.
    induction l as [|i2 l IH]; intros i1 js' Ec Ht; [repeat constructor|].
    cbn [cut_loop] in Ec. inversion Ht as [|? ? T2 T']; subst.
    destruct (cut_pair ops ax true i1 i2) as [[j1 j2]|] eqn:E; [|discriminate]. cbn [bind] in Ec.
    destruct (cut_loop ops ax true j2 l) as [tl|] eqn:El; [|discriminate].
    apply cut_pair_inv in E as (_ & _ & _ & H); [|exact Hops]. destruct (H T2) as (L0 & L1 & L2 & _).
    constructor; [reflexivity|]. specialize (IH j2 tl El T'). inversion IH as [|? ? _ IH']; subst.
    constructor; [lia|]. eapply Forall_impl; [|exact IH']. cbn. intros; lia. }
  destruct HL as [np HL].
  assert (Hk : (k < np)%nat).
  { destruct Hz as (q & Eq & _). rewrite Forall_forall in HL. rewrite <- (HL a (nth_error_In _ _ Ea)).
    apply nth_error_Some. congruence. }
  destruct (levels_exist ops ax k items) as [ls Hls].
  { eapply Forall_impl; [|exact HL]. cbn. intros i ->. exact Hk. }
  destruct (HE k ls Hls) as (out & Ho & Hf). cbn [settles] in Ho.
  assert (Hpl : Forall (fun l => fst (fst l) = p) ls).
  { clear - Hls Hp. induction Hls as [|i l items ls (E & _) _ IH]; [constructor|]. inversion Hp; subst. constructor; auto. }
  destruct (settled_equal p ls out Hpl Ho) as [_ HS].
  destruct (Forall2_nth_l _ _ _ Hls j a Ea) as (l & El & (_ & _ & Hl)).
  assert (Ez : snd l = z) by (destruct Hl as (q1 & E1 & <-); destruct Hz as (q2 & E2 & <-); congruence).
  destruct (Forall2_nth_l _ _ _ Hf j a' Ea') as (w & Ew & Hw).
  rewrite (HS j l El) in Ew.
  assert (Ew' := f_equal (fun o => match o with Some x => x | None => w end) Ew). cbv beta iota in Ew'. rewrite <- Ew' in Hw. clear Ew Ew'.
  split.
  - intros En. destruct (nth_error ls (S j)) as [l'|] eqn:E'; [|rewrite <- Ez; exact Hw].
    apply nth_error_None in En. assert (S j < length ls)%nat by (apply nth_error_Some; congruence).
    assert (length items = length ls) by (clear - Hls; induction Hls; cbn; congruence). lia.
  - intros b Eb. destruct (Forall2_nth_l _ _ _ Hls (S j) b Eb) as (l' & El' & (_ & Et & Hl')). rewrite El' in Hw.
    exists (snd l'). split; [exact Hl'|]. rewrite <- Et, <- Ez. exact Hw.
Qed.
