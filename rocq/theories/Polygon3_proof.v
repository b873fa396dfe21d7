(* fuse_cells. *)
From Coq Require Import Permutation Sorted Lia.
From Verif Require Import Prelude Lines_model Lines_spec Lines1_proof Lines5_proof Topo5_proof
  Polygon_model Polygon_spec Polygon2_proof.

Lemma NoDup_app_disj {A} (l m : list A) : NoDup (l ++ m) -> forall x, In x l -> ~ In x m.
Proof.
  induction l as [|y l IH]; intros H x Hx Hm; [destruct Hx|]. cbn in H. inversion H as [|? ? H1 H2]; subst.
  destruct Hx as [-> | Hx]; [apply H1, in_or_app; right; exact Hm | exact (IH H2 x Hx Hm)].
Qed.
Lemma NoDup_app_l {A} (l m : list A) : NoDup (l ++ m) -> NoDup l.
Proof.
  induction l as [|y l IH]; intros H; [constructor|]. cbn in H. inversion H as [|? ? H1 H2]; subst.
  constructor; [intros Hy; apply H1, in_or_app; left; exact Hy | exact (IH H2)].
Qed.

Section F.
Variables (P D : Type) (eqb : P -> P -> bool).
Variable dimension : list nat -> nat.
Variable boundary : list nat -> list (list P).
Hypothesis eqb_spec : forall a b, eqb a b = true <-> a = b.

Lemma matches_In q ps i : In i (matches P eqb q ps) <-> nth_error ps i = Some q.
Proof.
  unfold matches. rewrite filter_In, in_seq. split.
  - intros [_ H]. destruct (nth_error ps i) as [p|]; [|discriminate].
    apply eqb_spec in H. subst. reflexivity.
  - intros H. split; [split; [lia|]; apply nth_error_Some; congruence|].
    rewrite H. apply eqb_spec. reflexivity.
Qed.

Lemma matches_NoDup q ps : NoDup (matches P eqb q ps).
Proof. apply NoDup_filter, seq_NoDup. Qed.

Lemma matches_one ps k q : NoDup ps -> nth_error ps k = Some q -> matches P eqb q ps = [k].
Proof.
  intros Hn Hk. apply Permutation_length_1_inv, NoDup_Permutation.
  - repeat constructor. intros [].
  - apply matches_NoDup.
  - intros i. rewrite matches_In. split.
    + intros [<- | []]. exact Hk.
    + intros Hi. left. eapply NoDup_nth_error; [exact Hn| |congruence].
      apply nth_error_Some. congruence.
Qed.

Lemma first_matches ps poly ids :
  mapM (fun q => match matches P eqb q ps with i :: _ => Ok i | [] => Err IndexError end) poly = Ok ids ->
  picks ps ids poly.
Proof.
  rewrite mapM_Ok. unfold picks. intros H. induction H as [|q i poly ids H _ IH]; constructor; [|exact IH].
  destruct (matches P eqb q ps) as [|j r] eqn:E; [discriminate|]. apply Ok_inj in H. subst j.
  apply matches_In. rewrite E. left. reflexivity.
Qed.

Lemma first_matches_ok ps poly :
  (exists ids, mapM (fun q => match matches P eqb q ps with i :: _ => Ok i | [] => Err IndexError end) poly = Ok ids)
  <-> forall q, In q poly -> In q ps.
Proof.
  induction poly as [|q poly IH].
  - split; [intros _ ? [] | intros _; cbn; eauto].
  - cbn [mapM]. split.
    + intros (ids & H). destruct (matches P eqb q ps) as [|i r] eqn:E; [discriminate|]. cbn [bind] in H.
      destruct (mapM _ poly) as [ids'|e] eqn:E'; [|discriminate].
      intros q' [<- | Hq'].
      * assert (Hi : In i (matches P eqb q ps)) by (rewrite E; left; reflexivity).
        apply matches_In in Hi. eapply nth_error_In; eauto.
      * apply (proj1 IH); [eauto | exact Hq'].
    + intros H. destruct (proj2 IH) as (ids & E); [intros; apply H; right; assumption|].
      destruct (In_nth_error ps q) as (k & Hk); [apply H; left; reflexivity|].
      apply matches_In in Hk. destruct (matches P eqb q ps) as [|i r]; [destruct Hk|].
      rewrite E. cbn [bind]. eauto.
Qed.

Lemma found_seq poly : NoDup poly ->
  map (fun q => matches P eqb q poly) poly = map (fun i => [i]) (seq 0 (length poly)).
Proof.
  intros Hn. apply nth_error_ext. intros k. rewrite !nth_error_map, nth_error_seq.
  destruct (nth_error poly k) as [q|] eqn:Hq.
  - assert (Hk : k < length poly) by (apply nth_error_Some; congruence).
    rewrite (proj2 (Nat.ltb_lt _ _) Hk). cbn [option_map]. f_equal. apply matches_one; assumption.
  - apply nth_error_None in Hq. rewrite (proj2 (Nat.ltb_ge _ _) Hq). reflexivity.
Qed.

Lemma concat_singles (l : list nat) : concat (map (fun i => [i]) l) = l.
Proof. induction l as [|x l IH]; [reflexivity|]. cbn. rewrite IH. reflexivity. Qed.

Lemma polygon_ids_eq (m : fmesh P D) poly : NoDup poly ->
  polygon_ids P D eqb m poly =
  mapM (fun q => match matches P eqb q (f_pts m) with i :: _ => Ok i | [] => Err IndexError end) poly.
Proof.
  intros Hn. unfold polygon_ids. destruct (mapM _ poly) as [ids|e] eqn:E; [|reflexivity]. cbn [bind].
  assert (Hp := first_matches _ _ _ E).
  rewrite (proj2 (take_picks _ _ _) Hp). cbn [bind].
  rewrite found_seq by exact Hn.
  assert (Hl : length ids = length poly) by (eapply Forall2_len; exact Hp).
  destruct poly as [|q poly].
  - destruct ids; [reflexivity | discriminate].
  - set (n := length (q :: poly)) in *. change (seq 0 n) with (0 :: seq 1 (length poly)).
    cbn [map]. rewrite (proj2 (forallb_forall _ _)).
    + change ([0] :: map (fun i => [i]) (seq 1 (length poly))) with (map (fun i => [i]) (seq 0 n)).
      rewrite concat_singles. apply take_picks.
      assert (Q := picks_seq [] ids []). cbn [length app] in Q. rewrite app_nil_r, Hl in Q. exact Q.
    + intros f [<- | Hf]; [reflexivity|]. apply in_map_iff in Hf as (i & <- & _). reflexivity.
Qed.

Lemma polygon_ids_picks m poly ids : NoDup poly -> polygon_ids P D eqb m poly = Ok ids -> picks (f_pts m) ids poly.
Proof. intros Hn. rewrite polygon_ids_eq by exact Hn. apply first_matches. Qed.

Lemma polygon_ids_ok m poly : NoDup poly ->
  ((exists ids, polygon_ids P D eqb m poly = Ok ids) <-> forall q, In q poly -> In q (f_pts m)).
Proof. intros Hn. rewrite polygon_ids_eq by exact Hn. apply first_matches_ok. Qed.

(* ---- one group ---- *)
Lemma fold_upd_length {A} (x : A) ids : forall l, length (fold_left (fun c i => upd i x c) ids l) = length l.
Proof. induction ids as [|i ids IH]; intros l; [reflexivity|]. cbn [fold_left]. rewrite IH, upd_length. reflexivity. Qed.

Lemma fold_upd_nth {A} (x : A) ids : forall l j, j < length l ->
  nth_error (fold_left (fun c i => upd i x c) ids l) j = if in_dec Nat.eq_dec j ids then Some x else nth_error l j.
Proof.
  induction ids as [|i ids IH]; intros l j Hj; [reflexivity|]. cbn [fold_left].
  rewrite IH by (rewrite upd_length; exact Hj). rewrite upd_nth_error.
  destruct (in_dec Nat.eq_dec j ids) as [H|H]; destruct (in_dec Nat.eq_dec j (i :: ids)) as [H'|H'].
  - reflexivity.
  - exfalso. apply H'. right. exact H.
  - destruct H' as [-> | H']; [|contradiction]. rewrite Nat.eqb_refl, (proj2 (Nat.ltb_lt _ _) Hj). reflexivity.
  - destruct (Nat.eqb_spec i j) as [->|]; [exfalso; apply H'; left; reflexivity | reflexivity].
Qed.

Lemma out_of_range_false n g : existsb (fun i => n <=? i) g = false <-> in_range n g.
Proof.
  unfold in_range. split.
  - intros H i Hi. apply not_true_iff_false in H. apply Nat.nle_gt. intros Hle. apply H.
    apply existsb_exists. exists i. split; [exact Hi | apply Nat.leb_le; exact Hle].
  - intros H. apply not_true_iff_false. intros H'. apply existsb_exists in H' as (i & Hi & Hle).
    apply Nat.leb_le in Hle. apply H in Hi. lia.
Qed.

Lemma fuse_group_inv m cells mask g st :
  fuse_group P D eqb dimension boundary m (cells, mask) g = Ok st ->
  exists i0 rest poly ids, g = i0 :: rest /\ in_range (length (f_cells m)) g /\ dimension g = 2 /\
    boundary g = [poly] /\ polygon_ids P D eqb m poly = Ok ids /\
    st = (fold_left (fun c i => upd i (0, []) c) rest (upd i0 (7, ids) cells),
          fold_left (fun k i => upd i false k) rest mask).
Proof.
  unfold fuse_group. destruct (existsb _ g) eqn:Er; [discriminate|].
  apply out_of_range_false in Er.
  destruct (Nat.eqb_spec (dimension g) 2) as [Hd|]; [|discriminate].
  destruct (boundary g) as [|poly [|? ?]] eqn:Eb; try discriminate.
  destruct (polygon_ids P D eqb m poly) as [ids|e] eqn:Ei; [|discriminate]. cbn [bind].
  destruct g as [|i0 rest]; [discriminate|]. intros H%Ok_inj.
  exists i0, rest, poly, ids. cbn [tl] in H. repeat split; auto.
Qed.

Lemma fuse_group_ok m st g : (forall poly, boundary g = [poly] -> NoDup poly) ->
  ((exists st', fuse_group P D eqb dimension boundary m st g = Ok st') <-> fusable dimension boundary m g).
Proof.
  intros Hn. destruct st as [cells mask]. split.
  - intros (st' & H). apply fuse_group_inv in H as (i0 & rest & poly & ids & -> & Hr & Hd & Hb & Hi & _).
    split; [discriminate|]. split; [exact Hr|]. split; [exact Hd|]. exists poly. split; [exact Hb|].
    apply polygon_ids_ok; eauto.
  - intros (Hne & Hr & Hd & poly & Hb & Hp). unfold fuse_group.
    rewrite (proj2 (out_of_range_false _ _) Hr), Hd. cbn [Nat.eqb]. rewrite Hb.
    destruct (proj2 (polygon_ids_ok m poly (Hn _ Hb)) Hp) as (ids & E). rewrite E. cbn [bind].
    destruct g; [congruence|]. eauto.
Qed.

Lemma fuse_loop_ok m : forall groups st,
  (forall g poly, In g groups -> boundary g = [poly] -> NoDup poly) ->
  ((exists st', fuse_loop P D eqb dimension boundary m st groups = Ok st') <-> Forall (fusable dimension boundary m) groups).
Proof.
  induction groups as [|g gs IH]; intros st Hn.
  - split; [constructor | intros _; cbn; eauto].
  - cbn [fuse_loop]. split.
    + intros (st' & H). destruct (fuse_group P D eqb dimension boundary m st g) as [s1|e] eqn:E; [|discriminate].
      cbn [bind] in H. constructor.
      * apply (fuse_group_ok m st g); [intros; eapply Hn; eauto; left; reflexivity | eauto].
      * apply (IH s1); [intros; eapply Hn; eauto; right; assumption | eauto].
    + intros H. inversion H as [|? ? Hg Hgs]; subst.
      destruct (proj2 (fuse_group_ok m st g ltac:(intros; eapply Hn; eauto; left; reflexivity)) Hg) as (s1 & E).
      rewrite E. cbn [bind]. apply IH; [intros; eapply Hn; eauto; right; assumption | exact Hgs].
Qed.

(* ---- all groups ---- *)
Definition state_after (m : fmesh P D) (groups : list (list nat)) (st : list (nat * list nat) * list bool) : Prop :=
  length (fst st) = length (f_cells m) /\ length (snd st) = length (f_cells m) /\
  forall i, i < length (f_cells m) ->
    (nth_error (snd st) i = Some false <-> exists i0 rest, In (i0 :: rest) groups /\ In i rest) /\
    (~ In i (concat groups) -> nth_error (fst st) i = nth_error (f_cells m) i) /\
    (forall rest, In (i :: rest) groups ->
       exists poly ids, boundary (i :: rest) = [poly] /\ picks (f_pts m) ids poly /\
                        nth_error (fst st) i = Some (7, ids)).

Lemma In_concat_tail (groups : list (list nat)) i0 rest i :
  In (i0 :: rest) groups -> In i rest -> In i (concat groups).
Proof. intros H1 H2. apply in_concat. exists (i0 :: rest). split; [exact H1 | right; exact H2]. Qed.

Lemma state_step m groups st g st' :
  (forall poly, boundary g = [poly] -> NoDup poly) ->
  NoDup (concat (groups ++ [g])) ->
  state_after m groups st -> fuse_group P D eqb dimension boundary m st g = Ok st' ->
  state_after m (groups ++ [g]) st'.
Proof.
  intros Hn Hnd (Hl1 & Hl2 & Hst) H. destruct st as [cells mask]. cbn [fst snd] in *.
  apply fuse_group_inv in H as (i0 & rest & poly & ids & -> & Hr & Hd & Hb & Hi & ->).
  rewrite concat_app in Hnd. cbn [concat] in Hnd. rewrite app_nil_r in Hnd.
  assert (Hdisj : forall i, In i (concat groups) -> ~ In i (i0 :: rest)).
  { intros i H1 H2. apply (NoDup_app_disj _ _ Hnd i H1 H2). }
  assert (Hg : NoDup (i0 :: rest)) by (eapply NoDup_app_r; exact Hnd).
  inversion Hg as [|? ? Hi0 Hrest]; subst.
  unfold state_after. cbn [fst snd]. rewrite !fold_upd_length, upd_length.
  split; [exact Hl1|]. split; [exact Hl2|].
  intros i Hin. destruct (Hst i Hin) as (S1 & S2 & S3).
  rewrite !fold_upd_nth by (rewrite ?upd_length; lia). rewrite upd_nth_error.
  rewrite concat_app. cbn [concat]. rewrite app_nil_r.
  split; [|split].
  - destruct (in_dec Nat.eq_dec i rest) as [Hr'|Hr'].
    + split; [intros _ | reflexivity]. exists i0, rest. split; [apply in_or_app; right; left; reflexivity | exact Hr'].
    + rewrite S1. split.
      * intros (j & r & Hj & Hjr). exists j, r. split; [apply in_or_app; left; exact Hj | exact Hjr].
      * intros (j & r & Hj & Hjr). apply in_app_or in Hj as [Hj | [[= -> ->] | []]]; [eauto | contradiction].
  - intros Hni. rewrite in_app_iff in Hni.
    destruct (in_dec Nat.eq_dec i rest) as [Hr'|Hr']; [exfalso; apply Hni; right; right; exact Hr'|].
    destruct (Nat.eqb_spec i0 i) as [->|]; [exfalso; apply Hni; right; left; reflexivity|].
    apply S2. intros H. apply Hni. left. exact H.
  - intros r Hir. apply in_app_or in Hir as [Hir | [[= -> ->] | []]].
    + destruct (S3 r Hir) as (poly' & ids' & H1 & H2 & H3). exists poly', ids'. split; [exact H1|]. split; [exact H2|].
      assert (Hic : In i (concat groups)) by (apply in_concat; exists (i :: r); split; [exact Hir | left; reflexivity]).
      specialize (Hdisj i Hic).
      destruct (in_dec Nat.eq_dec i rest) as [Hr'|Hr']; [exfalso; apply Hdisj; right; exact Hr'|].
      destruct (Nat.eqb_spec i0 i) as [->|]; [exfalso; apply Hdisj; left; reflexivity | exact H3].
    + exists poly, ids. split; [exact Hb|]. split; [apply polygon_ids_picks; auto|].
      destruct (in_dec Nat.eq_dec i r) as [Hr'|Hr']; [contradiction|].
      rewrite Nat.eqb_refl. rewrite (proj2 (Nat.ltb_lt i (length cells))) by lia. reflexivity.
Qed.

Lemma state_loop m : forall gs groups st st',
  (forall g poly, In g gs -> boundary g = [poly] -> NoDup poly) ->
  NoDup (concat (groups ++ gs)) ->
  state_after m groups st -> fuse_loop P D eqb dimension boundary m st gs = Ok st' ->
  state_after m (groups ++ gs) st'.
Proof.
  induction gs as [|g gs IH]; intros groups st st' Hn Hnd Hst H.
  - cbn in H. apply Ok_inj in H. subst. rewrite app_nil_r. exact Hst.
  - cbn [fuse_loop] in H. destruct (fuse_group P D eqb dimension boundary m st g) as [s1|e] eqn:E; [|discriminate].
    cbn [bind] in H. change (g :: gs) with ([g] ++ gs) in *. rewrite app_assoc in *.
    eapply IH; [|exact Hnd| |exact H].
    + intros g' poly Hg'. apply Hn. apply in_or_app. right. exact Hg'.
    + eapply state_step; [| |exact Hst|exact E].
      * intros poly Hp. eapply Hn; [|exact Hp]. left. reflexivity.
      * rewrite concat_app in Hnd. eapply NoDup_app_l; exact Hnd.
Qed.

Lemma mask_get_picks {A} : forall mask (l : list A), length mask = length l -> forall (u : list A),
  picks (u ++ l) (mask_get mask (seq (length u) (length mask))) (mask_get mask l).
Proof.
  induction mask as [|b mask IH]; intros [|x l] Hl u; try discriminate; [constructor|].
  cbn [length seq mask_get]. injection Hl as Hl.
  specialize (IH l Hl (u ++ [x])). rewrite app_length, <- app_assoc in IH. cbn [length app] in IH.
  replace (length u + 1) with (S (length u)) in IH by lia.
  destruct b; [|exact IH]. constructor; [|exact IH].
  rewrite nth_error_app2, Nat.sub_diag by lia. reflexivity.
Qed.

Lemma fuse_fused m groups out :
  separate groups -> (forall g poly, In g groups -> boundary g = [poly] -> NoDup poly) ->
  length (f_data m) = length (f_cells m) ->
  fuse_cells P D eqb dimension boundary m groups = Ok out -> fused boundary groups m out.
Proof.
  intros [Hnd Hne] Hn Hdata H. unfold fuse_cells in H.
  assert (H' : (let! st := fuse_loop P D eqb dimension boundary m (f_cells m, repeat true (length (f_cells m))) groups in
      Ok (mkF (f_pts m) (mask_get (snd st) (fst st)) (mask_get (snd st) (f_data m)))) = Ok out)
    by (destruct groups; [discriminate | exact H]).
  clear H. destruct (fuse_loop _ _ _ _ _ _ _ _) as [[cells mask]|e] eqn:E; [|discriminate].
  cbn [bind fst snd] in H'. apply Ok_inj in H'. subst out.
  apply (state_loop m groups [] _ _ Hn Hnd) in E.
  2:{ unfold state_after. cbn [fst snd]. rewrite repeat_length. split; [reflexivity|]. split; [reflexivity|].
      intros i Hi. rewrite repeat_nth_error by exact Hi.
      split; [split; [discriminate | intros (? & ? & [] & _)]|]. split; [reflexivity | intros ? []]. }
  destruct E as (L1 & L2 & S). cbn [fst snd app] in *.
  split; [reflexivity|]. cbn [f_cells f_data f_pts].
  exists (mask_get mask (seq 0 (length mask))).
  split; [apply mask_get_seq_sorted|].
  assert (Hkept : forall i, In i (mask_get mask (seq 0 (length mask))) <->
     i < length (f_cells m) /\ forall i0 rest, In (i0 :: rest) groups -> ~ In i rest).
  { intros i. rewrite mask_get_seq_In, Nat.sub_0_r. split.
    - intros [_ Ht]. assert (Hi : i < length (f_cells m)) by (rewrite <- L2; apply nth_error_Some; congruence).
      split; [exact Hi|]. intros i0 rest H1 H2. destruct (S i Hi) as (S1 & _).
      assert (F : nth_error mask i = Some false) by (apply S1; eauto). congruence.
    - intros [Hi Hr]. split; [lia|]. destruct (S i Hi) as (S1 & _).
      destruct (nth_error mask i) as [[|]|] eqn:Em; [reflexivity| |].
      + exfalso. destruct (proj1 S1 eq_refl) as (i0 & rest & H1 & H2). exact (Hr i0 rest H1 H2).
      + apply nth_error_None in Em. lia. }
  split; [exact Hkept|]. split.
  - assert (Q := mask_get_picks mask cells ltac:(lia) []). cbn [length app] in Q. unfold picks in Q.
    revert Hkept Q. generalize (mask_get mask (seq 0 (length mask))) as kept, (mask_get mask cells) as cs.
    intros kept cs Hkept Q.
    assert (Hall : forall i, In i kept -> i < length (f_cells m) /\ forall i0 rest, In (i0 :: rest) groups -> ~ In i rest)
      by (intros; apply Hkept; assumption).
    clear Hkept. induction Q as [|i c kept cs Hic _ IH]; constructor.
    + destruct (Hall i (or_introl eq_refl)) as [Hi Hr]. destruct (S i Hi) as (_ & S2 & S3).
      destruct (in_dec Nat.eq_dec i (concat groups)) as [Hin|Hin].
      * right. apply in_concat in Hin as (g & Hg & Hig). rewrite Forall_forall in Hne.
        destruct g as [|i0 rest]; [exfalso; exact (Hne [] Hg eq_refl)|].
        destruct Hig as [-> | Hig]; [|exfalso; exact (Hr i0 rest Hg Hig)].
        destruct (S3 rest Hg) as (poly & ids & H1 & H2 & H3).
        exists (i :: rest), rest, poly. split; [exact Hg|]. split; [reflexivity|]. split; [exact H1|].
        rewrite Hic in H3. injection H3 as ->. auto.
      * left. split; [exact Hin|]. rewrite <- S2 by exact Hin. exact Hic.
    + apply IH. intros j Hj. apply Hall. right. exact Hj.
  - assert (Q := mask_get_picks mask (f_data m) ltac:(lia) []). exact Q.
Qed.

Lemma fuse_ok m groups : (forall g poly, In g groups -> boundary g = [poly] -> NoDup poly) ->
  ((exists out, fuse_cells P D eqb dimension boundary m groups = Ok out) <->
   groups <> [] /\ Forall (fusable dimension boundary m) groups).
Proof.
  intros Hn. unfold fuse_cells. destruct groups as [|g gs].
  { split; [intros (? & H); discriminate | intros [H _]; congruence]. }
  rewrite <- (fuse_loop_ok m (g :: gs) (f_cells m, repeat true (length (f_cells m))) Hn). split.
  - intros (out & H). split; [discriminate|].
    destruct (fuse_loop _ _ _ _ _ _ _ _) as [st|e]; [eauto | discriminate].
  - intros [_ (st & H)]. rewrite H. cbn [bind]. eauto.
Qed.

Lemma fuse_loop_err m : forall pre g gs st e,
  (forall g' poly, In g' pre -> boundary g' = [poly] -> NoDup poly) ->
  Forall (fusable dimension boundary m) pre ->
  (forall st, fuse_group P D eqb dimension boundary m st g = Err e) ->
  fuse_loop P D eqb dimension boundary m st (pre ++ g :: gs) = Err e.
Proof.
  induction pre as [|g' pre IH]; intros g gs st e Hn Hp Hg.
  - cbn [app fuse_loop]. rewrite Hg. reflexivity.
  - inversion Hp as [|? ? Hg' Hp']; subst. cbn [app fuse_loop].
    destruct (proj2 (fuse_group_ok m st g' ltac:(intros; eapply Hn; eauto; left; reflexivity)) Hg') as (s1 & E).
    rewrite E. cbn [bind]. apply IH; auto. intros; eapply Hn; eauto; right; assumption.
Qed.

Lemma fuse_rejects m pre g gs :
  (forall g' poly, In g' pre -> boundary g' = [poly] -> NoDup poly) ->
  Forall (fusable dimension boundary m) pre -> in_range (length (f_cells m)) g ->
  (dimension g <> 2 -> fuse_cells P D eqb dimension boundary m (pre ++ g :: gs) = Err NotImplementedError) /\
  (dimension g = 2 -> length (boundary g) <> 1 ->
     fuse_cells P D eqb dimension boundary m (pre ++ g :: gs) = Err ValueError).
Proof.
  intros Hn Hp Hr.
  assert (K : forall e, (forall st, fuse_group P D eqb dimension boundary m st g = Err e) ->
              fuse_cells P D eqb dimension boundary m (pre ++ g :: gs) = Err e).
  { intros e He. unfold fuse_cells. rewrite (fuse_loop_err m pre g gs _ e Hn Hp He). cbn [bind].
    destruct pre; reflexivity. }
  split.
  - intros Hd. apply K. intros [cells mask]. unfold fuse_group.
    rewrite (proj2 (out_of_range_false _ _) Hr), (proj2 (Nat.eqb_neq _ _) Hd). reflexivity.
  - intros Hd Hb. apply K. intros [cells mask]. unfold fuse_group.
    rewrite (proj2 (out_of_range_false _ _) Hr), (proj2 (Nat.eqb_eq _ _) Hd).
    destruct (boundary g) as [|poly [|? ?]]; try reflexivity. exfalso. apply Hb. reflexivity.
Qed.

Lemma fuse_each_group m groups out g :
  separate groups -> (forall g poly, In g groups -> boundary g = [poly] -> NoDup poly) ->
  length (f_data m) = length (f_cells m) ->
  fuse_cells P D eqb dimension boundary m groups = Ok out -> In g groups ->
  exists c poly, In c (f_cells out) /\ fst c = 7 /\ boundary g = [poly] /\ picks (f_pts m) (snd c) poly.
Proof.
  intros Hs Hn Hdata H Hg.
  assert (Hok : Forall (fusable dimension boundary m) groups) by (apply fuse_ok; eauto).
  destruct (fuse_fused _ _ _ Hs Hn Hdata H) as (_ & kept & _ & Hkept & Hc & _).
  rewrite Forall_forall in Hok. destruct (Hok g Hg) as (Hne & Hr & _).
  destruct g as [|i rest]; [congruence|]. destruct Hs as [Hnd _].
  apply in_split in Hg as (l1 & l2 & ->). rewrite concat_app in Hnd. cbn [concat] in Hnd.
  assert (Hi : In i kept).
  { apply Hkept. split; [apply Hr; left; reflexivity|]. intros i0 r Hin Hir.
    apply in_app_or in Hin as [Hin | [[= -> ->] | Hin]].
    - apply (NoDup_app_disj _ _ Hnd i).
      + apply in_concat. exists (i0 :: r). split; [exact Hin | right; exact Hir].
      + apply in_or_app. left. left. reflexivity.
    - apply NoDup_app_r, NoDup_app_l in Hnd. inversion Hnd; contradiction.
    - apply NoDup_app_r in Hnd. apply (NoDup_app_disj _ _ Hnd i); [left; reflexivity|].
      apply in_concat. exists (i0 :: r). split; [exact Hin | right; exact Hir]. }
  assert (Hex : exists c, In c (f_cells out) /\ fused_into boundary (l1 ++ (i :: rest) :: l2) m i c).
  { revert Hi. clear - Hc. induction Hc as [|j c kept cs Hjc _ IH]; intros Hi; [destruct Hi|].
    destruct Hi as [-> | Hi]; [exists c; split; [left; reflexivity | exact Hjc]|].
    destruct (IH Hi) as (c' & H1 & H2). exists c'. split; [right; exact H1 | exact H2]. }
  destruct Hex as (c & Hin & [[Hni _] | (g & r & poly & Hg & -> & Hb & H7 & Hp)]).
  - exfalso. apply Hni. rewrite concat_app. apply in_or_app. right. left. reflexivity.
  - assert (E : r = rest).
    { apply in_app_or in Hg as [Hg | [[= ->] | Hg]]; [|reflexivity|]; exfalso.
      - apply (NoDup_app_disj _ _ Hnd i).
        + apply in_concat. exists (i :: r). split; [exact Hg | left; reflexivity].
        + apply in_or_app. left. left. reflexivity.
      - apply NoDup_app_r in Hnd. apply (NoDup_app_disj _ _ Hnd i); [left; reflexivity|].
        apply in_concat. exists (i :: r). split; [exact Hg | left; reflexivity]. }
    subst r. exists c, poly. auto.
Qed.
End F.

(* a strip of three squares fused as {0, 1} and {1, 2} *)
Definition strip : fmesh nat nat :=
  mkF (seq 0 8) [(9, [0; 1; 5; 4]); (9, [1; 2; 6; 5]); (9, [2; 3; 7; 6])] [10; 11; 12].
Definition strip_boundary (g : list nat) : list (list nat) :=
  match g with
  | [0; 1] => [[0; 1; 2; 6; 5; 4]]
  | [1; 2] => [[1; 2; 3; 7; 6; 5]]
  | _ => []
  end.

Lemma fuse_overlap :
  fuse_cells nat nat Nat.eqb (fun _ => 2) strip_boundary strip [[0; 1]; [1; 2]] =
    Ok (mkF (seq 0 8) [(7, [0; 1; 2; 6; 5; 4])] [10]) /\
  ~ exists c poly, In c [(7, [0; 1; 2; 6; 5; 4])] /\ fst c = 7 /\ strip_boundary [1; 2] = [poly] /\
      picks (f_pts strip) (snd c) poly.
Proof.
  split; [reflexivity|]. intros (c & poly & [<- | []] & _ & [= <-] & Hp).
  inversion Hp as [|? ? ? ? H0 _]; subst. discriminate.
Qed.
