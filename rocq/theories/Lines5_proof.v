(* Proofs for C57 and C58. *)
From Coq Require Import Reals Lra Permutation Relations Sorted.
From Verif Require Import Prelude Surface_model Volume_spec Lines_model Lines_spec Topo2_proof Lines1_proof Lines3_proof.
Open Scope nat_scope.

Lemma NoDup_app {A} (l m : list A) : NoDup l -> NoDup m -> (forall x, In x l -> ~ In x m) -> NoDup (l ++ m).
Proof.
  induction l as [|a l IH]; intros Hl Hm Hd; auto. inversion Hl; subst. cbn. constructor.
  - rewrite in_app_iff. intros [H|H]; auto. apply (Hd a); auto. now left.
  - apply IH; auto. intros x Hx. apply Hd. now right.
Qed.

Lemma NoDup_app_r {A} (l m : list A) : NoDup (l ++ m) -> NoDup m.
Proof. induction l; auto. cbn. inversion 1; auto. Qed.

Lemma upd_at {A} i (x : A) l j : nth_error (upd i x l) j =
  if j =? i then if j <? length l then Some x else None else nth_error l j.
Proof.
  rewrite upd_nth_error, (Nat.eqb_sym i j). destruct (j =? i); auto. cbn [andb].
  destruct (Nat.ltb_spec j (length l)); auto. now apply nth_error_None.
Qed.

(* ---- groups ---- *)
Lemma lookup_cons i j g gm : lookup i ((j, g) :: gm) = if j =? i then Some g else lookup i gm.
Proof. unfold lookup. cbn [find fst]. destruct (j =? i); reflexivity. Qed.

Lemma lookup_map i l g gm : lookup i (map (fun k => (k, g)) l ++ gm) =
  if in_dec Nat.eq_dec i l then Some g else lookup i gm.
Proof.
  induction l as [|j l IH]; cbn [map app]; [destruct (in_dec _ _ _); easy|].
  rewrite lookup_cons, IH. destruct (Nat.eqb_spec j i) as [->|Hne].
  - destruct (in_dec Nat.eq_dec i (i :: l)) as [|Hn]; auto. exfalso. apply Hn. now left.
  - destruct (in_dec Nat.eq_dec i l) as [H|H], (in_dec Nat.eq_dec i (j :: l)) as [H'|H']; auto.
    + exfalso. apply H'. now right.
    + destruct H' as [H'|H']; [lia|easy].
Qed.

Record inv (P : list (nat * nat)) (groups : list (list nat)) (gm : list (nat * nat)) : Prop := {
  inv_map : forall i g, lookup i gm = Some g <-> In i (nth g groups []);
  inv_nodup : forall g, NoDup (nth g groups []);
  inv_sound : forall g i j, In i (nth g groups []) -> In j (nth g groups []) -> linked P i j;
  inv_complete : forall i j, In (i, j) P -> exists g, In i (nth g groups []) /\ In j (nth g groups []);
  inv_used : forall g i, In i (nth g groups []) -> exists a b, In (a, b) P /\ (i = a \/ i = b) }.

Lemma in_group_lt g i (groups : list (list nat)) : In i (nth g groups []) -> g < length groups.
Proof.
  intros H. destruct (Nat.lt_ge_cases g (length groups)) as [|Hge]; auto.
  rewrite nth_overflow in H by lia. easy.
Qed.

Lemma nth_upd {A} i (x : A) l j d : i < length l -> nth j (upd i x l) d = if j =? i then x else nth j l d.
Proof.
  intros Hi.
  destruct (Nat.eqb_spec j i) as [->|Hne].
  - apply nth_error_nth. rewrite upd_at, Nat.eqb_refl. now rewrite (proj2 (Nat.ltb_lt _ _) Hi).
  - destruct (Nat.lt_ge_cases j (length l)) as [Hj|Hj].
    + apply nth_error_nth. rewrite upd_at. rewrite (proj2 (Nat.eqb_neq _ _) Hne). now apply nth_error_nth'.
    + rewrite !nth_overflow; auto. now rewrite upd_length.
Qed.

Lemma linked_mono P Q i j : incl P Q -> linked P i j -> linked Q i j.
Proof.
  intros H. induction 1 as [x y Hxy|x|x y _ IH|x y z _ IH1 _ IH2].
  - apply rst_step. auto.
  - apply rst_refl.
  - now apply rst_sym.
  - eapply rst_trans; eauto.
Qed.

Lemma inv_step P groups gm i j : i <> j -> inv P groups gm ->
  inv (P ++ [(i, j)]) (fst (add_pair (groups, gm) (i, j))) (snd (add_pair (groups, gm) (i, j))).
Proof.
  intros Hij [Hm Hn Hs Hc Hu].
  assert (Hmono : forall a b, linked P a b -> linked (P ++ [(i, j)]) a b).
  { intros a b. apply linked_mono. intros x Hx. apply in_app_iff. now left. }
  assert (Hlink : linked (P ++ [(i, j)]) i j).
  { apply rst_step. apply in_app_iff. right. now left. }
  assert (Huniq : forall a g g', In a (nth g groups []) -> In a (nth g' groups []) -> g = g').
  { intros a g g' H1 H2. apply Hm in H1, H2. congruence. }
  assert (Hu' : forall g a, In a (nth g groups []) -> exists x y, In (x, y) (P ++ [(i, j)]) /\ (a = x \/ a = y)).
  { intros g a Ha. destruct (Hu g a Ha) as (x & y & H & H'). exists x, y. rewrite in_app_iff. auto. }
  assert (Hui : exists x y, In (x, y) (P ++ [(i, j)]) /\ (i = x \/ i = y)).
  { exists i, j. rewrite in_app_iff. cbn. auto. }
  assert (Huj : exists x y, In (x, y) (P ++ [(i, j)]) /\ (j = x \/ j = y)).
  { exists i, j. rewrite in_app_iff. cbn. auto. }
  unfold add_pair. destruct (lookup i gm) as [gi|] eqn:Ei, (lookup j gm) as [gj|] eqn:Ej.
  - pose proof (proj1 (Hm i gi) Ei) as Hi. pose proof (proj1 (Hm j gj) Ej) as Hj.
    pose proof (in_group_lt _ _ _ Hi) as Li. pose proof (in_group_lt _ _ _ Hj) as Lj.
    destruct (Nat.eqb_spec gi gj) as [->|Hg]; cbn [fst snd].
    + split; auto.
      * intros g a b Ha Hb. apply Hmono. eapply Hs; eauto.
      * intros a b Hab. apply in_app_iff in Hab as [Hab|[[= <- <-]|[]]]; [now apply Hc|]. exists gj; auto.
    + set (groups' := upd gj [] (upd gi (nth gi groups [] ++ nth gj groups []) groups)).
      assert (Hnth : forall g, nth g groups' [] = if g =? gj then [] else
         if g =? gi then nth gi groups [] ++ nth gj groups [] else nth g groups []).
      { intros g. unfold groups'. rewrite nth_upd by (rewrite upd_length; auto). destruct (g =? gj); auto.
        now rewrite nth_upd. }
      split.
      * intros a g. rewrite lookup_map, Hnth. destruct (in_dec Nat.eq_dec a (nth gj groups [])) as [Ha|Ha].
        -- split.
           ++ intros [= <-]. rewrite (proj2 (Nat.eqb_neq gi gj) Hg), Nat.eqb_refl. apply in_app_iff. now right.
           ++ destruct (Nat.eqb_spec g gj) as [->|H1]; [easy|]. destruct (Nat.eqb_spec g gi) as [->|H2]; auto.
              intros Hb. exfalso. apply H1. eapply Huniq; eauto.
        -- rewrite Hm. destruct (Nat.eqb_spec g gj) as [->|H1]; [cbn [In]; tauto|].
           destruct (Nat.eqb_spec g gi) as [->|H2]; [|tauto]. rewrite in_app_iff. tauto.
      * intros g. rewrite Hnth. destruct (g =? gj); [constructor|]. destruct (g =? gi); auto.
        apply NoDup_app; auto. intros a Ha Hb. apply Hg. eapply Huniq; eauto.
      * intros g a b. rewrite Hnth. destruct (g =? gj); [easy|]. destruct (g =? gi).
        2:{ intros Ha Hb. apply Hmono. eapply Hs; eauto. }
        assert (Hx : forall a, In a (nth gi groups [] ++ nth gj groups []) -> linked (P ++ [(i, j)]) i a).
        { intros a' Ha. apply in_app_iff in Ha as [Ha|Ha].
          - apply Hmono. eapply Hs; eauto.
          - eapply rst_trans; [exact Hlink|]. apply Hmono. eapply Hs; eauto. }
        intros Ha Hb. eapply rst_trans; [apply rst_sym; apply Hx; exact Ha|exact (Hx _ Hb)].
      * intros a b Hab. apply in_app_iff in Hab as [Hab|[[= <- <-]|[]]].
        -- destruct (Hc a b Hab) as (g & Ha & Hb).
           destruct (Nat.eqb_spec g gj) as [->|H1].
           ++ exists gi. rewrite Hnth, (proj2 (Nat.eqb_neq gi gj) Hg), Nat.eqb_refl. rewrite !in_app_iff. auto.
           ++ exists g. rewrite Hnth, (proj2 (Nat.eqb_neq g gj) H1). destruct (Nat.eqb_spec g gi) as [->|]; auto.
              rewrite !in_app_iff. auto.
        -- exists gi. rewrite Hnth, (proj2 (Nat.eqb_neq gi gj) Hg), Nat.eqb_refl. rewrite !in_app_iff. auto.
      * intros g a. rewrite Hnth. destruct (g =? gj); [easy|]. destruct (g =? gi); [|apply Hu'].
        rewrite in_app_iff. intros [Ha|Ha]; eapply Hu'; eauto.
  - pose proof (proj1 (Hm i gi) Ei) as Hi. pose proof (in_group_lt _ _ _ Hi) as Li. cbn [fst snd].
    assert (Hj : forall g, ~ In j (nth g groups [])).
    { intros g Hg. apply Hm in Hg. congruence. }
    assert (Hnth : forall g, nth g (upd gi (nth gi groups [] ++ [j]) groups) [] =
       if g =? gi then nth gi groups [] ++ [j] else nth g groups []) by (intros; now apply nth_upd).
    split.
    + intros a g. rewrite lookup_cons, Hnth. destruct (Nat.eqb_spec j a) as [<-|Hja].
      * split.
        -- intros [= <-]. rewrite Nat.eqb_refl. apply in_app_iff. right; now left.
        -- destruct (Nat.eqb_spec g gi) as [->|]; auto. intros Hb. exfalso. eapply Hj; eauto.
      * rewrite Hm. destruct (Nat.eqb_spec g gi) as [->|]; [|tauto]. rewrite in_app_iff. cbn. tauto.
    + intros g. rewrite Hnth. destruct (g =? gi); auto. apply NoDup_app; auto.
      * constructor; [easy|constructor].
      * intros a Ha [<-|[]]. eapply Hj; eauto.
    + intros g a b. rewrite Hnth. destruct (g =? gi).
      2:{ intros Ha Hb. apply Hmono. eapply Hs; eauto. }
      assert (Hx : forall a, In a (nth gi groups [] ++ [j]) -> linked (P ++ [(i, j)]) i a).
      { intros a' Ha. apply in_app_iff in Ha as [Ha|[<-|[]]]; auto. apply Hmono. eapply Hs; eauto. }
      intros Ha Hb. eapply rst_trans; [apply rst_sym; apply Hx; exact Ha|exact (Hx _ Hb)].
    + intros a b Hab. apply in_app_iff in Hab as [Hab|[[= <- <-]|[]]].
      * destruct (Hc a b Hab) as (g & Ha & Hb). exists g. rewrite Hnth.
        destruct (Nat.eqb_spec g gi) as [->|]; auto. rewrite !in_app_iff. auto.
      * exists gi. rewrite Hnth, Nat.eqb_refl, !in_app_iff. cbn. auto.
    + intros g a. rewrite Hnth. destruct (g =? gi); [|apply Hu'].
      rewrite in_app_iff. intros [Ha|[<-|[]]]; auto. eapply Hu'; eauto.
  - pose proof (proj1 (Hm j gj) Ej) as Hj. pose proof (in_group_lt _ _ _ Hj) as Lj. cbn [fst snd].
    assert (Hi : forall g, ~ In i (nth g groups [])).
    { intros g Hg. apply Hm in Hg. congruence. }
    assert (Hnth : forall g, nth g (upd gj (nth gj groups [] ++ [i]) groups) [] =
       if g =? gj then nth gj groups [] ++ [i] else nth g groups []) by (intros; now apply nth_upd).
    split.
    + intros a g. rewrite lookup_cons, Hnth. destruct (Nat.eqb_spec i a) as [<-|Hja].
      * split.
        -- intros [= <-]. rewrite Nat.eqb_refl. apply in_app_iff. right; now left.
        -- destruct (Nat.eqb_spec g gj) as [->|]; auto. intros Hb. exfalso. eapply Hi; eauto.
      * rewrite Hm. destruct (Nat.eqb_spec g gj) as [->|]; [|tauto]. rewrite in_app_iff. cbn. tauto.
    + intros g. rewrite Hnth. destruct (g =? gj); auto. apply NoDup_app; auto.
      * constructor; [easy|constructor].
      * intros a Ha [<-|[]]. eapply Hi; eauto.
    + intros g a b. rewrite Hnth. destruct (g =? gj).
      2:{ intros Ha Hb. apply Hmono. eapply Hs; eauto. }
      assert (Hx : forall a, In a (nth gj groups [] ++ [i]) -> linked (P ++ [(i, j)]) j a).
      { intros a' Ha. apply in_app_iff in Ha as [Ha|[<-|[]]]; [|now apply rst_sym]. apply Hmono. eapply Hs; eauto. }
      intros Ha Hb. eapply rst_trans; [apply rst_sym; apply Hx; exact Ha|exact (Hx _ Hb)].
    + intros a b Hab. apply in_app_iff in Hab as [Hab|[[= <- <-]|[]]].
      * destruct (Hc a b Hab) as (g & Ha & Hb). exists g. rewrite Hnth.
        destruct (Nat.eqb_spec g gj) as [->|]; auto. rewrite !in_app_iff. auto.
      * exists gj. rewrite Hnth, Nat.eqb_refl, !in_app_iff. cbn. auto.
    + intros g a. rewrite Hnth. destruct (g =? gj); [|apply Hu'].
      rewrite in_app_iff. intros [Ha|[<-|[]]]; auto. eapply Hu'; eauto.
  - cbn [fst snd].
    assert (Hi : forall g, ~ In i (nth g groups [])) by (intros g Hg; apply Hm in Hg; congruence).
    assert (Hj : forall g, ~ In j (nth g groups [])) by (intros g Hg; apply Hm in Hg; congruence).
    assert (Hnth : forall g, nth g (groups ++ [[i; j]]) [] = if g =? length groups then [i; j] else nth g groups []).
    { intros g. destruct (Nat.eqb_spec g (length groups)) as [->|Hne].
      - rewrite app_nth2, Nat.sub_diag; auto.
      - destruct (Nat.lt_ge_cases g (length groups)); [now rewrite app_nth1|].
        rewrite !nth_overflow; auto. rewrite app_length; cbn; lia. }
    assert (Hlast : nth (length groups) groups [] = []) by (now apply nth_overflow).
    split.
    + intros a g. rewrite !lookup_cons, Hnth. destruct (Nat.eqb_spec i a) as [<-|Hia].
      * destruct (Nat.eqb_spec g (length groups)) as [->|Hne]; [cbn; tauto|].
        split; [intros [= <-]; lia|]. intros Hb. exfalso. eapply Hi; eauto.
      * destruct (Nat.eqb_spec j a) as [<-|Hja].
        -- destruct (Nat.eqb_spec g (length groups)) as [->|Hne]; [cbn; tauto|].
           split; [intros [= <-]; lia|]. intros Hb. exfalso. eapply Hj; eauto.
        -- rewrite Hm. destruct (Nat.eqb_spec g (length groups)) as [->|Hne]; [|tauto].
           rewrite Hlast. cbn. lia.
    + intros g. rewrite Hnth. destruct (g =? length groups); auto.
      constructor; [intros [->|[]]; easy|]. constructor; [easy|constructor].
    + intros g a b. rewrite Hnth. destruct (g =? length groups).
      2:{ intros Ha Hb. apply Hmono. eapply Hs; eauto. }
      intros [<-|[<-|[]]] [<-|[<-|[]]]; auto; try apply rst_refl. now apply rst_sym.
    + intros a b Hab. apply in_app_iff in Hab as [Hab|[[= <- <-]|[]]].
      * destruct (Hc a b Hab) as (g & Ha & Hb). exists g. rewrite Hnth.
        rewrite (proj2 (Nat.eqb_neq g (length groups))); auto. apply in_group_lt in Ha. lia.
      * exists (length groups). rewrite Hnth, Nat.eqb_refl. cbn. auto.
    + intros g a. rewrite Hnth. destruct (g =? length groups); [|apply Hu'].
      intros [<-|[<-|[]]]; auto.
Qed.

Lemma build_inv pairs : (forall i j, In (i, j) pairs -> i <> j) ->
  exists gm, inv pairs (build_groups pairs) gm.
Proof.
  intros Hp. unfold build_groups.
  assert (H : forall todo P groups gm, (forall i j, In (i, j) todo -> i <> j) -> inv P groups gm ->
    exists gm', inv (P ++ todo) (fst (fold_left add_pair todo (groups, gm))) gm').
  { clear. induction todo as [|[i j] todo IH]; intros P groups gm Hne Hi; cbn [fold_left].
    - exists gm. now rewrite app_nil_r.
    - assert (Hs := inv_step P groups gm i j (Hne i j (or_introl eq_refl)) Hi).
      destruct (add_pair (groups, gm) (i, j)) as [groups' gm'] eqn:E. cbn [fst snd] in Hs.
      destruct (IH (P ++ [(i, j)]) groups' gm') as [gm2 H2]; auto.
      { intros a b Hab. apply Hne. now right. }
      exists gm2. rewrite <- app_assoc in H2. exact H2. }
  apply (H pairs [] [] []); auto.
  split; cbn; try easy; intros; destruct g; cbn in *; try easy; try constructor.
Qed.

(* groups of the final state are the classes with at least two points *)
Lemma linked_groups pairs groups gm i j : inv pairs groups gm ->
  (linked pairs i j <-> i = j \/ exists g, In i (nth g groups []) /\ In j (nth g groups [])).
Proof.
  intros [Hm Hn Hs Hc Hu]. split.
  - induction 1 as [x y Hxy|x|x y _ IH|x y z _ IH1 _ IH2].
    + right. auto.
    + now left.
    + destruct IH as [->|(g & H1 & H2)]; eauto.
    + destruct IH1 as [->|(g & H1 & H2)]; auto. destruct IH2 as [->|(g' & H3 & H4)]; [eauto|].
      apply Hm in H2, H3. assert (g' = g) by congruence. subst g'. right. exists g. split; auto.
  - intros [->|(g & H1 & H2)]; [apply rst_refl|eauto].
Qed.

Lemma nodup_concat (groups : list (list nat)) :
  (forall g, NoDup (nth g groups [])) ->
  (forall a g g', In a (nth g groups []) -> In a (nth g' groups []) -> g = g') -> NoDup (concat groups).
Proof.
  induction groups as [|x groups IH]; intros H1 H2; [constructor|]. cbn [concat]. apply NoDup_app.
  - exact (H1 0).
  - apply IH; [intros g; exact (H1 (S g))|]. intros a g g' Ha Hb.
    specialize (H2 a (S g) (S g') Ha Hb). lia.
  - intros a Ha Hb. apply in_concat in Hb as (y & Hy & Hay). apply In_nth_error in Hy as [k Hk].
    specialize (H2 a 0 (S k) Ha). cbn in H2. rewrite (nth_error_nth _ _ _ Hk) in H2. specialize (H2 Hay). lia.
Qed.

(* ---- point_map and new_points ---- *)
Lemma fold_upd group (g0 : nat) pm i : (forall k, In k group -> k < length pm) ->
  nth_error (fold_left (fun m k => upd k g0 m) group pm) i =
  if in_dec Nat.eq_dec i group then Some g0 else nth_error pm i.
Proof.
  revert pm; induction group as [|k group IH]; intros pm H; cbn [fold_left]; [destruct (in_dec _ _ _); easy|].
  rewrite IH by (intros; rewrite upd_length; apply H; now right). rewrite upd_at.
  assert (Hk : k < length pm) by (apply H; now left).
  destruct (in_dec Nat.eq_dec i group) as [Hi|Hi], (in_dec Nat.eq_dec i (k :: group)) as [Hi'|Hi']; auto.
  - exfalso. apply Hi'. now right.
  - destruct Hi' as [->|Hi']; [|easy]. now rewrite Nat.eqb_refl, (proj2 (Nat.ltb_lt _ _) Hk).
  - destruct (Nat.eqb_spec i k) as [->|]; auto. exfalso. apply Hi'. now left.
Qed.

Lemma fold_upd_length group (g0 : nat) pm : length (fold_left (fun m k => upd k g0 m) group pm) = length pm.
Proof. revert pm; induction group as [|k group IH]; intros pm; cbn; auto. now rewrite IH, upd_length. Qed.

Lemma apply_groups points gs pm pts : NoDup (concat gs) ->
  (forall k, In k (concat gs) -> k < length pm) -> length pts = length pm ->
  let r := fold_left (apply_group points) gs (pm, pts) in
  length (fst r) = length pm /\ length (snd r) = length pm /\
  (forall i, ~ In i (concat gs) -> nth_error (fst r) i = nth_error pm i /\ nth_error (snd r) i = nth_error pts i) /\
  (forall g0 g, In (g0 :: g) gs -> nth_error (snd r) g0 = Some (mean_pts (map (point points) (g0 :: g))) /\
     forall i, In i (g0 :: g) -> nth_error (fst r) i = Some g0).
Proof.
  revert pm pts; induction gs as [|x gs IH]; intros pm pts Hn Hr Hl; cbn [fold_left].
  - cbn [fst snd]. repeat split; auto; try easy.
  - cbn [concat] in Hn, Hr.
    assert (Hn2 : NoDup (concat gs)) by (apply NoDup_app_r in Hn; auto).
    assert (Hdis : forall a, In a x -> ~ In a (concat gs)).
    { intros a Ha Hb. clear -Hn Ha Hb. induction x as [|y x IH]; [easy|]. cbn in Hn. inversion Hn; subst.
      destruct Ha as [->|Ha]; auto. apply H1. apply in_app_iff. now right. }
    destruct x as [|g0 g].
    + cbn [apply_group]. destruct (IH pm pts Hn2) as (H1 & H2 & H3 & H4); auto.
      cbv zeta. repeat split; auto.
      * apply (H3 i). exact H.
      * apply (H3 i). exact H.
      * destruct H as [H|H]; [discriminate|]. apply (H4 g0 g H).
      * destruct H as [H|H]; [discriminate|]. now apply (H4 g0 g H).
    + cbn [apply_group fst snd].
      set (pm1 := fold_left (fun m i => upd i g0 m) (g0 :: g) pm).
      set (pts1 := upd g0 (mean_pts (map (point points) (g0 :: g))) pts).
      assert (L1 : length pm1 = length pm) by apply fold_upd_length.
      assert (L2 : length pts1 = length pm) by (unfold pts1; now rewrite upd_length).
      destruct (IH pm1 pts1 Hn2) as (H1 & H2 & H3 & H4).
      { intros k Hk. rewrite L1. apply Hr. apply in_app_iff. now right. }
      { congruence. }
      assert (Hin : forall k, In k (g0 :: g) -> k < length pm) by (intros; apply Hr; apply in_app_iff; now left).
      assert (Hg0 : g0 < length pts) by (rewrite Hl; apply Hin; now left).
      cbv zeta in *. split; [congruence|]. split; [congruence|]. split.
      * intros i Hi. cbn [concat] in Hi. rewrite in_app_iff in Hi.
        destruct (H3 i) as [H5 H6]; [tauto|]. rewrite H5, H6. unfold pm1, pts1. rewrite fold_upd by auto.
        destruct (in_dec _ _ _) as [Hc|Hc]; [tauto|]. split; auto. rewrite upd_at.
        rewrite (proj2 (Nat.eqb_neq i g0)); auto. intros ->. apply Hc. now left.
      * intros h0 h [[= <- <-]|Hh]; [|now apply H4]. split.
        -- destruct (H3 g0) as [_ H6]; [apply Hdis; now left|]. rewrite H6. unfold pts1.
           rewrite upd_at, Nat.eqb_refl. now rewrite (proj2 (Nat.ltb_lt _ _) Hg0).
        -- intros i Hi. destruct (H3 i) as [H5 _]; [now apply Hdis|]. rewrite H5. unfold pm1.
           rewrite fold_upd by auto. destruct (in_dec _ _ _); [reflexivity|easy].
Qed.

Lemma mean_pts_is ps : ps <> [] -> is_mean ps (mean_pts ps).
Proof.
  intros Hne. assert (Hn : (INR (length ps) <> 0)%R).
  { apply not_0_INR. destruct ps; [easy|discriminate]. }
  unfold is_mean, mean_pts. cbn [fst snd]. split; auto.
  assert (Hx : forall A (f : A -> R) l, fold_right (fun x acc => f x + acc)%R 0%R l = fold_right Rplus 0%R (map f l)).
  { intros A f l. induction l; cbn; congruence. }
  assert (E1 : fold_right (fun '(x, _, _) acc => (x + acc)%R) 0%R ps = fold_right Rplus 0%R (map (fun p : pt => fst (fst p)) ps)).
  { clear. induction ps as [|[[x y] z] ps IH]; cbn; congruence. }
  assert (E2 : fold_right (fun '(_, y, _) acc => (y + acc)%R) 0%R ps = fold_right Rplus 0%R (map (fun p : pt => snd (fst p)) ps)).
  { clear. induction ps as [|[[x y] z] ps IH]; cbn; congruence. }
  assert (E3 : fold_right (fun '(_, _, z) acc => (z + acc)%R) 0%R ps = fold_right Rplus 0%R (map (@snd _ R) ps)).
  { clear. induction ps as [|[[x y] z] ps IH]; cbn; congruence. }
  rewrite E1, E2, E3. repeat split; now field.
Qed.

(* rep: the point that stands for a point *)
Lemma average_map_spec points pairs :
  (forall i j, In (i, j) pairs -> i <> j /\ i < length points /\ j < length points) ->
  exists rep, let r := average_map points pairs in
  length (fst r) = length points /\ length (snd r) = length points /\
  (forall i, i < length points -> nth_error (fst r) i = Some (rep i)) /\
  (forall i j, rep i = rep j <-> linked pairs i j) /\
  (forall i, i < length points -> exists class ps c, NoDup class /\
     (forall k, In k class <-> linked pairs i k) /\ In (rep i) class /\ picks points class ps /\
     nth_error (snd r) (rep i) = Some c /\ is_mean ps c) /\
  (forall i, rep (rep i) = rep i).
Proof.
  intros Hp. destruct (build_inv pairs) as [gm Hinv]; [intros i j H; apply (Hp i j H)|].
  pose proof (fun i j => linked_groups pairs (build_groups pairs) gm i j Hinv) as Hlink.
  destruct Hinv as [Hm Hn Hs Hc Hu]. unfold average_map. set (groups := build_groups pairs) in *.
  assert (Huniq : forall a g g', In a (nth g groups []) -> In a (nth g' groups []) -> g = g').
  { intros a g g' H1 H2. apply Hm in H1, H2. congruence. }
  assert (Hlt : forall k, In k (concat groups) -> k < length points).
  { intros k Hk. apply in_concat in Hk as (x & Hx & Hk). apply In_nth_error in Hx as [g Hg].
    apply nth_error_nth with (d := []) in Hg. subst x. destruct (Hu g k Hk) as (a & b & Hab & He).
    specialize (Hp a b Hab). destruct He as [->| ->]; tauto. }
  destruct (apply_groups points groups (seq 0 (length points)) points) as (H1 & H2 & H3 & H4).
  { now apply nodup_concat. }
  { now rewrite seq_length. }
  { now rewrite seq_length. }
  cbv zeta in *. set (r := fold_left (apply_group points) groups (seq 0 (length points), points)) in *.
  rewrite seq_length in *.
  set (rep := fun i => match lookup i gm with Some g => hd i (nth g groups []) | None => i end).
  assert (Hin : forall i g, In i (nth g groups []) -> rep i = hd i (nth g groups []) /\ In (rep i) (nth g groups [])).
  { intros i g Hi. assert (E : rep i = hd i (nth g groups [])).
    { unfold rep. now rewrite (proj2 (Hm i g) Hi). }
    split; auto. rewrite E. destruct (nth g groups []); [easy|now left]. }
  assert (Hout : forall i, lookup i gm = None -> rep i = i /\ ~ In i (concat groups)).
  { intros i Hi. split; [unfold rep; now rewrite Hi|]. intros Hc'. apply in_concat in Hc' as (x & Hx & Hk).
    apply In_nth_error in Hx as [g Hg]. apply nth_error_nth with (d := []) in Hg. subst x.
    apply Hm in Hk. congruence. }
  assert (Hself : forall i, linked pairs i (rep i)).
  { intros i. destruct (lookup i gm) as [g|] eqn:E.
    - apply Hm in E. apply Hlink. right. exists g. split; auto. now apply Hin.
    - destruct (Hout i E) as [-> _]. apply rst_refl. }
  assert (Hrep : forall i j, rep i = rep j <-> linked pairs i j).
  { intros i j. split.
    - intros E. eapply rst_trans; [apply Hself|]. rewrite E. apply rst_sym, Hself.
    - intros H. apply Hlink in H as [->|(g & Hi & Hj)]; auto.
      destruct (Hin i g Hi) as [-> _]. destruct (Hin j g Hj) as [-> _].
      destruct (nth g groups []); [easy|reflexivity]. }
  exists rep. split; [exact H1|]. split; [exact H2|]. split; [|split; [exact Hrep|split]].
  - intros i Hi. destruct (lookup i gm) as [g|] eqn:E.
    + apply Hm in E. destruct (Hin i g E) as [-> _]. pose proof (in_group_lt _ _ _ E) as Lg.
      pose proof (nth_In groups [] Lg) as Hg. destruct (nth g groups []) as [|g0 gt] eqn:Eg; [easy|].
      now apply (H4 g0 gt Hg).
    + destruct (Hout i E) as [-> Hn']. destruct (H3 i Hn') as [-> _]. rewrite nth_error_seq.
      now rewrite (proj2 (Nat.ltb_lt _ _) Hi).
  - intros i Hi. destruct (lookup i gm) as [g|] eqn:E.
    + apply Hm in E. destruct (Hin i g E) as [E1 E2]. pose proof (in_group_lt _ _ _ E) as Lg.
      pose proof (nth_In groups [] Lg) as Hg. specialize (Hn g).
      assert (Hcl : forall k, In k (nth g groups []) <-> linked pairs i k).
      { intros k. rewrite Hlink. split; [eauto|]. intros [<-|(g' & Hi' & Hk)]; auto.
        now rewrite (Huniq _ _ _ E Hi'). }
      destruct (nth g groups []) as [|g0 gt] eqn:Eg; [easy|]. cbn [hd] in E1.
      exists (g0 :: gt), (map (point points) (g0 :: gt)), (mean_pts (map (point points) (g0 :: gt))).
      split; [auto|]. split; [exact Hcl|]. split; [exact E2|]. split.
      { apply picks_point. intros k Hk. apply Hlt. apply in_concat. exists (g0 :: gt); auto. }
      split; [rewrite E1; now apply (H4 g0 gt Hg)|]. apply mean_pts_is. discriminate.
    + destruct (Hout i E) as [E1 Hn']. destruct (H3 i Hn') as [_ E3].
      destruct (nth_error points i) as [p|] eqn:Ep; [|apply nth_error_None in Ep; lia].
      exists [i], [p], p. rewrite E1. split; [constructor; [easy|constructor]|]. split.
      { intros k. rewrite Hlink. split; [intros [->|[]]; auto|]. intros [->|(g & Hg & _)]; [now left|].
        apply Hm in Hg. congruence. }
      split; [now left|]. split; [repeat constructor; auto|]. split; [auto|].
      destruct p as [[x y] z]. unfold is_mean. cbn. repeat split; try discriminate; ring.
  - intros i. apply Hrep. apply rst_sym, Hself.
Qed.

(* ---- faces ---- *)
Lemma pairs_app {A} (l : list A) x y : pairs (l ++ [x] ++ [y]) = pairs (l ++ [x]) ++ [(x, y)].
Proof.
  induction l as [|a l IH]; auto. destruct l as [|b l]; auto.
  cbn [app] in *. change (pairs (a :: b :: l ++ [x; y])) with ((a, b) :: pairs (b :: l ++ [x; y])).
  rewrite IH. reflexivity.
Qed.

Definition proper (e : nat * nat) : bool := negb (fst e =? snd e).

Lemma uniq_pairs x l : pairs (x :: uniq_from x l) = filter proper (pairs (x :: l)).
Proof.
  revert x; induction l as [|y l IH]; intros x; auto. cbn [uniq_from].
  change (pairs (x :: y :: l)) with ((x, y) :: pairs (y :: l)). cbn [filter]. unfold proper at 1. cbn [fst snd].
  rewrite (Nat.eqb_sym x y). destruct (Nat.eqb_spec y x) as [->|Hne]; cbn [negb]; [apply IH|].
  change (pairs (x :: y :: uniq_from y l)) with ((x, y) :: pairs (y :: uniq_from y l)). now rewrite IH.
Qed.

Lemma uniq_last x l d : last (x :: uniq_from x l) d = last (x :: l) d.
Proof.
  revert x; induction l as [|y l IH]; intros x; auto. cbn [uniq_from].
  destruct (Nat.eqb_spec y x) as [->|Hne].
  - rewrite IH. reflexivity.
  - change (last (x :: y :: uniq_from y l) d) with (last (y :: uniq_from y l) d). rewrite IH. reflexivity.
Qed.

Lemma decimate_face_edges c f : decimate_face c = Ok f -> ring_edges f = proper_edges c.
Proof.
  destruct c as [|x l]; [discriminate|]. unfold decimate_face. cbv zeta. intros <-%Ok_inj.
  unfold proper_edges, ring_edges at 2. fold proper. change (fun e => negb (fst e =? snd e)) with proper.
  set (y := last (x :: l) x).
  assert (El : x :: l = removelast (x :: l) ++ [y]) by (apply app_removelast_last; discriminate).
  assert (Ep : pairs (x :: l ++ [x]) = pairs (x :: l) ++ [(y, x)]).
  { rewrite app_comm_cons, El, <- app_assoc, pairs_app. now rewrite <- El. }
  rewrite Ep, filter_app, <- uniq_pairs.
  set (c := x :: uniq_from x l). assert (Ey : last c x = y) by apply uniq_last. rewrite Ey.
  assert (Ec : c = removelast c ++ [y]) by (rewrite <- Ey; apply app_removelast_last; discriminate).
  cbn [filter]. unfold proper at 1. cbn [fst snd]. rewrite (Nat.eqb_sym y x).
  destruct (Nat.eqb_spec x y) as [<-|Hne]; cbn [negb].
  - rewrite app_nil_r. destruct (removelast c) as [|a u] eqn:Er.
    + rewrite Ec. reflexivity.
    + rewrite Ec. unfold c in Ec. cbn [app] in Ec. injection Ec as <- _. reflexivity.
  - rewrite Ec at 2. rewrite <- pairs_app, app_assoc, <- Ec. reflexivity.
Qed.

Lemma ring_edges_fst {A} (f : list A) : map fst (ring_edges f) = f.
Proof.
  destruct f as [|x l]; auto. unfold ring_edges. generalize x at 2 as z. revert x.
  induction l as [|y l IH]; intros x z; auto.
  cbn [app]. change (pairs (x :: y :: l ++ [z])) with ((x, y) :: pairs (y :: l ++ [z])). cbn [map fst]. now rewrite IH.
Qed.

Lemma decimate_face_defined c : c <> [] -> exists f, decimate_face c = Ok f.
Proof. destruct c; [easy|]. intros _. eexists; reflexivity. Qed.

Lemma average_faces points faces pairs points' out :
  (forall i j, In (i, j) pairs -> i <> j /\ i < length points /\ j < length points) ->
  average_points points faces 0 pairs = Ok (points', out) ->
  exists rep,
  (forall i j, rep i = rep j <-> linked pairs i j) /\ (forall i, rep (rep i) = rep i) /\
  (forall i, i < length points -> exists class ps c, NoDup class /\
     (forall k, In k class <-> linked pairs i k) /\ In (rep i) class /\ picks points class ps /\
     nth_error points' (rep i) = Some c /\ is_mean ps c) /\
  length points' = length points /\
  StronglySorted lt (map fst out) /\
  forall i f', In (i, f') out <-> exists f, nth_error faces i = Some f /\
     ring_edges f' = proper_edges (map rep f) /\ 2 < length f'.
Proof.
  intros Hp. destruct (average_map_spec points pairs Hp) as (rep & L1 & L2 & H1 & H2 & H3 & H4).
  unfold average_points. destruct (average_map points pairs) as [pm pts]. cbn [fst snd] in *.
  match goal with |- context [mapM ?f faces] => destruct (mapM f faces) as [fs|] eqn:E end; [|discriminate].
  change (0 <? 0) with false. cbn [bind].
  intros H%Ok_inj. apply pair_equal_spec in H as [<- <-]. apply mapM_Ok in E.
  exists rep. split; [exact H2|]. split; [exact H4|]. split; [exact H3|]. split; [exact L2|]. split.
  - clear. cut (forall s, StronglySorted lt (map fst (filter (fun x => 2 <? length (snd x)) (combine (seq s (length fs)) fs)))); [auto|].
    induction fs as [|f fs IH]; intros s; cbn [length seq combine filter map]; [constructor|].
    destruct (2 <? length (snd (s, f))); [|apply IH]. cbn [map fst]. constructor; auto.
    apply Forall_forall. intros k Hk. apply in_map_iff in Hk as ([k' f'] & <- & Hk). apply filter_In in Hk as [Hk _].
    apply in_combine_l in Hk. apply in_seq in Hk. cbn. lia.
  - assert (Hf : forall i f, nth_error faces i = Some f -> exists f', nth_error fs i = Some f' /\
        ring_edges f' = proper_edges (map rep f)).
    { intros i f Hi. destruct (Forall2_nth_error _ _ _ _ _ E Hi) as (f' & Hf' & He). exists f'; split; auto.
      destruct (take pm f) as [mf|] eqn:Et; [|discriminate]. cbn [bind] in He.
      apply take_picks in Et. rewrite (decimate_face_edges _ _ He). f_equal.
      clear -Et H1 L1. induction Et as [|k x l m Hk _ IH]; auto. cbn [map]. f_equal; auto.
      assert (k < length pm) by (apply nth_error_Some; congruence). rewrite H1 in Hk by lia. now injection Hk. }
    intros i f'. rewrite filter_In. cbn [snd]. rewrite Nat.ltb_lt. split.
    + intros [Hin Hlen]. apply in_combine_nth in Hin as (k & Hk & Hk').
      rewrite nth_error_seq in Hk. destruct (k <? length fs); [|discriminate]. injection Hk as <-.
      destruct (nth_error faces k) as [f|] eqn:Ef.
      * exists f. destruct (Hf k f Ef) as (f2 & Hf2 & He). rewrite Hk' in Hf2. injection Hf2 as <-. auto.
      * apply Forall2_len in E. apply nth_error_None in Ef.
        assert (nth_error fs k <> None) by congruence. apply nth_error_Some in H. lia.
    + intros (f & Hi & He & Hlen). split; auto. destruct (Hf i f Hi) as (f2 & Hf2 & He2).
      assert (f' = f2) by (rewrite <- (ring_edges_fst f'), <- (ring_edges_fst f2); congruence). subst f2.
      apply nth_error_In with (n := i).
      assert (Hl : i < length fs) by (apply nth_error_Some; congruence).
      assert (Hc : forall (a : list nat) (b : list (list nat)) k x y, nth_error a k = Some x -> nth_error b k = Some y ->
        nth_error (combine a b) k = Some (x, y)).
      { clear. induction a as [|u a IH]; intros [|v b] [|k] x y Hx Hy; try discriminate.
        - injection Hx as <-. injection Hy as <-. reflexivity.
        - cbn. auto. }
      apply Hc; auto. rewrite nth_error_seq, (proj2 (Nat.ltb_lt _ _) Hl). reflexivity.
Qed.

Lemma average_points_defined points faces n_lines pairs :
  (forall i j, In (i, j) pairs -> i <> j /\ i < length points /\ j < length points) ->
  (forall f, In f faces -> f <> [] /\ in_range (length points) f) ->
  if n_lines =? 0 then exists r, average_points points faces n_lines pairs = Ok r
  else average_points points faces n_lines pairs = Err NotImplementedError.
Proof.
  intros Hp Hf. destruct (average_map_spec points pairs Hp) as (rep & L1 & L2 & H1 & _).
  unfold average_points. destruct (average_map points pairs) as [pm pts]. cbn [fst snd] in *.
  match goal with |- context [mapM ?f faces] => destruct (mapM_def f faces) as [fs E] end.
  { intros f Hin. destruct (Hf f Hin) as [Hne Hr]. destruct (picks_exists pm f) as [mf Hmf]; [now rewrite L1|].
    rewrite (proj2 (take_picks _ _ _) Hmf). cbn [bind]. apply decimate_face_defined.
    intros ->. apply picks_len in Hmf. destruct f; [easy|discriminate]. }
  rewrite E. cbn [bind]. destruct n_lines; cbn; [eexists; reflexivity|reflexivity].
Qed.
