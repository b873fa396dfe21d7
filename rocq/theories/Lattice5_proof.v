From Coq Require Import Permutation Sorted Lia.
From Verif Require Import Prelude Topo_model Volume_spec Topo_spec Topo_proof Topo2_proof Topo3_proof Topo4_proof Lattice_spec Lattice_proof.
From Verif Require Stack3_proof.
Open Scope nat_scope.

Lemma choose_list {A B} (R : A -> B -> Prop) l : (forall x, In x l -> exists y, R x y) -> exists ys, Forall2 R l ys.
Proof.
  induction l as [|x l IH]; intros H; [exists []; constructor|]. destruct (H x (or_introl eq_refl)) as (y & Hy). destruct IH as (ys & F); [intros; apply H; now right|].
  exists (y :: ys). now constructor.
Qed.
Lemma sorted_keep {A} (R : A -> A -> Prop) keep l : StronglySorted R l -> StronglySorted R (filter keep l).
Proof.
  induction 1 as [|x l Hs IH Hx]; cbn [filter]; [constructor|]. destruct (keep x); [|exact IH]. constructor; [exact IH|].
  apply Forall_forall. intros y Hy. apply filter_In in Hy as [Hy _]. rewrite Forall_forall in Hx. now apply Hx.
Qed.
Lemma sorted_pairs {A} (R : A -> A -> Prop) l : (forall p q x y, p < q -> nth_error l p = Some x -> nth_error l q = Some y -> R x y) -> StronglySorted R l.
Proof.
  induction l as [|x l IH]; intros H; constructor.
  - apply IH. intros p q a b L Ha Hb. apply (H (S p) (S q)); [lia|exact Ha|exact Hb].
  - apply Forall_forall. intros y Hy. apply In_nth_error in Hy as (q & Hq). apply (H 0 (S q)); [lia|reflexivity|exact Hq].
Qed.

Section Faces.
Context {K : Type} (faces : list (list (list nat))) (has : nat -> K -> Prop) (set : K -> list nat).
Hypothesis G : forall c fs, nth_error faces c = Some fs -> exists ks, Forall2 (fun f k => same_set f (set k)) fs ks /\ NoDup ks /\ forall k, In k ks <-> has c k.
Hypothesis Hdom : forall c k, has c k -> c < length faces.
Hypothesis Hset : forall c c' k k', has c k -> has c' k' -> same_set (set k) (set k') -> k = k'.

Lemma keyed_faces g : lists_once (incidences faces) g ->
  exists keys, length keys = length (g_faces g) /\ NoDup keys /\ (forall k, In k keys <-> exists c, has c k) /\
    forall n k, nth_error keys n = Some k -> exists f cs m, nth_error (g_faces g) n = Some f /\ same_set f (set k) /\
      (forall n' f', nth_error (g_faces g) n' = Some f' -> same_set f' (set k) -> n' = n) /\
      nth_error (g_rows g) n = Some (map Z.of_nat cs ++ repeat (-1)%Z m) /\ StronglySorted lt cs /\ forall c, In c cs <-> has c k.
Proof.
  intros Ho. pose proof Ho as (pos & L1 & L2 & Hpos & Hat & Hall).
  destruct (choose_list (fun f k => same_set f (set k) /\ exists c, has c k) (g_faces g)) as (keys & F).
  { intros f Hf. apply In_nth_error in Hf as (n & Hn). destruct (nth_error pos n) as [p|] eqn:Ep; [|apply nth_error_None in Ep; assert (n < length (g_faces g)) by (apply nth_error_Some; congruence); lia].
    destruct (Hat n p Ep) as (i & f' & Hp & Hf' & _). assert (f' = f) as -> by congruence.
    destruct (keyed_key faces has set G _ _ _ Hp) as (k & Hk & S1). exists k. eauto. }
  exists keys. split; [now rewrite (Forall2_len _ _ _ F)|].
  assert (Dist : forall n n' f f' k, nth_error (g_faces g) n = Some f -> nth_error (g_faces g) n' = Some f' -> same_set f (set k) -> same_set f' (set k) -> n = n').
  { intros n n' f f' k H1 H2 S1 S2. eapply once_distinct; [exact Ho|exact H1|exact H2|]. eapply same_trans; [exact S1|apply same_sym, S2]. }
  split; [|split].
  - apply NoDup_nth_error. intros n n' Hlt E. destruct (nth_error keys n) as [k|] eqn:Ek; [|apply nth_error_Some in Hlt; congruence].
    symmetry in E. destruct (Stack3_proof.Forall2_nth_error_r _ _ _ _ _ F Ek) as (f & Hf & S1 & _). destruct (Stack3_proof.Forall2_nth_error_r _ _ _ _ _ F E) as (f' & Hf' & S2 & _). eauto.
  - intros k. split.
    + intros Hk. apply In_nth_error in Hk as (n & Hn). now destruct (Stack3_proof.Forall2_nth_error_r _ _ _ _ _ F Hn) as (f & _ & _ & Hc).
    + intros (c & Hc). destruct (keyed_at faces has set G Hdom _ _ Hc) as (p & f & Hp & S1). destruct (Hall _ (nth_error_In _ _ Hp)) as (n & f' & Hn & S2). cbn [snd] in S2.
      destruct (Forall2_nth_error _ _ _ _ _ F Hn) as (k' & Hk' & S3 & c' & Hc'). assert (k = k') as <-; [|eapply nth_error_In, Hk'].
      apply (Hset c c'); auto. eapply same_trans; [apply same_sym, S1|]. eapply same_trans; [exact S2|exact S3].
  - intros n k Hk. destruct (Stack3_proof.Forall2_nth_error_r _ _ _ _ _ F Hk) as (f & Hf & S1 & c0 & Hc0).
    destruct (nth_error pos n) as [p|] eqn:Ep; [|apply nth_error_None in Ep; assert (n < length (g_faces g)) by (apply nth_error_Some; congruence); lia].
    destruct (Hat n p Ep) as (i & f' & Hp & Hf' & _ & sel & m & Hrow & keep & Esel & Hkeep). assert (f' = f) as -> by congruence.
    exists f, (map fst sel), m. split; [exact Hf|]. split; [exact S1|]. split; [intros; eauto|]. split; [rewrite map_map; exact Hrow|]. split.
    + assert (SS : StronglySorted (fun o o' : nat * list nat => same_set (snd o) (snd o') -> fst o < fst o') (incidences faces)).
      { apply sorted_pairs. intros a b [x fx] [y fy] L Ha Hb Hs. cbn [fst snd] in *. pose proof (incid_order 0 faces a b x y fx fy Ha Hb ltac:(lia)).
        destruct (Nat.eq_dec x y) as [->|]; [|lia]. pose proof (keyed_pos faces has set G Hset _ _ _ _ _ Ha Hb Hs). lia. }
      apply (sorted_keep _ keep) in SS. rewrite <- Esel in SS.
      assert (Hsel : forall o, In o sel -> same_set (snd o) f) by (intros o Ho'; rewrite Esel in Ho'; apply filter_In in Ho' as [_ Ho']; now apply Hkeep).
      clear Esel Hrow. induction SS as [|o sel' SS' IH Hx]; cbn [map]; constructor.
      * apply IH. intros; apply Hsel; now right.
      * apply Forall_forall. intros c Hc. apply in_map_iff in Hc as (o' & <- & Ho'). rewrite Forall_forall in Hx. apply Hx; [exact Ho'|].
        eapply same_trans; [apply Hsel; now left|apply same_sym, Hsel; now right].
    + intros c. rewrite in_map_iff. split.
      * intros ([c' h] & <- & Hin). rewrite Esel in Hin. apply filter_In in Hin as [Hin Hs]. apply Hkeep in Hs. cbn [fst snd] in *.
        apply In_nth_error in Hin as (q & Hq). destruct (keyed_key faces has set G _ _ _ Hq) as (k' & Hk' & S2).
        assert (k' = k) as ->; [|exact Hk']. apply (Hset c' c0); auto. eapply same_trans; [apply same_sym, S2|]. eapply same_trans; [exact Hs|exact S1].
      * intros Hc. destruct (keyed_at faces has set G Hdom _ _ Hc) as (q & h & Hq & S2). exists (c, h). split; [reflexivity|]. rewrite Esel. apply filter_In.
        split; [eapply nth_error_In, Hq|]. apply Hkeep. cbn [snd]. eapply same_trans; [exact S2|apply same_sym, S1].
Qed.
End Faces.
