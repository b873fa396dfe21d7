From Verif Require Import RealAux Perc_model Perc_spec Perc_proof Surface_model Surface_spec Surface_proof
  Volume_spec SMerge_model SMerge_spec SMerge_proof Groups_model Groups_spec Groups_proof Groups2_proof
  Polygon_model Stack_model Stack_spec Cut_proof Gen_proof Stack_proof Stack2_proof Stack3_proof Stack4_proof
  Stack5_proof Stack6_proof Trans_model Trans_spec.
From Coq Require Import Lra.
Open Scope nat_scope.

(* ---- generation with transitions ---- *)
Definition put_transition {M B} (ops : mesh_ops M B) (name : string) (i off : nat) (b : B) : B :=
  put_ids ops name (repeat (Z.of_nat i) (ncB ops b))
    (put_ids ops "LayerId" (repeat (Z.of_nat off) (ncB ops b))
       (put_ids ops "ColumnId" (repeat (-1)%Z (ncB ops b)) b)).

Lemma repeat_each_one {A} (x : A) n : repeat_each [x] n = repeat x n.
Proof. unfold repeat_each. cbn [flat_map]. apply app_nil_r. Qed.

Lemma gen_blocks {M B} (ops : mesh_ops M B) o name extrude transition rest :
  (forall a b g grp blk g', numbered g -> transition a b g grp = Ok (blk, g') -> numbered g' /\ extends g g') ->
  forall i n groups i1 bs groups' n',
  numbered groups ->
  Forall (fun it => aligned (gview ops (it_mesh it))) (i1 :: rest) ->
  gen_loop ops o name extrude transition i n groups i1 rest = Ok (bs, groups', n') ->
  numbered groups' /\ extends groups groups' /\
  exists nsubs, length nsubs = length rest /\ length bs = length rest /\ n' = n + list_sum nsubs /\
    forall j a b, nth_error (i1 :: rest) j = Some a -> nth_error rest j = Some b ->
      exists arr gj g1 b0 nsub blk,
        initialize_group_array o (gview ops (it_mesh a)) gj (it_group b) "" = Ok (arr, g1) /\
        numbered gj /\ numbered g1 /\ extends g1 groups' /\
        nth_error nsubs j = Some nsub /\ nth_error bs j = Some blk /\
        (it_trans b = true -> nsub = 1 /\
           (exists g2, transition (set_cg ops arr (it_mesh a)) (it_mesh b) g1 (it_group b) = Ok (b0, g2) /\
              extends g2 groups') /\
           blk = put_transition ops name (i + j) (n + list_sum (firstn j nsubs)) b0) /\
        (it_trans b = false ->
           extrude (set_cg ops arr (it_mesh a)) (it_mesh b) (it_res b) (it_method b) = Ok b0 /\
           ncM ops (set_cg ops arr (it_mesh a)) <> 0 /\
           ncB ops b0 = nsub * ncM ops (set_cg ops arr (it_mesh a)) /\
           blk = put_all ops (numbered_ids name (i + j) (n + list_sum (firstn j nsubs)) nsub
                   (ncM ops (set_cg ops arr (it_mesh a)))) b0).
Proof.
  intros Htr. induction rest as [|i2 rest IH]; intros i n groups i1 bs groups' n' Hn Hal; cbn [gen_loop].
  - intros H%Ok_inj. injection H as <- <- <-.
    split; [auto|split; [apply extends_refl|]]. exists []. simpl. repeat split; auto.
    intros [|j] a b Ha Hb; discriminate Hb.
  - inversion Hal as [|? ? Ha1 Hal']; subst.
    destruct (initialize_group_array o (gview ops (it_mesh i1)) groups (it_group i2) "") as [[arr g1]|] eqn:Hi;
      [|discriminate]. cbn [bind].
    destruct (initialize_spec _ _ _ _ _ _ _ Hn Ha1 Hi) as (Hn1 & He1 & _).
    set (nc := ncM ops (set_cg ops arr (it_mesh i1))) in *.
    assert (Step : forall b0 g2 nsub blk,
      numbered g2 -> extends g1 g2 ->
      ((it_trans i2 = true -> nsub = 1 /\
           transition (set_cg ops arr (it_mesh i1)) (it_mesh i2) g1 (it_group i2) = Ok (b0, g2) /\
           blk = put_transition ops name i n b0) /\
       (it_trans i2 = false ->
           extrude (set_cg ops arr (it_mesh i1)) (it_mesh i2) (it_res i2) (it_method i2) = Ok b0 /\
           nc <> 0 /\ ncB ops b0 = nsub * nc /\
           blk = put_all ops (numbered_ids name i n nsub nc) b0)) ->
      (let! r := gen_loop ops o name extrude transition (S i) (n + nsub) g2 i2 rest in
       let '(bs0, groups0, n0) := r in Ok (blk :: bs0, groups0, n0)) = Ok (bs, groups', n') ->
      numbered groups' /\ extends groups groups' /\
      exists nsubs, length nsubs = S (length rest) /\ length bs = S (length rest) /\ n' = n + list_sum nsubs /\
      forall j a b, nth_error (i1 :: i2 :: rest) j = Some a -> nth_error (i2 :: rest) j = Some b ->
      exists arr gj g1 b0 nsub blk,
        initialize_group_array o (gview ops (it_mesh a)) gj (it_group b) "" = Ok (arr, g1) /\
        numbered gj /\ numbered g1 /\ extends g1 groups' /\
        nth_error nsubs j = Some nsub /\ nth_error bs j = Some blk /\
        (it_trans b = true -> nsub = 1 /\
           (exists g2, transition (set_cg ops arr (it_mesh a)) (it_mesh b) g1 (it_group b) = Ok (b0, g2) /\
              extends g2 groups') /\
           blk = put_transition ops name (i + j) (n + list_sum (firstn j nsubs)) b0) /\
        (it_trans b = false ->
           extrude (set_cg ops arr (it_mesh a)) (it_mesh b) (it_res b) (it_method b) = Ok b0 /\
           ncM ops (set_cg ops arr (it_mesh a)) <> 0 /\
           ncB ops b0 = nsub * ncM ops (set_cg ops arr (it_mesh a)) /\
           blk = put_all ops (numbered_ids name (i + j) (n + list_sum (firstn j nsubs)) nsub
                   (ncM ops (set_cg ops arr (it_mesh a)))) b0)).
    { intros b0 g2 nsub blk Hn2 He2 [HT HF] H.
      destruct (gen_loop ops o name extrude transition (S i) (n + nsub) g2 i2 rest) as [[[bs1 g3] n2]|] eqn:Hg;
        [|discriminate]. cbn [bind] in H.
      apply Ok_inj in H. injection H as <- <- <-.
      destruct (IH _ _ _ _ _ _ _ Hn2 Hal' Hg) as (Hn3 & He3 & nsubs & Ln & Lb & En & HJ).
      assert (E13 : extends g1 g3) by (eapply extends_trans; eauto).
      split; [auto|split; [eapply extends_trans; eauto|]].
      exists (nsub :: nsubs). simpl length. split; [lia|split; [lia|split; [simpl; lia|]]].
      intros [|j] a b Ha Hb.
      - cbn [nth_error] in Ha, Hb. injection Ha as <-. injection Hb as <-.
        exists arr, groups, g1, b0, nsub, blk. cbn [nth_error firstn]. change (list_sum []) with 0.
        rewrite !Nat.add_0_r. repeat (split; [auto; fail|]). split.
        + intros T. destruct (HT T) as (T1 & T2 & T3). split; [exact T1|]. split; [exists g2; auto|exact T3].
        + exact HF.
      - cbn [nth_error] in Ha, Hb.
        destruct (HJ j a b Ha Hb) as (arr' & gj & gj1 & b' & ns & blk' & H1 & H2 & H3 & H4 & H5 & H6 & H7 & H8).
        exists arr', gj, gj1, b', ns, blk'.
        cbn [nth_error]. replace (i + S j) with (S i + j) by lia.
        replace (n + list_sum (firstn (S j) (nsub :: nsubs))) with (n + nsub + list_sum (firstn j nsubs))
          by (simpl; lia). auto 10. }
    destruct (it_trans i2) eqn:Ht2.
    + destruct (transition _ _ _ _) as [[b0 g2]|] eqn:Hx; [|discriminate]. cbn [bind].
      destruct (Htr _ _ _ _ _ _ Hn1 Hx) as (Hn2 & He2).
      destruct (Nat.eqb_spec (length (repeat (-1)%Z (ncB ops b0))) (ncB ops b0)) as [E1|E1];
        [|rewrite repeat_length in E1; congruence].
      destruct (Nat.eqb_spec (length (repeat_each (map Z.of_nat (seq n 1)) (ncB ops b0))) (ncB ops b0)) as [E2|];
        [|discriminate].
      cbn [andb negb seq map]. rewrite repeat_each_one.
      intros H. apply (Step b0 g2 1 (put_transition ops name i n b0) Hn2 He2); [|exact H]. split; [|discriminate].
      intros _. auto.
    + destruct (extrude _ _ _ _) as [b0|] eqn:Hx; [|discriminate]. cbn [bind].
      destruct (Nat.eqb_spec nc 0) as [|Hnc]; [discriminate|]. cbn [bind].
      set (nsub := ncB ops b0 / nc).
      destruct (Nat.eqb_spec (length (tile (map Z.of_nat (seq 0 nc)) nsub)) (ncB ops b0)) as [E1|]; [|discriminate].
      destruct (Nat.eqb_spec (length (repeat_each (map Z.of_nat (seq n nsub)) nc)) (ncB ops b0)) as [E2|]; [|discriminate].
      cbn [andb negb]. rewrite tile_length, map_length, seq_length in E1.
      intros H. apply (Step b0 g1 nsub _ Hn1 (extends_refl g1)) in H; [exact H|]. split; [discriminate|].
      intros _. split; [auto|]. split; [auto|]. split; [auto|].
      unfold put_all, numbered_ids. cbn [fold_left fst snd]. rewrite E1. reflexivity.
Qed.

(* ---- cutting with transitions ---- *)
Section Cut.
Context {M B : Type} (ops : mesh_ops M B) (Hops : lawful ops).

Lemma only_comp i j k : only_points ops i j -> only_points ops j k -> only_points ops i k.
Proof.
  intros (B1 & B2) (C1 & C2). destruct Hops as (Hg & Hs & Hss & _ & _). unfold only_points.
  split; [|intuition congruence]. rewrite C1 at 1. rewrite B1. apply Hss.
Qed.

Lemma cut_loop_sizes ax bu rest : forall i1 js,
  cut_loop ops ax bu i1 rest = Ok js ->
  Forall2 (fun i j => only_points ops i j /\ length (points ops j) = length (points ops i)) (i1 :: rest) js.
Proof.
  induction rest as [|i2 rest IH]; intros i1 js; simpl cut_loop.
  - intros <-%Ok_inj. constructor; [|constructor]. split; [apply only_points_refl, Hops|reflexivity].
  - destruct (cut_pair ops ax bu i1 i2) as [[j1 j2]|] eqn:Hc; [|discriminate]. cbn [bind].
    destruct (cut_loop ops ax bu j2 rest) as [js'|] eqn:Hl; [|discriminate]. cbn [bind].
    intros <-%Ok_inj. apply (cut_pair_inv ops Hops) in Hc as (O1 & O2 & T & F).
    assert (L : length (points ops j1) = length (points ops i1) /\ length (points ops j2) = length (points ops i2)).
    { destruct (it_trans i2); [destruct (T eq_refl) as [-> ->]; auto|].
      destruct (F eq_refl) as (_ & ? & ? & _); auto. }
    destruct L as [L1 L2]. specialize (IH _ _ Hl).
    constructor; [auto|]. inversion IH as [|? y ? ys (Hy & Ly) Hys]; subst. constructor; [|exact Hys].
    split; [eapply only_comp; eauto|congruence].
Qed.

(* C127: items on both sides of a transition are cut independently *)
Lemma cut_split ax bu t r2 r1 : forall i1, it_trans t = true ->
  cut_loop ops ax bu i1 (r1 ++ t :: r2) =
  let! a := cut_loop ops ax bu i1 r1 in let! b := cut_loop ops ax bu t r2 in Ok (a ++ b).
Proof.
  induction r1 as [|i2 r1 IH]; intros i1 Ht; cbn [app cut_loop].
  - unfold cut_pair at 1. rewrite Ht. cbn [bind]. destruct (cut_loop ops ax bu t r2); reflexivity.
  - destruct (cut_pair ops ax bu i1 i2) as [[j1 j2]|]; [|reflexivity]. cbn [bind].
    rewrite (IH _ Ht). destruct (cut_loop ops ax bu j2 r1); [|reflexivity]. cbn [bind].
    destruct (cut_loop ops ax bu t r2); reflexivity.
Qed.

Lemma cut_defined ax bu rest : forall i1,
  (forall j a b, nth_error (i1 :: rest) j = Some a -> nth_error rest j = Some b -> it_trans b = false ->
     length (points ops a) = length (points ops b)) ->
  exists js, cut_loop ops ax bu i1 rest = Ok js.
Proof.
  induction rest as [|i2 rest IH]; intros i1 H; simpl cut_loop; [eauto|].
  assert (exists p, cut_pair ops ax bu i1 i2 = Ok p) as [[j1 j2] Hc].
  { unfold cut_pair. destruct (it_trans i2) eqn:Et; [eauto|].
    specialize (H 0 i1 i2 eq_refl eq_refl Et). unfold points in H. rewrite H, Nat.eqb_refl. cbn [negb].
    destruct (_ <? _)%Z; eauto. }
  rewrite Hc; cbn [bind]. destruct (IH j2) as [js Hj]; [|rewrite Hj; cbn [bind]; eauto].
  apply (cut_pair_inv ops Hops) in Hc as (_ & O2 & T & F).
  intros [|j] a b Ha Hb Htb.
  - cbn in Ha. injection Ha as <-.
    destruct (it_trans i2) eqn:E.
    + destruct (T eq_refl) as [_ ->]. apply (H 1 i2 b eq_refl Hb Htb).
    + destruct (F eq_refl) as (_ & _ & -> & _). apply (H 1 i2 b eq_refl Hb Htb).
  - apply (H (S (S j)) a b Ha Hb Htb).
Qed.

Lemma cut_needs ax bu rest : forall i1 js, cut_loop ops ax bu i1 rest = Ok js ->
  forall j a b, nth_error (i1 :: rest) j = Some a -> nth_error rest j = Some b -> it_trans b = false ->
     length (points ops a) = length (points ops b).
Proof.
  induction rest as [|i2 rest IH]; intros i1 js; simpl cut_loop; [intros _ [|j] a b _ Hb; discriminate Hb|].
  destruct (cut_pair ops ax bu i1 i2) as [[j1 j2]|] eqn:Hc; [|discriminate]. cbn [bind].
  destruct (cut_loop ops ax bu j2 rest) as [js'|] eqn:Hl; [|discriminate]. cbn [bind].
  intros _. apply (cut_pair_inv ops Hops) in Hc as (_ & O2 & T & F).
  intros [|[|j]] a b Ha Hb Htb.
  - cbn in Ha, Hb. injection Ha as <-. injection Hb as <-. apply (F Htb).
  - cbn in Ha. injection Ha as <-. pose proof (IH _ _ Hl 0 j2 b eq_refl Hb Htb) as E. rewrite <- E.
    destruct (it_trans i2) eqn:Et; [destruct (T eq_refl) as [_ ->]; auto|].
    destruct (F eq_refl) as (_ & _ & -> & _). auto.
  - apply (IH _ _ Hl (S j) a b); auto.
Qed.

Lemma cut_err ax bu rest : forall i1 e, cut_loop ops ax bu i1 rest = Err e -> e = ValueError.
Proof.
  induction rest as [|i2 rest IH]; intros i1 e; simpl cut_loop; [discriminate|].
  unfold cut_pair. destruct (it_trans i2).
  - cbn [bind]. destruct (cut_loop ops ax bu i2 rest) eqn:E; [discriminate|]. cbn [bind].
    intros [= <-]. eauto.
  - destruct (negb _); [intros [= <-]; auto|].
    destruct (_ <? _)%Z; cbn [bind];
    match goal with |- context [cut_loop ?o ?a ?b ?i rest] => destruct (cut_loop o a b i rest) eqn:E end;
      cbn [bind]; try discriminate; intros [= <-]; eauto.
Qed.
End Cut.
