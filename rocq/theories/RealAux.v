(* Real-number helpers: boolean comparisons, sorting (np.sort), log10. *)
From Coq Require Export Reals Lra Permutation Sorted.
From Verif Require Export Prelude.
Open Scope R_scope.

Definition Rleb (x y : R) : bool := if Rle_dec x y then true else false.
Definition Rltb (x y : R) : bool := if Rlt_dec x y then true else false.
Definition Reqb (x y : R) : bool := if Req_EM_T x y then true else false.

Lemma Rleb_spec x y : reflect (x <= y) (Rleb x y).
Proof. unfold Rleb; destruct (Rle_dec x y); constructor; auto. Qed.
Lemma Rltb_spec x y : reflect (x < y) (Rltb x y).
Proof. unfold Rltb; destruct (Rlt_dec x y); constructor; auto. Qed.
Lemma Reqb_spec x y : reflect (x = y) (Reqb x y).
Proof. unfold Reqb; destruct (Req_EM_T x y); constructor; auto. Qed.

(* np.sort: any correct sorting algorithm gives the same array; insertion sort *)
Fixpoint rinsert (x : R) (l : list R) : list R :=
  match l with
  | [] => [x]
  | y :: l' => if Rleb x y then x :: l else y :: rinsert x l'
  end.
Fixpoint np_sort (l : list R) : list R :=
  match l with [] => [] | x :: l' => rinsert x (np_sort l') end.

Definition log10 (x : R) : R := ln x / ln 10.

Lemma rinsert_perm x l : Permutation (x :: l) (rinsert x l).
Proof.
  induction l as [|y l IH]; simpl; auto.
  destruct (Rleb x y); auto.
  rewrite <- IH; apply perm_swap.
Qed.

Lemma np_sort_perm l : Permutation l (np_sort l).
Proof.
  induction l as [|x l IH]; simpl; auto.
  rewrite <- rinsert_perm; auto.
Qed.

Lemma rinsert_sorted x l : StronglySorted Rle l -> StronglySorted Rle (rinsert x l).
Proof.
  induction l as [|y l IH]; intros H; simpl.
  - repeat constructor.
  - destruct (Rleb_spec x y) as [Hxy|Hxy].
    + constructor; auto. constructor; auto.
      inversion H; subst. eapply Forall_impl; [|eassumption]. intros; simpl in *; lra.
    + inversion H as [|? ? Hs Hf]; subst.
      constructor; auto.
      rewrite Forall_forall in *; intros z Hz.
      apply Permutation_in with (l' := x :: l) in Hz; [|symmetry; apply rinsert_perm].
      destruct Hz as [<-|Hz]; [lra|auto].
Qed.

Lemma np_sort_sorted l : StronglySorted Rle (np_sort l).
Proof.
  induction l; simpl; [constructor|apply rinsert_sorted; auto].
Qed.

Lemma sorted_perm_unique l m :
  StronglySorted Rle l -> StronglySorted Rle m -> Permutation l m -> l = m.
Proof.
  revert m; induction l as [|x l IH]; intros m Hl Hm Hp.
  - apply Permutation_nil in Hp; auto.
  - destruct m as [|y m]; [symmetry in Hp; apply Permutation_nil in Hp; discriminate|].
    inversion Hl as [|? ? Hl1 Hl2]; inversion Hm as [|? ? Hm1 Hm2]; subst.
    rewrite Forall_forall in Hl2, Hm2.
    assert (x = y) as <-.
    { assert (In y (x :: l)) as [->|Hy] by (eapply Permutation_in; [symmetry; eauto|left; auto]); auto.
      assert (In x (y :: m)) as [->|Hx] by (eapply Permutation_in; [eauto|left; auto]); auto.
      apply Rle_antisym; auto. }
    f_equal; apply IH; auto.
    eapply Permutation_cons_inv; eauto.
Qed.

Lemma np_sort_id l : StronglySorted Rle l -> np_sort l = l.
Proof.
  intros H; apply sorted_perm_unique; auto.
  - apply np_sort_sorted.
  - symmetry; apply np_sort_perm.
Qed.

Lemma sorted_of_nth (l : list R) :
  (forall i j, (i < j < length l)%nat -> nth i l 0 <= nth j l 0) -> StronglySorted Rle l.
Proof.
  induction l as [|x l IH]; intros H; constructor.
  - apply IH; intros i j Hij. apply (H (S i) (S j)); simpl; lia.
  - apply Forall_forall; intros y Hy.
    destruct (In_nth _ _ 0 Hy) as (i & Hi & <-).
    apply (H 0%nat (S i)); simpl; lia.
Qed.

Lemma np_sort_length l : length (np_sort l) = length l.
Proof. apply Permutation_length; symmetry; apply np_sort_perm. Qed.

Lemma log10_1 : log10 1 = 0.
Proof. unfold log10; rewrite ln_1; unfold Rdiv; ring. Qed.
Lemma ln10_pos : 0 < ln 10.
Proof. rewrite <- ln_1; apply ln_increasing; lra. Qed.
Lemma log10_10 : log10 10 = 1.
Proof. unfold log10; field; pose proof ln10_pos; lra. Qed.
Lemma log10_lt x y : 0 < x -> x < y -> log10 x < log10 y.
Proof.
  intros; unfold log10, Rdiv. apply Rmult_lt_compat_r.
  - apply Rinv_0_lt_compat, ln10_pos.
  - apply ln_increasing; auto.
Qed.
Lemma log10_sub x y : 0 < x -> 0 < y -> log10 x - log10 y = log10 (x / y).
Proof.
  intros; unfold log10, Rdiv. rewrite <- Rmult_minus_distr_r.
  f_equal. rewrite ln_mult, ln_Rinv; auto. apply Rinv_0_lt_compat; auto.
Qed.
