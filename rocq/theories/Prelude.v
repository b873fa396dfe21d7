(* Shared vocabulary: Python exceptions as values, lists as NumPy 1-D arrays. *)
From Coq Require Export String.
From Coq Require Export List Arith ZArith Lia Bool.
Export ListNotations.
Open Scope list_scope.
#[global] Open Scope nat_scope.
Notation length := List.length.

(* Python exception classes raised by the modelled code. *)
Inductive exn : Set :=
| ValueError | KeyError | IndexError | TypeError | NotImplementedError
| AttributeError | RecursionError | RuntimeError | ZeroDivisionError.

Inductive res (A : Type) : Type :=
| Ok (a : A)
| Err (e : exn).
Arguments Ok {A} a.
Arguments Err {A} e.

Definition bind {A B} (x : res A) (f : A -> res B) : res B :=
  match x with Ok a => f a | Err e => Err e end.

Declare Scope res_scope.
Delimit Scope res_scope with res.
Notation "'let!' x ':=' e 'in' f" := (bind e (fun x => f))
  (at level 200, x binder, right associativity) : res_scope.
#[global] Open Scope res_scope.

Fixpoint mapM {A B} (f : A -> res B) (l : list A) : res (list B) :=
  match l with
  | [] => Ok []
  | x :: l' => let! y := f x in let! ys := mapM f l' in Ok (y :: ys)
  end.

(* np.tile(v, n) on the first axis *)
Fixpoint tile {A} (v : list A) (n : nat) : list A :=
  match n with O => [] | S n' => v ++ tile v n' end.

(* np.repeat(v, n) on a 1-D array *)
Definition repeat_each {A} (v : list A) (n : nat) : list A :=
  flat_map (fun x => repeat x n) v.

(* a[mask] = x (boolean mask assignment of a scalar) *)
Fixpoint mask_set {A} (x : A) (mask : list bool) (l : list A) : list A :=
  match l, mask with
  | y :: l', b :: m' => (if b then x else y) :: mask_set x m' l'
  | l, _ => l
  end.

(* a[mask] *)
Fixpoint mask_get {A} (mask : list bool) (l : list A) : list A :=
  match l, mask with
  | y :: l', b :: m' => if b then y :: mask_get m' l' else mask_get m' l'
  | _, _ => []
  end.

Fixpoint map2 {A B C} (f : A -> B -> C) (l : list A) (m : list B) : list C :=
  match l, m with
  | x :: l', y :: m' => f x y :: map2 f l' m'
  | _, _ => []
  end.

(* l[i] = x for an in-range i *)
Fixpoint upd {A} (i : nat) (x : A) (l : list A) : list A :=
  match l, i with
  | [], _ => []
  | _ :: l', O => x :: l'
  | y :: l', S i' => y :: upd i' x l'
  end.

(* ---- lemmas ---- *)
Section ListLemmas.
Context {A B C : Type}.

Lemma nth_error_ext (l m : list A) :
  (forall i, nth_error l i = nth_error m i) -> l = m.
Proof.
  revert m; induction l as [|x l IH]; intros [|y m] H; auto.
  - specialize (H 0); discriminate.
  - specialize (H 0); discriminate.
  - f_equal; [specialize (H 0); simpl in H; congruence|].
    apply IH; intros i; apply (H (S i)).
Qed.

Lemma nth_error_nth_iff (l : list A) i x d :
  nth_error l i = Some x <-> i < length l /\ nth i l d = x.
Proof.
  split.
  - intros H; split; [apply nth_error_Some; congruence|].
    apply nth_error_nth; auto.
  - intros [H1 H2]; subst; apply nth_error_nth'; auto.
Qed.

Lemma tile_length (v : list A) n : length (tile v n) = n * length v.
Proof. induction n; simpl; auto; rewrite app_length; lia. Qed.

Lemma tile_nth_error (v : list A) n j i :
  j < n -> i < length v -> nth_error (tile v n) (j * length v + i) = nth_error v i.
Proof.
  revert j; induction n; intros j Hj Hi; [lia|].
  destruct j as [|j]; simpl.
  - apply nth_error_app1; auto.
  - rewrite nth_error_app2 by lia.
    replace (length v + j * length v + i - length v) with (j * length v + i) by lia.
    apply IHn; lia.
Qed.

Lemma repeat_each_length (v : list A) n : length (repeat_each v n) = length v * n.
Proof.
  unfold repeat_each; induction v; simpl; auto.
  rewrite app_length, repeat_length; lia.
Qed.

Lemma repeat_nth_error (x : A) n i : i < n -> nth_error (repeat x n) i = Some x.
Proof. revert i; induction n; intros [|i] H; simpl; auto; try lia; apply IHn; lia. Qed.

Lemma repeat_each_nth_error (v : list A) n j i :
  i < n -> nth_error (repeat_each v n) (j * n + i) = nth_error v j.
Proof.
  unfold repeat_each; revert j; induction v as [|x v IH]; intros j Hi; simpl.
  - destruct (j * n + i), j; reflexivity.
  - destruct j as [|j]; simpl.
    + rewrite nth_error_app1 by (rewrite repeat_length; auto).
      apply repeat_nth_error; auto.
    + rewrite nth_error_app2 by (rewrite repeat_length; lia).
      rewrite repeat_length.
      replace (n + j * n + i - n) with (j * n + i) by lia; auto.
Qed.

Lemma map2_length (f : A -> B -> C) l m :
  length (map2 f l m) = Nat.min (length l) (length m).
Proof. revert m; induction l; intros [|b m]; simpl; auto. Qed.

Lemma map2_nth_error (f : A -> B -> C) l m i :
  nth_error (map2 f l m) i =
  match nth_error l i, nth_error m i with
  | Some x, Some y => Some (f x y) | _, _ => None end.
Proof.
  revert m i; induction l as [|x l IH]; intros [|y m] [|i]; simpl; auto.
  - destruct (nth_error l i); auto.
Qed.

Lemma mask_set_length (x : A) mask l : length (mask_set x mask l) = length l.
Proof. revert mask; induction l; intros [|b m]; simpl; auto. Qed.

Lemma mask_set_nth_error (x : A) mask l i :
  length mask = length l ->
  nth_error (mask_set x mask l) i =
  match nth_error mask i with
  | Some true => Some x
  | _ => nth_error l i
  end.
Proof.
  revert mask i; induction l as [|y l IH]; intros [|b m] [|i] H; simpl in *; auto; try lia.
  destruct b; auto.
Qed.

Lemma upd_length i (x : A) l : length (upd i x l) = length l.
Proof. revert i; induction l; intros [|i]; simpl; auto. Qed.

Lemma upd_nth_error i (x : A) l j :
  nth_error (upd i x l) j =
  if (i =? j) && (j <? length l) then Some x else nth_error l j.
Proof.
  revert i j; induction l as [|y l IH]; intros [|i] [|j]; simpl; auto.
  - destruct (i =? j); auto.
  - rewrite IH; reflexivity.
Qed.

End ListLemmas.

Lemma nth_error_seq s n i :
  nth_error (seq s n) i = if i <? n then Some (s + i) else None.
Proof.
  destruct (Nat.ltb_spec i n) as [H|H].
  - apply (nth_error_nth_iff _ _ _ 0); rewrite seq_length, seq_nth; auto.
  - apply nth_error_None; rewrite seq_length; auto.
Qed.

Lemma mapM_Ok {A B} (f : A -> res B) l r :
  mapM f l = Ok r <-> Forall2 (fun x y => f x = Ok y) l r.
Proof.
  revert r; induction l as [|x l IH]; intros r; simpl; split; intros H.
  - injection H as <-; constructor.
  - inversion H; auto.
  - unfold bind in H.
    destruct (f x) as [y|] eqn:Hy; [|discriminate].
    destruct (mapM f l) as [ys|] eqn:Hys; [|discriminate].
    injection H as <-; constructor; auto; apply IH; auto.
  - inversion H as [|? y ? ys Hx Hl]; subst; rewrite Hx; simpl.
    apply IH in Hl; rewrite Hl; reflexivity.
Qed.

Lemma Ok_inj {A} (a b : A) : Ok a = Ok b -> a = b.
Proof. congruence. Qed.

Lemma Forall2_len {A B} (P : A -> B -> Prop) l m : Forall2 P l m -> length l = length m.
Proof. induction 1; simpl; auto. Qed.

Lemma Forall2_nth_error {A B} (P : A -> B -> Prop) l m i x :
  Forall2 P l m -> nth_error l i = Some x -> exists y, nth_error m i = Some y /\ P x y.
Proof.
  intros H; revert i; induction H; intros [|i] Hx; simpl in *; try discriminate.
  - injection Hx as <-; eauto.
  - auto.
Qed.
