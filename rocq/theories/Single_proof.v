From Coq Require Import Reals Lra Lia Sorted.
From Verif Require Import Prelude RealAux Perc_model Surface_model Volume_model Lines_model Objects_model Cast_model Cast_spec Cast1_proof Cast2_proof Cast3_proof.
Open Scope R_scope.

Lemma single_through {F} (o : oracles F) ml tol ia lid final b last t cid x f : length (sides o f) = 1%nat -> ml <= norm (sub3 x last) ->
  through o ml tol ia lid final b last t cid x f = Err TypeError.
Proof.
  intros H1 H2. unfold through. rewrite H1. cbn [Nat.eqb]. unfold Rltb. destruct (Rlt_dec _ _); [lra|reflexivity].
Qed.

Theorem single_cell {F} (o : oracles F) ml tol (ia ib : bool) fuel a b pts c hits :
  (forall f, length (sides o f) = 1%nat) -> first_cell o a b = Some c -> cast o c a b = Some hits ->
  (length hits = 1 \/ length hits = 2)%nat ->
  (forall x f, In (x, f) hits -> ml <= norm (sub3 x (last (b :: pts) origin))) ->
  crossings o ml tol ia (S fuel) ib (a :: b :: pts) = Some (Err TypeError).
Proof.
  intros Hs Hf Hc Hn Hd. unfold crossings. 
  change (last (a :: b :: pts) origin) with (last (b :: pts) origin). set (l := last (b :: pts) origin) in *. set (n := (length (a :: b :: pts) - 1)%nat).
  cbn [segments tr_cell]. rewrite Hf. cbn [move tr_out negb]. cbn [walk].
  set (t := move c (mkT [a] [] [] false false 0 None)). 
  assert (E : turn o ml tol ia 0 (1 =? n)%nat a b l t = Err TypeError); [|rewrite E; reflexivity].
  unfold turn. change (tr_cell t) with (Some c). cbv iota. rewrite Hc. 
  destruct hits as [|[x f] [|[y g] [|]]]; cbn [length] in Hn; try lia; change (tr_in t) with false; cbn [negb].
  - assert (C : (1 <? tr_count (add_point tol ml (enter (counted t)) x 0 (-1)))%nat = false) by (unfold add_point; repeat (match goal with |- context [if ?b then _ else _] => destruct b end); reflexivity).
    cbn zeta. rewrite C. apply single_through; [apply Hs|]. apply (Hd x f). now left.
  - cbn zeta. match goal with |- (if ?b then _ else _) = _ => destruct b end; apply single_through; try apply Hs; [apply (Hd x f)|apply (Hd y g)]; cbn; auto.
Qed.

(* ---- one cell between the planes x = x0 and x = x1 ---- *)
Lemma Rleb_yes x y : x <= y -> Rleb x y = true.
Proof. intros H. unfold Rleb. destruct (Rle_dec x y); [reflexivity|contradiction]. Qed.
Lemma norm_line x y : norm (sub3 (px x) (px y)) = Rabs (x - y).
Proof. apply norm_px. Qed.

Theorem single_row ml tol (ia ib : bool) fuel x0 x1 a b : a < x0 -> x0 < x1 -> x1 < b -> ml <= b - x1 ->
  crossings (row [x0; x1]) ml tol ia (S fuel) ib [px a; px b] = Some (Err TypeError) /\
  forall D (data : list (string * list D)) pass, intersect_polyline (row [x0; x1]) ml tol ia (S fuel) ib pass (0, 0, 0) [[px a; px b]] data = Some (Err TypeError).
Proof.
  intros H1 H2 H3 H4.
  assert (E : crossings (row [x0; x1]) ml tol ia (S fuel) ib [px a; px b] = Some (Err TypeError)).
  { apply single_cell with (c := 0%Z) (hits := [(px x0, 0%nat); (px x1, 1%nat)]).
    - intros f. reflexivity.
    - unfold first_cell. cbn [find row length Nat.sub seq filter bound nth]. change (coord 0 (px a)) with a. change (coord 0 (px b)) with b.
      unfold meets. rewrite Rmax_right, Rmin_left by lra. rewrite !Rleb_yes by lra. reflexivity.
    - cbn [cast row]. change (Z.to_nat 0) with 0%nat. cbn [filter bound nth]. change (coord 0 (px a)) with a. change (coord 0 (px b)) with b.
      unfold meets. rewrite Rmax_right, Rmin_left by lra. rewrite !Rleb_yes by lra. reflexivity.
    - now right.
    - intros x f [H|[H|[]]]; injection H as <- <-; cbn [last]; rewrite norm_line; rewrite Rabs_left by lra; lra. }
  split; [exact E|]. intros D data pass. unfold intersect_polyline. cbn [map]. 
  assert (Z : forall x, sub3 (px x) (0, 0, 0) = px x) by (intros x; unfold sub3, px; f_equal; [f_equal|]; ring).
  rewrite !Z, E. reflexivity.
Qed.
