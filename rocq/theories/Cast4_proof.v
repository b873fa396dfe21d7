From Coq Require Import Reals Lra Lia Sorted Permutation.
From Verif Require Import Prelude RealAux Perc_model Surface_model Volume_model Lines_model Objects_model Cast_model Cast_spec Cast1_proof Cast2_proof Cast3_proof.
Open Scope R_scope.
Local Notation norm := Objects_model.norm.

(* evaluation on a row of cells *)
Lemma coord_px x : coord 0 (px x) = x.
Proof. reflexivity. Qed.
Ltac num := unfold Rabs, Rmax, Rmin; repeat (destruct Rcase_abs || destruct Rle_dec); lra.
Ltac decide1 :=
  match goal with
  | |- context [Rleb ?x ?y] => (rewrite (Rleb_t x y) by num) || (rewrite (Rleb_f x y) by num)
  | |- context [Rltb ?x ?y] => (rewrite (Rltb_t x y) by num) || (rewrite (Rltb_f x y) by num)
  end.
Ltac ev1 := cbn -[Rleb Rltb Rabs Rmax Rmin Objects_model.norm sub3 px close meets IZR Rplus Rminus Rmult Rinv Rdiv coord
    turn through add_point nearest];
  change (Pos.to_nat 1) with 1%nat; change (Pos.to_nat 2) with 2%nat; change (Pos.to_nat 3) with 3%nat;
  rewrite ?coord_px, ?norm_px; rewrite ?close_px by lra; unfold meets, close1; repeat decide1.
Ltac ev := repeat (progress ev1).
Ltac ev_first :=
  match goal with |- context [first_cell ?o ?a ?b] =>
    let r := fresh "r" in let E := fresh "E" in
    evar (r : option Z); assert (E : first_cell o a b = r) by (unfold first_cell; ev; unfold nearest; ev; subst r; reflexivity);
    rewrite E; subst r; clear E; cbn [segments walk tr_cell move tr_out negb] end.
Ltac ev_turn :=
  cbn [walk];
  match goal with |- context [turn ?o ?ml ?tol ?ia ?l ?f ?a ?b ?c ?t] =>
    let r := fresh "r" in let E := fresh "E" in
    evar (r : res (bool * trail));
    assert (E : turn o ml tol ia l f a b c t = r) by
      (unfold turn; ev; unfold through; ev; unfold add_point, last_pt; ev; subst r; reflexivity);
    rewrite E; subst r; clear E end.
Ltac start := unfold crossings; cbn [length Nat.sub last segments tr_cell].


(* C121 *)
Lemma start_inside : crossings (row [0; 1; 2]) (/ 10000) (/ 100000000) false 1 false [px (/ 2); px (3 / 2)] =
  Some (Ok ([px (/ 2); px 1; px (3 / 2)], [0; 0]%nat, [-1; 1]%Z)).
Proof. start. ev_first. ev_turn. reflexivity. Qed.

Lemma end_first : crossings (row [0; 1; 2]) (/ 10000) (/ 100000000) false 1 false [px (-1); px (/ 2)] =
  Some (Ok ([px (-1); px 0; px (/ 2)], [0; 0]%nat, [-1; -1]%Z)).
Proof. start. ev_first. ev_turn. reflexivity. Qed.

(* C123 *)
Lemma start_boundary : crossings (row [0; 1; 2]) (/ 10000) (/ 100000000) false 1 true [px 0; px (3 / 2)] =
  Some (Ok ([px 1; px (3 / 2)], [0]%nat, [1]%Z)).
Proof. start. ev_first. ev_turn. reflexivity. Qed.

(* C124 *)
Lemma inside_one : crossings (row [0; 2]) (/ 10000) (/ 100000000) false 1 false [px (/ 2); px (3 / 2)] =
  Some (Ok ([px (/ 2)], [], [])).
Proof. start. ev_first. ev_turn. reflexivity. Qed.

(* C125: two cells, one of them thinner than min_length, each in turn *)
Definition thin : list R := [0; 1; 1 + / 20000; 2].
Definition at_cell (c : Z) : trail := mkT [px (-1); px 0; px 1] [0; 0]%nat [-1; 0]%Z true false 1 (Some c).
Notation thin_turn t := (turn (row thin) (/ 10000) (/ 100000000) false 0 false (px (-1)) (px (3 / 2)) (px 3) t).

Lemma thin_first : thin_turn (mkT [px (-1)] [] [] false false 0 (Some 0%Z)) = Ok (true, at_cell 1).
Proof. unfold thin. ev_turn. reflexivity. Qed.
Lemma thin_there : thin_turn (at_cell 1) = Ok (true, at_cell 2).
Proof. unfold thin, at_cell. ev_turn. reflexivity. Qed.
Lemma thin_back : thin_turn (at_cell 2) = Ok (true, at_cell 1).
Proof. unfold thin, at_cell. ev_turn. reflexivity. Qed.

Lemma thin_forever fuel : crossings (row thin) (/ 10000) (/ 100000000) false fuel false [px (-1); px (3 / 2); px 3] = None.
Proof.
  start. unfold thin. ev_first. fold thin. cbn [Nat.eqb Z.of_nat].
  assert (W : walk (row thin) (/ 10000) (/ 100000000) false fuel 0 false (px (-1)) (px (3 / 2)) (px 3)
    (mkT [px (-1)] [] [] false false 0 (Some 0%Z)) = None).
  { destruct fuel as [|fuel]; [reflexivity|]. cbn [walk]. rewrite thin_first.
    assert (L : forall f, walk (row thin) (/ 10000) (/ 100000000) false f 0 false (px (-1)) (px (3 / 2)) (px 3) (at_cell 1) = None /\
      walk (row thin) (/ 10000) (/ 100000000) false f 0 false (px (-1)) (px (3 / 2)) (px 3) (at_cell 2) = None).
    { induction f as [|f [IH1 IH2]]; [split; reflexivity|]. cbn [walk]. rewrite thin_there, thin_back. now split. }
    apply L. }
  unfold move. cbn [tr_pts tr_lines tr_cells tr_in tr_out tr_count]. rewrite W. reflexivity.
Qed.

(* a line that meets no cell *)
Section miss.
Context {F : Type}.
Variables (o : oracles F) (ml tol : R) (ia : bool).

Lemma far_close p q : far tol p q -> close tol p q = false.
Proof.
  destruct p as [[x y] z], q as [[x' y'] z']. unfold far, close, close1. intros [H|[H|H]]; rewrite (Rleb_f (Rabs _) _ H); rewrite ?andb_false_r; reflexivity.
Qed.

Lemma segments_cons fuel n lid last t a b ps : tr_cell t = None -> find o a b = [] ->
  segments o ml tol ia fuel n lid last t (a :: b :: ps) = segments o ml tol ia fuel n (S lid) last (add_point tol ml t b lid (-1)%Z) (b :: ps).
Proof. intros Hc Hf. transitivity (match match tr_cell t with Some c => Some c | None => first_cell o a b end with
   | None => segments o ml tol ia fuel n (S lid) last (add_point tol ml t b lid (-1)%Z) (b :: ps)
   | Some c => segments o ml tol ia fuel n lid last t (a :: b :: ps) end).
  - destruct (match tr_cell t with Some c => Some c | None => first_cell o a b end) eqn:E; [reflexivity|]. cbn [segments]. now rewrite E.
  - rewrite Hc. unfold first_cell. now rewrite Hf.
Qed.

Lemma miss_segments fuel n last : forall ps lid t,
  (forall k a b, nth_error ps k = Some a -> nth_error ps (S k) = Some b -> find o a b = [] /\ far tol a b) ->
  tr_cell t = None -> tr_in t = false -> match ps with [] => True | p :: _ => last_pt t = p end ->
  segments o ml tol ia fuel n lid last t ps =
  Some (Ok (mkT (tr_pts t ++ tl ps) (tr_lines t ++ seq lid (length ps - 1)) (tr_cells t ++ repeat (-1)%Z (length ps - 1)) false (tr_out t) (tr_count t) None)).
Proof.
  induction ps as [|a ps IH]; intros lid t H Hc Hi Hl.
  - cbn. rewrite !app_nil_r. destruct t; cbn in *. now subst.
  - destruct ps as [|b ps].
    + cbn. rewrite !app_nil_r. destruct t; cbn in *. now subst.
    + destruct (H 0%nat a b eq_refl eq_refl) as [Hf Hcl]. apply far_close in Hcl.
      rewrite segments_cons by assumption. rewrite IH.
      * unfold add_point. rewrite Hl, Hcl, Hi. cbn [negb orb tr_pts tr_lines tr_cells tr_out tr_count tl length Nat.sub].
        rewrite ?Nat.sub_0_r, <- !app_assoc. reflexivity.
      * intros k. exact (H (S k)).
      * destruct (add_flags ml tol t b lid (-1)%Z) as (_ & _ & _ & E). now rewrite E.
      * destruct (add_flags ml tol t b lid (-1)%Z) as (E & _). now rewrite E.
      * unfold add_point. rewrite Hl, Hcl, Hi. apply last_last.
Qed.

Lemma miss_crossings fuel ib pts : pts <> [] ->
  (forall k a b, nth_error pts k = Some a -> nth_error pts (S k) = Some b -> find o a b = [] /\ far tol a b) ->
  crossings o ml tol ia fuel ib pts = Some (Ok (pts, seq 0 (length pts - 1), repeat (-1)%Z (length pts - 1))).
Proof.
  intros Hn H. unfold crossings. destruct pts as [|p ps]; [contradiction|].
  rewrite miss_segments by auto. cbn [tr_pts tr_lines tr_cells tr_count tl app].
  replace (if ib then 0%nat else 0%nat) with 0%nat by now destruct ib. reflexivity.
Qed.
End miss.
