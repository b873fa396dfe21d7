From Coq Require Import Reals Lra Permutation.
From Verif Require Import RealAux Volume_spec Surface_spec Encl_spec Sweep_spec Sweep2_spec Paint_spec Paint_proof Bulk_spec Bulk_proof.
From Verif Require Lines5_proof.
Open Scope R_scope.

Lemma column_map (place : list (nat * nat * nat)) (vol : nat * nat * nat -> R) c :
  column_volume place (map vol place) c = sum_list (map vol (filter (fun p => Nat.eqb (snd p) c) place)).
Proof.
  unfold column_volume. f_equal. induction place as [|p place IH]; [reflexivity|]. cbn [map combine filter fst].
  destruct (Nat.eqb (snd p) c); cbn [map snd]; now rewrite IH.
Qed.

Section Columns.
Context (percs : list (list R)) (nc : nat) (place : list (nat * nat * nat)) (HC : columns nc percs place).

Definition column_places (c : nat) : list (nat * nat * nat) :=
  flat_map (fun j => map (fun l => (j, l, c)) (seq 0 (length (nth j percs []) - 1))) (seq 0 (length percs)).

Lemma column_perm c : (c < nc)%nat -> Permutation (filter (fun p => Nat.eqb (snd p) c) place) (column_places c).
Proof.
  intros Hc. destruct HC as [HN HP]. apply NoDup_Permutation.
  - now apply NoDup_filter.
  - unfold column_places. generalize (seq_NoDup (length percs) 0). induction (seq 0 (length percs)) as [|j js IH]; intros Hn; [constructor|].
    inversion Hn; subst. cbn [flat_map]. apply Lines5_proof.NoDup_app.
    + apply FinFun.Injective_map_NoDup; [intros x y E; congruence|apply seq_NoDup].
    + now apply IH.
    + intros p H1' H2'. apply in_map_iff in H1' as (x & <- & _). apply in_flat_map in H2' as (j' & Hj & Hin).
      apply in_map_iff in Hin as (x' & E & _). congruence.
  - intros [[j l] c']. rewrite filter_In, HP. cbn [snd]. unfold column_places. rewrite in_flat_map. split.
    + intros [(perc & E & Hl & _) Hcc]. apply Nat.eqb_eq in Hcc. subst c'. exists j.
      split; [apply in_seq; split; [lia|]; apply nth_error_Some; congruence|]. rewrite (nth_error_nth _ _ _ E).
      apply in_map_iff. exists l. split; [reflexivity|]. apply in_seq. lia.
    + intros (j' & Hj & Hin). apply in_map_iff in Hin as (l' & [= <- <- <-] & Hl). apply in_seq in Hj, Hl. split; [|apply Nat.eqb_refl].
      destruct (nth_error percs j') as [perc|] eqn:E; [|apply nth_error_None in E; lia]. rewrite (nth_error_nth _ _ _ E) in Hl.
      exists perc. split; [reflexivity|]. split; [lia|exact Hc].
Qed.

Context (W : nat -> R) (Hw : Forall whole percs).
Lemma layers_sum perc w : whole perc -> sum_list (map (fun l => (nth (S l) perc 0 - nth l perc 0) * w) (seq 0 (length perc - 1))) = w.
Proof.
  intros [H0 H1].
  assert (E : forall n, sum_list (map (fun l => (nth (S l) perc 0 - nth l perc 0) * w) (seq 0 n)) = (nth n perc 0 - nth 0 perc 0) * w).
  { induction n as [|n IH]; [unfold sum_list; cbn; ring|]. rewrite seq_S, map_app, sum_list_app, IH. unfold sum_list. cbn [map fold_right plus]. ring. }
  rewrite E, (nth_error_nth _ _ 0 H0), (nth_error_nth _ _ 0 H1). ring.
Qed.
Lemma column_sum c : (c < nc)%nat ->
  sum_list (map (fun p => let '(j, l, _) := p in (nth (S l) (nth j percs []) 0 - nth l (nth j percs []) 0) * W j) (filter (fun p => Nat.eqb (snd p) c) place)) =
  sum_list (map W (seq 0 (length percs))).
Proof.
  intros Hc. rewrite (sum_list_perm _ _ (Permutation_map _ (column_perm c Hc))). unfold column_places.
  assert (Hj : forall j, In j (seq 0 (length percs)) -> whole (nth j percs [])).
  { intros j Hj. apply in_seq in Hj. rewrite Forall_forall in Hw. apply Hw. apply nth_In. lia. }
  induction (seq 0 (length percs)) as [|j js IH]; [reflexivity|]. cbn [flat_map]. rewrite map_app, sum_list_app, IH by (intros; apply Hj; now right).
  rewrite map_map. rewrite layers_sum by (apply Hj; now left). reflexivity.
Qed.
End Columns.

(* linearity *)
Lemma volume_above_sum P e (H : nat -> nat -> R) ring n :
  sum_list (map (fun j => volume_above P e (H j) ring) (seq 0 n)) = volume_above P e (fun u => sum_list (map (fun j => H j u) (seq 0 n))) ring.
Proof.
  assert (E0 : forall a ring, columns_above P e (fun _ => 0) a ring = 0).
  { intros a. induction ring0 as [|b [|c r] IH]; try reflexivity.
    change (columns_above P e (fun _ => 0) a (b :: c :: r)) with (turn P e a b c / 2 * ((0 + 0 + 0) / 3) + columns_above P e (fun _ => 0) a (c :: r)).
    rewrite IH. field. }
  assert (E1 : forall F G a ring, columns_above P e (fun u => F u + G u) a ring = columns_above P e F a ring + columns_above P e G a ring).
  { intros F G a. induction ring0 as [|b [|c r] IH]; try (cbn; ring).
    change (columns_above P e ?X a (b :: c :: r)) with (turn P e a b c / 2 * ((X a + X b + X c) / 3) + columns_above P e X a (c :: r)).
    cbv beta. rewrite IH. field. }
  induction n as [|n IH].
  - cbn [seq map]. unfold sum_list. cbn. destruct ring as [|a r]; [reflexivity|]. cbn [volume_above]. now rewrite E0.
  - rewrite seq_S, map_app, sum_list_app, IH. cbn [map plus]. destruct ring as [|a r]; [unfold sum_list; cbn; ring|]. cbn [volume_above].
    assert (S1 : forall x, sum_list [x] = x) by (intros; unfold sum_list; cbn; ring). rewrite S1, <- E1.
    assert (HE : forall F G, (forall u, F u = G u) -> columns_above P e F a r = columns_above P e G a r).
    { intros F G HFG. clear - HFG. induction r as [|b [|c r] IH]; try reflexivity.
      change (columns_above P e ?X a (b :: c :: r)) with (turn P e a b c / 2 * ((X a + X b + X c) / 3) + columns_above P e X a (c :: r)).
      cbv beta. rewrite IH. now rewrite !HFG. }
    apply HE. intros u. rewrite map_app, sum_list_app. cbn [map]. now rewrite S1.
Qed.

Lemma volume_above_ext P e F G ring : (forall u, F u = G u) -> volume_above P e F ring = volume_above P e G ring.
Proof.
  intros HFG. destruct ring as [|a r]; [reflexivity|]. cbn [volume_above]. induction r as [|b [|c r] IH]; try reflexivity.
  change (columns_above P e F a (b :: c :: r)) with (turn P e a b c / 2 * ((F a + F b + F c) / 3) + columns_above P e F a (c :: r)).
  change (columns_above P e G a (b :: c :: r)) with (turn P e a b c / 2 * ((G a + G b + G c) / 3) + columns_above P e G a (c :: r)).
  rewrite IH. now rewrite !HFG.
Qed.

Lemma area_vsum P vs ring : sum_list (map (fun v => area_along P v ring / 2) vs) = area_along P (vsum vs) ring / 2.
Proof.
  unfold area_along. induction vs as [|v vs IH].
  - cbn [map vsum fold_right]. unfold sum_list. cbn [fold_right]. induction (ring_edges ring) as [|[a b] es IHe]; cbn [fold_right]; [field|].
    match goal with |- 0 = (_ + ?A) / 2 => assert (EA : A = 0) by lra; rewrite EA; clear end.
    unfold det3. destruct (P a) as [[? ?] ?], (P b) as [[? ?] ?]. field.
  - cbn [map]. unfold sum_list in *. cbn [fold_right]. rewrite IH. unfold vsum. cbn [fold_right]. fold (vsum vs).
    destruct v as [[? ?] ?]. destruct (vsum vs) as [[? ?] ?]. clear. induction (ring_edges ring) as [|[a b] es IHe]; cbn [fold_right]; [field|].
    match goal with |- (_ + ?A) / 2 + (_ + ?B) / 2 = (_ + ?C) / 2 => assert (EC : C = A + B) by lra; rewrite EC; clear; generalize A B end.
    intros A B. unfold det3. destruct (P a) as [[? ?] ?], (P b) as [[? ?] ?]. field.
Qed.
