From Coq Require Import Reals Lra Permutation.
From Verif Require Stack3_proof.
From Verif Require Import RealAux Grid Volume_spec Surface_spec Encl_spec Perc_model Stack_model Stack_spec Stack_proof Pile_model Pile_spec Pile2_spec Paint_spec Paint_proof Bulk_spec Bulk_proof.
Open Scope R_scope.

(* height of the node number L of a column *)
Fixpoint heights_at (percs : list (list R)) (out : list R) (L : nat) : R :=
  match percs, out with
  | perc :: ps, h :: ((h' :: _) as out') =>
      let n := (length perc - 1)%nat in
      if (L <=? n)%nat then h + nth L perc 0 * (h' - h) else heights_at ps out' (L - n)
  | _, _ => 0
  end.
Definition layers (percs : list (list R)) : list nat := map (fun p => (length p - 1)%nat) percs.

Lemma heights_block percs : forall out j perc k t h h', Forall whole percs -> Forall (fun p => (2 <= length p)%nat) percs -> length out = S (length percs) ->
  nth_error percs j = Some perc -> nth_error perc k = Some t -> nth_error out j = Some h -> nth_error out (S j) = Some h' ->
  heights_at percs out (list_sum (firstn j (layers percs)) + k) = h + t * (h' - h).
Proof.
  induction percs as [|p0 percs IH]; intros out j perc k t h h' HW H2 Lo Hp Hk Hh Hh'; [destruct j; discriminate|].
  destruct out as [|a [|b out]]; try discriminate. inversion HW as [|? ? W0 HW']; subst. inversion H2 as [|? ? L0 H2']; subst.
  assert (Hkl : (k < length perc)%nat) by (apply nth_error_Some; congruence).
  destruct j as [|j]; cbn [nth_error] in *.
  - injection Hp as <-. injection Hh as <-. injection Hh' as <-. cbn [firstn list_sum fold_right plus heights_at].
    destruct (Nat.leb_spec k (length p0 - 1)); [|lia]. now rewrite (nth_error_nth _ _ 0 Hk).
  - cbn [layers map firstn]. fold (layers percs). change (list_sum ((length p0 - 1)%nat :: firstn j (layers percs))) with ((length p0 - 1) + list_sum (firstn j (layers percs)))%nat.
    cbn [heights_at]. destruct (Nat.leb_spec ((length p0 - 1) + list_sum (firstn j (layers percs)) + k) (length p0 - 1)) as [Hle|Hlt].
    + assert (k = 0%nat) as -> by lia. assert (j = 0%nat) as ->.
      { destruct j as [|j]; [reflexivity|]. destruct percs as [|p1 percs]; [discriminate|]. inversion H2'; subst.
        cbn [layers map firstn] in Hle. change (list_sum ((length p1 - 1)%nat :: ?x)) with ((length p1 - 1) + list_sum x)%nat in Hle. lia. }
      cbn [nth_error] in Hh. injection Hh as <-. rewrite Nat.add_0_r. cbn [firstn list_sum fold_right]. rewrite Nat.add_0_r.
      destruct W0 as [_ W1]. rewrite (nth_error_nth _ _ 0 W1). assert (whole perc) as [W2 _].
      { rewrite Forall_forall in HW'. apply HW'. eapply nth_error_In. exact Hp. }
      rewrite W2 in Hk. injection Hk as <-. ring.
    + replace ((length p0 - 1) + list_sum (firstn j (layers percs)) + k - (length p0 - 1))%nat with (list_sum (firstn j (layers percs)) + k)%nat by lia.
      apply (IH (b :: out) j perc k t h h'); auto.
Qed.

Lemma heights_first percs out : Forall whole percs -> Forall (fun p => (2 <= length p)%nat) percs -> length out = S (length percs) -> (1 <= length percs)%nat ->
  heights_at percs out 0 = nth 0 out 0.
Proof.
  intros HW H2 L L1. destruct percs as [|p percs]; [cbn in L1; lia|]. destruct out as [|a [|b out]]; try discriminate.
  inversion HW as [|? ? [W0 _] _]; subst. pose proof (heights_block (p :: percs) (a :: b :: out) 0%nat p 0%nat 0 a b HW H2 L eq_refl W0 eq_refl eq_refl) as E.
  change (list_sum (firstn 0 (layers (p :: percs))) + 0)%nat with 0%nat in E. rewrite E. cbn. ring.
Qed.
Lemma heights_last percs out : Forall whole percs -> Forall (fun p => (2 <= length p)%nat) percs -> length out = S (length percs) -> (1 <= length percs)%nat ->
  heights_at percs out (list_sum (layers percs)) = nth (length percs) out 0.
Proof.
  intros HW H2 L L1. set (j := (length percs - 1)%nat).
  destruct (nth_error percs j) as [perc|] eqn:Ep; [|apply nth_error_None in Ep; lia].
  destruct (nth_error out j) as [h|] eqn:Eh; [|apply nth_error_None in Eh; lia].
  destruct (nth_error out (S j)) as [h'|] eqn:Eh'; [|apply nth_error_None in Eh'; lia].
  assert (whole perc) as [_ W1] by (rewrite Forall_forall in HW; apply HW; eapply nth_error_In; exact Ep).
  pose proof (heights_block percs out j perc _ 1 h h' HW H2 L Ep W1 Eh Eh') as E.
  assert (El : nth_error (layers percs) j = Some (length perc - 1)%nat) by (unfold layers; rewrite nth_error_map, Ep; reflexivity).
  assert (ES : list_sum (layers percs) = (list_sum (firstn j (layers percs)) + (length perc - 1))%nat).
  { rewrite <- (firstn_skipn j (layers percs)) at 1. rewrite list_sum_app. f_equal.
    assert (length (layers percs) = S j) by (unfold layers; rewrite map_length; lia).
    assert (exists x, skipn j (layers percs) = [x]) as [x Ex].
    { assert (length (skipn j (layers percs)) = 1%nat) by (rewrite skipn_length; lia). destruct (skipn j (layers percs)) as [|x [|]]; try discriminate. now exists x. }
    rewrite Ex. cbn. rewrite Nat.add_0_r. rewrite <- (firstn_skipn j (layers percs)), Ex in El. rewrite nth_error_app2 in El by (rewrite firstn_length; lia).
    rewrite firstn_length, Nat.min_l, Nat.sub_diag in El by lia. now injection El. }
  rewrite ES, E. assert (length percs = S j) as -> by lia. rewrite (nth_error_nth _ _ 0 Eh'). ring.
Qed.

(* the calls of a program *)
Section Calls.
Context (calls : list st_call) (nsubs : list nat) (Hl : call_layers (tl calls) nsubs) (Hreg : Forall regular_call (tl calls)) (L2 : (2 <= length calls)%nat).

Lemma calls_percs : exists percs, call_positions (tl calls) percs /\ nsubs = layers percs /\ Forall whole percs /\ Forall (fun p => (2 <= length p)%nat) percs /\
  length percs = (length calls - 1)%nat.
Proof.
  assert (E : exists percs, call_positions (tl calls) percs /\ nsubs = layers percs /\ Forall whole percs /\ Forall (fun p => (2 <= length p)%nat) percs /\
    length percs = length (tl calls)).
  { clear L2. unfold call_layers in Hl. revert Hl Hreg. generalize (tl calls) nsubs. clear nsubs. intros cs0 ns0 Hl0. induction Hl0 as [|c n cs ns (perc & Ep & ->) _ IH]; intros Hr.
    - exists []. repeat split; constructor.
    - inversion Hr as [|? ? ((perc' & Ep' & Lp & W0 & W1) & _) Hr']; subst. rewrite Ep in Ep'. injection Ep' as <-.
      destruct (IH Hr') as (percs & A & B & C & D & E). exists (perc :: percs). split; [constructor; assumption|]. cbn [layers map]. fold (layers percs).
      split; [now rewrite B|]. split; [constructor; [split; assumption|assumption]|]. split; [constructor; assumption|]. cbn. now rewrite E. }
  destruct E as (percs & A & B & C & D & E). exists percs. repeat (split; [assumption|]). rewrite E. destruct calls; cbn; lia.
Qed.

Lemma nodes_at percs out (Nd : nat -> R -> Prop) : call_positions (tl calls) percs -> nsubs = layers percs -> Forall whole percs ->
  Forall (fun p => (2 <= length p)%nat) percs -> length percs = (length calls - 1)%nat -> length out = length calls ->
  (forall j call perc k t h h', nth_error calls (S j) = Some call ->
     resolution_to_perc (ao_res (sc_opts call)) (ao_method (sc_opts call)) = Ok perc -> nth_error perc k = Some t ->
     (j = 0 \/ 0 < k)%nat -> nth_error out j = Some h -> nth_error out (S j) = Some h' ->
     Nd (list_sum (firstn j nsubs) + k)%nat (h + t * (h' - h))) ->
  forall L, (L <= list_sum nsubs)%nat -> Nd L (heights_at percs out L).
Proof.
  intros HP Hn HW H2 Lp Lo HN L HL.
  assert (HC : forall j perc, nth_error percs j = Some perc -> exists call, nth_error calls (S j) = Some call /\
    resolution_to_perc (ao_res (sc_opts call)) (ao_method (sc_opts call)) = Ok perc).
  { intros j perc Hj. destruct (Stack3_proof.Forall2_nth_error_r _ _ _ _ _ HP Hj) as (call & Hc & E). exists call. split; [|exact E]. destruct calls; [destruct j; discriminate|exact Hc]. }
  assert (HK : forall j k perc t, nth_error percs j = Some perc -> nth_error perc k = Some t -> (j = 0 \/ 0 < k)%nat ->
    Nd (list_sum (firstn j nsubs) + k)%nat (heights_at percs out (list_sum (firstn j nsubs) + k))).
  { intros j k perc t Hj Hk Hjk. destruct (HC j perc Hj) as (call & Hc & E).
    assert (j < length percs)%nat by (apply nth_error_Some; congruence).
    destruct (nth_error out j) as [h|] eqn:Eh; [|apply nth_error_None in Eh; lia].
    destruct (nth_error out (S j)) as [h'|] eqn:Eh'; [|apply nth_error_None in Eh'; lia].
    pose proof (HN j call perc k t h h' Hc E Hk Hjk Eh Eh') as HH. rewrite Hn in HH |- *.
    rewrite (heights_block percs out j perc k t h h' HW H2) by (auto; lia). exact HH. }
  destruct L as [|L].
  - destruct percs as [|p ps]; [cbn in Lp; lia|]. inversion HW as [|? ? [W0 _] _].
    exact (HK 0%nat 0%nat p 0 eq_refl W0 (or_introl eq_refl)).
  - destruct (layer_find nsubs L ltac:(lia)) as (j & Hj & Hlo & Hhi).
    assert (exists perc, nth_error percs j = Some perc) as [perc Ep].
    { destruct (nth_error percs j) eqn:E; [eauto|]. apply nth_error_None in E. rewrite Hn in Hj. unfold layers in Hj. rewrite map_length in Hj. lia. }
    assert (En : nth_error nsubs j = Some (length perc - 1)%nat) by (rewrite Hn; unfold layers; rewrite nth_error_map, Ep; reflexivity).
    assert (ES : list_sum (firstn (S j) nsubs) = (list_sum (firstn j nsubs) + (length perc - 1))%nat).
    { clear - En. revert nsubs En. induction j as [|j IH]; intros [|n ns] E; try discriminate; cbn [nth_error] in E.
      - injection E as ->. cbn. lia.
      - change (firstn (S (S j)) (n :: ns)) with (n :: firstn (S j) ns). change (firstn (S j) (n :: ns)) with (n :: firstn j ns).
        change (list_sum (n :: ?x)) with (n + list_sum x)%nat. rewrite (IH ns E). lia. }
    assert (Hpl : (2 <= length perc)%nat) by (rewrite Forall_forall in H2; apply H2; eapply nth_error_In; exact Ep).
    assert (Hk : (S L - list_sum (firstn j nsubs) < length perc)%nat) by lia.
    destruct (nth_error perc (S L - list_sum (firstn j nsubs))) as [t|] eqn:Et; [|apply nth_error_None in Et; lia].
    pose proof (HK j (S L - list_sum (firstn j nsubs))%nat perc t Ep Et ltac:(right; lia)) as HH.
    replace (list_sum (firstn j nsubs) + (S L - list_sum (firstn j nsubs)))%nat with (S L) in HH by lia. exact HH.
Qed.
End Calls.

(* quadrilaterals with two parallel sides *)
Lemma quad_area P d e a b c c' p q ha ha' hb hb' : P a = vadd p (scaled ha e) -> P c' = vadd p (scaled ha' e) -> P b = vadd q (scaled hb e) -> P c = vadd q (scaled hb' e) ->
  area_along P d [a; b; c; c'] = det3 (vsub q p) e d * ((ha' - ha) + (hb' - hb)).
Proof.
  intros E1 E2 E3 E4. unfold area_along. cbn [ring_edges pairs app fold_right]. rewrite E1, E2, E3, E4.
  destruct p as [[? ?] ?], q as [[? ?] ?], e as [[? ?] ?], d as [[? ?] ?]. cbn. ring.
Qed.
Definition base_height (ax : nat) (p : vec) : R := let '(x, y, z) := p in match ax with 0%nat => x | 1%nat => y | _ => z end.
Lemma at_height_shift ax p h : (ax <= 2)%nat -> at_height ax p h = vadd p (scaled (h - base_height ax p) (unit_axis ax)).
Proof. intros Hax. destruct p as [[x y] z]. destruct ax as [|[|[|]]]; [| | |lia]; cbn; f_equal; try f_equal; ring. Qed.
Lemma telescope (F : nat -> R) n : sum_list (map (fun l => F (S l) - F l) (seq 0 n)) = F n - F 0%nat.
Proof. induction n as [|n IH]; [unfold sum_list; cbn; ring|]. rewrite seq_S, map_app, sum_list_app, IH. unfold sum_list. cbn. ring. Qed.
Lemma sum_list_scale {A} k (f : A -> R) l : sum_list (map (fun x => k * f x) l) = k * sum_list (map f l).
Proof. unfold sum_list. induction l as [|x l IH]; cbn; [ring|]. rewrite IH. ring. Qed.
Lemma sum_list_plus {A} (f g : A -> R) l : sum_list (map (fun x => f x + g x) l) = sum_list (map f l) + sum_list (map g l).
Proof. unfold sum_list. induction l as [|x l IH]; cbn; [ring|]. rewrite IH. ring. Qed.
