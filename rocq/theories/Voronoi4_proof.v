(* The polygonal mesh of a Voronoi diagram. *)
From Coq Require Import Reals Permutation Sorted Lra.
From Verif Require Import Prelude Groups_model Groups_spec Groups_proof Surface_model.
From Verif Require Import Volume_spec Lines_spec Lines_model Lines1_proof Lines5_proof Topo_proof Topo2_proof Topo5_proof Polygon2_proof Polygon3_proof.
From Verif Require Import Voronoi_model Voronoi_spec Voronoi1_proof Voronoi2_proof Voronoi3_proof.
Open Scope nat_scope.

(* ---- orientation ---- *)
Lemma orient_same ori l : same_outline l (orient ori l).
Proof. unfold orient, same_outline. destruct (_ || _); auto. Qed.

Lemma orient_length ori l : length (orient ori l) = length l.
Proof. destruct (orient_same ori l) as [->| ->]; [reflexivity|apply rev_length]. Qed.

Lemma shoelace_snoc l a b : open_shoelace (l ++ [a; b]) = (open_shoelace (l ++ [a]) + (fst a * snd b - fst b * snd a))%R.
Proof.
  induction l as [|x l IH]; [cbn; ring|]. destruct l as [|y l]; [cbn; ring|].
  change ((x :: y :: l) ++ [a; b]) with (x :: (y :: l) ++ [a; b]).
  change ((x :: y :: l) ++ [a]) with (x :: (y :: l) ++ [a]).
  change (open_shoelace (x :: (y :: l) ++ [a; b])) with (fst x * snd y - fst y * snd x + open_shoelace ((y :: l) ++ [a; b]))%R.
  change (open_shoelace (x :: (y :: l) ++ [a])) with (fst x * snd y - fst y * snd x + open_shoelace ((y :: l) ++ [a]))%R.
  rewrite IH. ring.
Qed.

Lemma shoelace_rev l : open_shoelace (rev l) = (- open_shoelace l)%R.
Proof.
  induction l as [|a l IH]; [cbn; ring|]. destruct l as [|b l]; [cbn; ring|].
  change (rev (a :: b :: l)) with ((rev l ++ [b]) ++ [a]). rewrite <- app_assoc. cbn [app].
  rewrite shoelace_snoc. change (rev l ++ [b]) with (rev (b :: l)). rewrite IH.
  change (open_shoelace (a :: b :: l)) with (fst a * snd b - fst b * snd a + open_shoelace (b :: l))%R. ring.
Qed.

Lemma twice_area_open a l : twice_area (a :: l) = open_shoelace (a :: l ++ [a]).
Proof.
  cbn [twice_area]. cut (forall z, area_from z a l = open_shoelace (a :: l ++ [z])); [auto|]. intros z. revert a. induction l as [|b l IH]; intros a.
  - cbn. ring.
  - cbn [area_from app]. change (open_shoelace (a :: b :: l ++ [z])) with (fst a * snd b - fst b * snd a + open_shoelace (b :: l ++ [z]))%R.
    now rewrite IH.
Qed.

Lemma twice_area_rot l a : twice_area (l ++ [a]) = twice_area (a :: l).
Proof.
  destruct l as [|b m]; [reflexivity|]. cbn [app]. rewrite !twice_area_open. cbn [app].
  rewrite <- app_assoc. cbn [app].
  change (b :: m ++ [a; b]) with ((b :: m) ++ [a; b]). rewrite shoelace_snoc. cbn [app].
  change (open_shoelace (a :: b :: m ++ [a])) with (fst a * snd b - fst b * snd a + open_shoelace (b :: m ++ [a]))%R. ring.
Qed.

Lemma twice_area_rev l : twice_area (rev l) = (- twice_area l)%R.
Proof.
  destruct l as [|a l]; [cbn; ring|]. cbn [rev]. rewrite twice_area_rot, !twice_area_open.
  replace (a :: rev l ++ [a]) with (rev (a :: l ++ [a])).
  - apply shoelace_rev.
  - cbn [rev]. rewrite rev_app_distr. reflexivity.
Qed.

(* the outcome when the sign computed from the first three points is that of the polygon *)
Lemma orient_agree l : (0 < open_shoelace (firstn 3 l) * twice_area l)%R ->
  (0 < twice_area (orient "CCW" l) /\ twice_area (orient "CW" l) < 0)%R.
Proof.
  intros H. unfold orient, signed_area. cbn [String.eqb Ascii.eqb Bool.eqb andb orb].
  set (s := open_shoelace (firstn 3 l)) in *.
  assert (C : (0 < s /\ 0 < twice_area l \/ s < 0 /\ twice_area l < 0)%R).
  { destruct (Rlt_dec 0 s); [left; split; [lra|]|right].
    - destruct (Rlt_dec 0 (twice_area l)); [lra|]. exfalso.
      assert (s * twice_area l <= s * 0)%R by (apply Rmult_le_compat_l; lra). lra.
    - assert (s <> 0%R) by (intros E; rewrite E in H; lra). split; [lra|].
      destruct (Rlt_dec (twice_area l) 0); [lra|]. exfalso.
      assert (s * twice_area l <= 0 * twice_area l)%R by (apply Rmult_le_compat_r; lra). lra. }
  assert (N := twice_area_rev l).
  destruct (Rlt_dec (/ 2 * s) 0), (Rlt_dec 0 (/ 2 * s)); cbn [andb orb]; lra.
Qed.

Lemma orient_flips : let l := [(10, 1); (9, / 2); (10, 0)]%R in
  (0 < twice_area l /\ twice_area (orient "CCW" l) < 0)%R.
Proof.
  intros l. split; [unfold l; cbn; lra|].
  unfold orient, signed_area, l. cbn [String.eqb Ascii.eqb Bool.eqb andb orb firstn open_shoelace fst snd].
  destruct (Rlt_dec _ 0) as [H|H]; [|exfalso; apply H; lra]. cbn [orb rev app]. cbn. lra.
Qed.

(* ---- polygons ---- *)
Lemma polygons_spec valid clip ori verts regions : forall points cells points' cells',
  polygons valid clip ori verts regions points cells = Ok (points', cells') ->
  exists ext css, points' = points ++ ext /\ cells' = cells ++ css /\
    Forall2 (fun r cell => exists ps, mapM (py_at verts) r = Ok ps /\ valid ps = true /\
               picks points' cell (orient ori (clip ps))) regions css.
Proof.
  induction regions as [|r rs IH]; intros points cells points' cells'; cbn [polygons].
  - intros H. apply Ok_inj, pair_equal_spec in H as [<- <-]. exists [], []. rewrite !app_nil_r. repeat split; constructor.
  - destruct (mapM (py_at verts) r) as [ps|] eqn:E; [|discriminate]. cbn [bind].
    destruct (valid ps) eqn:Ev; [|discriminate]. intros H.
    destruct (IH _ _ _ _ H) as (ext & css & E1 & E2 & F).
    exists (orient ori (clip ps) ++ ext), (seq (length points) (length (clip ps)) :: css).
    rewrite <- app_assoc in E1, E2. cbn [app] in E2. split; [exact E1|]. split; [exact E2|].
    constructor; [|exact F]. exists ps. split; [exact E|]. split; [exact Ev|].
    rewrite E1. rewrite <- (orient_length ori (clip ps)). apply picks_seq.
Qed.

(* ---- masks ---- *)
Lemma mask_get_length_eq {A B} mask (l : list A) (m : list B) : length l = length m ->
  length (mask_get mask l) = length (mask_get mask m).
Proof. revert l m; induction mask as [|b mask IH]; intros [|x l] [|y m] H; try discriminate; auto. cbn. injection H as H. destruct b; cbn; auto. Qed.

Lemma mask_get_map {A B} (f : A -> B) mask l : mask_get mask (map f l) = map f (mask_get mask l).
Proof. revert l; induction mask as [|b mask IH]; intros [|x l]; auto. cbn. rewrite IH. now destruct b. Qed.

Lemma mask_get_sub mask : forall l, StronglySorted lt l -> StronglySorted lt (mask_get mask l).
Proof.
  induction mask as [|b mask IH]; intros l Hl; [destruct l; constructor|]. destruct Hl as [|x l Hl Hx]; [constructor|].
  cbn. destruct b; [|auto]. constructor; [auto|].
  apply Forall_forall. intros y Hy. rewrite Forall_forall in Hx. apply Hx.
  clear - Hy. revert l Hy. induction mask as [|b mask IH]; intros [|z l] Hy; try easy. cbn in Hy. destruct b; [destruct Hy as [->|Hy]|]; [now left|right; auto|right; auto].
Qed.

Lemma picks_map {A B} (f : A -> B) v ids w : picks v ids w -> picks (map f v) ids (map f w).
Proof. intros H. induction H as [|i x ids w Hi _ IH]; cbn; constructor; auto. now rewrite nth_error_map, Hi. Qed.

Lemma picks_mask_get {A} (v : list A) ids w mask : picks v ids w -> picks v (mask_get mask ids) (mask_get mask w).
Proof.
  intros H. revert mask. induction H as [|i x ids w Hi _ IH]; intros [|b mask]; try (cbn; constructor; fail).
  cbn [mask_get]. destruct b; [constructor; auto; apply IH|apply IH].
Qed.

(* what shorten returns: sel lists the candidates that keep a cell *)
Lemma shorten_spec pairs active vpts regions verts active' vpts' regions' verts' :
  length regions = length vpts -> length vpts = length (mask_get active (seq 0 (length active))) ->
  shorten pairs active vpts regions verts = Ok (active', vpts', regions', verts') ->
  exists kept, StronglySorted lt kept /\ in_range (length vpts) kept /\
    length active' = length active /\
    picks (mask_get active (seq 0 (length active))) kept (mask_get active' (seq 0 (length active))) /\
    picks vpts kept vpts' /\ length regions' = length kept /\
    match pairs with
    | None => kept = seq 0 (length vpts) /\ regions' = regions /\ verts' = verts
    | Some pairs => exists pts faces,
        average_points (map (insert_axis 2) verts) (map (map Z.to_nat) regions) 0 pairs = Ok (pts, faces) /\
        map fst faces = kept /\ regions' = map (fun f => map Z.of_nat (snd f)) faces /\ verts' = map (drop_axis 2) pts
    end.
Proof.
  intros Hr Hv. destruct pairs as [pairs|]; cbn [shorten].
  2:{ intros H. apply Ok_inj in H. apply pair_equal_spec in H as [H <-]. apply pair_equal_spec in H as [H <-].
      apply pair_equal_spec in H as [<- <-]. exists (seq 0 (length vpts)).
      repeat split; auto; try apply seq_picks.
      - apply seq_sorted.
      - intros i Hi. apply in_seq in Hi. lia.
      - rewrite Hv. apply seq_picks.
      - now rewrite seq_length. }
  destruct (average_points _ _ 0 pairs) as [[pts faces]|] eqn:E; [|discriminate]. cbn [bind].
  set (kept := map fst faces).
  assert (K : StronglySorted lt kept /\ in_range (length vpts) kept).
  { unfold average_points in E. destruct (average_map _ pairs) as [pm pp].
    destruct (mapM _ (map (map Z.to_nat) regions)) as [fs|] eqn:Ef; [|discriminate]. cbn [bind] in E.
    change (0 <? 0) with false in E. apply Ok_inj, pair_equal_spec in E as [_ <-].
    apply mapM_Ok, Forall2_len in Ef. rewrite map_length, Hr in Ef. unfold kept. split.
    - clear. cut (forall a, StronglySorted lt (map fst (filter (fun x => 2 <? length (snd x)) (combine (seq a (length fs)) fs)))); [auto|].
      induction fs as [|f fs IH]; intros a; cbn [length seq combine filter map]; [constructor|].
      destruct (2 <? length (snd (a, f))); [|apply IH]. cbn [map fst]. constructor; auto.
      apply Forall_forall. intros k Hk. apply in_map_iff in Hk as ([k' f'] & <- & Hk). apply filter_In in Hk as [Hk _].
      apply in_combine_l in Hk. apply in_seq in Hk. cbn. lia.
    - intros i Hi. apply in_map_iff in Hi as ([i' f'] & <- & Hk). apply filter_In in Hk as [Hk _].
      apply in_combine_l in Hk. apply in_seq in Hk. cbn. lia. }
  destruct K as [K1 K2].
  set (n := length vpts) in *.
  set (mask := map (fun i => negb (existsb (fun x => x =? i) kept)) (seq 0 n)).
  assert (Lm : length mask = n) by (unfold mask; now rewrite map_length, seq_length).
  assert (Hmask : forall i, i < n -> nth_error mask i = Some (negb (if in_dec Nat.eq_dec i kept then true else false))).
  { intros i Hi. unfold mask. rewrite nth_error_map, nth_error_seq. destruct (Nat.ltb_spec i n); [|lia]. cbn. f_equal. f_equal.
    destruct (in_dec Nat.eq_dec i kept) as [Hin|Hni].
    - apply existsb_exists. exists i. split; [exact Hin|]. apply Nat.eqb_refl.
    - destruct (existsb _ kept) eqn:Ex; [|reflexivity]. apply existsb_exists in Ex as (x & Hx & E'). apply Nat.eqb_eq in E'. congruence. }
  assert (Ekept : mask_get (map negb mask) (seq 0 n) = kept).
  { apply sorted_ext; [| exact K1|].
    - replace n with (length (map negb mask)) by (now rewrite map_length). apply mask_get_seq_sorted.
    - intros i. replace n with (length (map negb mask)) at 1 by (now rewrite map_length).
      rewrite mask_get_seq_In, Nat.sub_0_r. rewrite nth_error_map. split.
      + intros [_ H]. assert (Hi : i < n). { rewrite <- Lm. apply nth_error_Some. destruct (nth_error mask i); [congruence|discriminate]. }
        rewrite (Hmask i Hi) in H. cbn in H. destruct (in_dec Nat.eq_dec i kept); [assumption|discriminate].
      + intros Hin. split; [lia|]. assert (Hi := K2 i Hin). rewrite (Hmask i Hi). destruct (in_dec Nat.eq_dec i kept); [reflexivity|contradiction]. }
  set (idx := mask_get active (seq 0 (length active))) in *.
  assert (Lidx : length idx = n) by (unfold n; lia).
  assert (Pk : picks idx kept (mask_get (map negb mask) idx)).
  { rewrite <- Ekept. apply picks_mask_get. rewrite <- Lidx. apply seq_picks. }
  assert (Pv : picks vpts kept (mask_get (map negb mask) vpts)).
  { rewrite <- Ekept. apply picks_mask_get. apply seq_picks. }
  assert (Sidx : StronglySorted lt idx) by (apply mask_get_seq_sorted).
  assert (Iidx : forall i, In i idx <-> nth_error active i = Some true).
  { intros i. unfold idx. rewrite mask_get_seq_In, Nat.sub_0_r. intuition lia. }
  intros H.
  assert (COMMON : active' = fold_left (fun a i => upd i false a) (mask_get mask idx) active /\
     vpts' = mask_get (map negb mask) vpts /\ regions' = map (fun f => map Z.of_nat (snd f)) faces /\ verts' = map (drop_axis 2) pts).
  { change (map (fun i => negb (existsb (fun x => x =? i) (map fst faces))) (seq 0 n)) with mask in H.
    destruct (existsb (fun b => b) mask) eqn:Ex; apply Ok_inj in H; apply pair_equal_spec in H as [H <-];
      apply pair_equal_spec in H as [H <-]; apply pair_equal_spec in H as [<- <-]; [auto|].
    assert (All : forall b, In b mask -> b = false).
    { intros [|] Hb; [|reflexivity]. assert (existsb (fun b : bool => b) mask = true); [|congruence]. apply existsb_exists. eauto. }
    assert (Q1 : forall (m : list bool), (forall b, In b m -> b = false) -> forall B (l : list B), mask_get m l = []).
    { clear. induction m as [|b m IH]; intros H B [|x l]; auto. cbn. rewrite (H b (or_introl eq_refl)). apply IH. intros; apply H; now right. }
    assert (Q2 : forall (m : list bool), (forall b, In b m -> b = false) -> forall B (l : list B), length m = length l -> mask_get (map negb m) l = l).
    { clear. induction m as [|b m IH]; intros H B [|x l] L; try discriminate; auto. cbn in L. injection L as L. cbn. rewrite (H b (or_introl eq_refl)). cbn. f_equal. apply IH; auto. intros; apply H; now right. }
    rewrite (Q1 mask All), (Q2 mask All _ vpts Lm). auto. }
  clear H. destruct COMMON as (-> & -> & -> & ->). exists kept.
  assert (La : length (fold_left (fun a i => upd i false a) (mask_get mask idx) active) = length active) by apply Polygon3_proof.fold_upd_length.
  split; [exact K1|]. split; [exact K2|]. split; [exact La|]. split.
  { replace (mask_get _ (seq 0 (length active))) with (mask_get (map negb mask) idx); [exact Pk|].
    apply sorted_ext.
    - apply mask_get_sub. exact Sidx.
    - rewrite <- La. apply mask_get_seq_sorted.
    - intros i. rewrite <- La at 1. rewrite mask_get_seq_In, Nat.sub_0_r.
      assert (Nd : NoDup idx) by (apply Topo3_proof.sorted_lt_NoDup; exact Sidx).
      assert (Split : forall m : list bool, length m = length idx -> forall x, In x idx <-> In x (mask_get m idx) \/ In x (mask_get (map negb m) idx)).
      { clear. induction idx as [|y l IH]; intros [|b m] L x; try discriminate; [cbn; tauto|]. cbn in L. injection L as L.
        specialize (IH m L x). cbn. destruct b; cbn; rewrite IH; tauto. }
      assert (Disj : forall m : list bool, length m = length idx -> forall x, In x (mask_get m idx) -> ~ In x (mask_get (map negb m) idx)).
      { clear - Nd. induction Nd as [|y l Hy Nd IH]; intros [|b m] L x; try discriminate; [cbn; tauto|]. cbn in L. injection L as L.
        assert (Sub : forall m' z, In z (mask_get m' l) -> In z l).
        { clear. induction l as [|u l IH]; intros [|c m'] z H; try easy. cbn in H. destruct c; [destruct H as [->|H]|]; [now left|right; eauto|right; eauto]. }
        cbn. destruct b; cbn; [intros [->|H]; [intros H'; apply Hy; eapply Sub; eauto|apply IH; auto]|].
        intros H [->|H']; [apply Hy; eapply Sub; eauto|]. eapply IH; eauto. }
      specialize (Split mask ltac:(lia) i). specialize (Disj mask ltac:(lia) i).
      split.
      + intros Hi. split; [lia|]. assert (Hin : In i idx) by tauto. apply Iidx in Hin.
        rewrite Polygon3_proof.fold_upd_nth by (apply nth_error_Some; congruence).
        destruct (in_dec Nat.eq_dec i (mask_get mask idx)); [exfalso; tauto|exact Hin].
      + intros [_ H]. assert (Hlt : i < length active) by (rewrite <- La; apply nth_error_Some; congruence).
        rewrite Polygon3_proof.fold_upd_nth in H by exact Hlt.
        destruct (in_dec Nat.eq_dec i (mask_get mask idx)); [discriminate|]. apply Iidx in H. tauto. }
  split; [exact Pv|]. split; [unfold kept; now rewrite !map_length|]. exists pts, faces. auto.
Qed.
