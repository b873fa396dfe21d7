From Coq Require Import Reals Lra.
From Verif Require Import Prelude Perc_model Perc_spec Perc_proof Grid Surface_model Surface_spec Surface_proof
  Volume_model Objects_model Objects_spec Objects1_proof Objects3_proof.
Open Scope R_scope.

(* ---------- np.interp ---------- *)

Lemma nondecreasing_asc l : ascending l -> nondecreasing l = true.
Proof.
  induction 1 as [|x|x y l H A IH]; try reflexivity. cbn [nondecreasing] in *. rewrite IH.
  destruct (Rleb_spec x y); [reflexivity|lra].
Qed.
Lemma increasing_asc l : increasing l -> ascending l.
Proof. induction 1; constructor; auto; lra. Qed.

Lemma asc_nth l : ascending l -> forall i j x y, (i <= j)%nat -> nth_error l i = Some x -> nth_error l j = Some y -> x <= y.
Proof.
  induction 1 as [|x|x y l H A IH]; intros i j u v L Hi Hj.
  - destruct i; discriminate.
  - destruct i as [|[|i]], j as [|[|j]]; try discriminate. injection Hi as <-. injection Hj as <-. lra.
  - destruct j as [|j].
    + assert (i = 0)%nat as -> by lia. injection Hi as <-. injection Hj as <-. lra.
    + destruct i as [|i]; [|now apply (IH i j); [lia| |]].
      injection Hi as <-. cbn [nth_error] in Hj. assert (y <= v) by (apply (IH 0%nat j); [lia|reflexivity|exact Hj]). lra.
Qed.

Lemma interp_cons x0 x1 xp f0 f1 fp x : interp_at (x0 :: x1 :: xp) (f0 :: f1 :: fp) x =
  if Rlt_dec x x1 then if Rle_dec x x0 then f0 else f0 + (x - x0) * ((f1 - f0) / (x1 - x0))
  else interp_at (x1 :: xp) (f1 :: fp) x.
Proof. reflexivity. Qed.

Lemma interp_segment : forall xp fp, increasing xp -> length xp = length fp -> forall k a b f g t,
  nth_error xp k = Some a -> nth_error xp (S k) = Some b -> nth_error fp k = Some f -> nth_error fp (S k) = Some g ->
  0 <= t <= 1 -> interp_at xp fp (between t a b) = between t f g.
Proof.
  induction xp as [|x0 [|x1 xp] IH]; intros fp I L k a b f g t Ha Hb Hf Hg Ht.
  - destruct k; discriminate.
  - destruct k; discriminate.
  - destruct fp as [|f0 [|f1 fp]]; try discriminate L. inversion I as [| |u v w Hlt I']; subst.
    rewrite interp_cons. destruct k as [|k].
    + cbn in Ha, Hb, Hf, Hg. injection Ha as <-. injection Hb as <-. injection Hf as <-. injection Hg as <-.
      destruct (Rlt_dec (between t x0 x1) x1) as [H|H].
      * destruct (Rle_dec (between t x0 x1) x0) as [H0|H0].
        -- assert (t = 0) as -> by (unfold between in *; nra). unfold between. ring.
        -- unfold between. field. lra.
      * assert (t = 1) as -> by (unfold between in *; nra).
        unfold between. replace ((1 - 1) * x0 + 1 * x1) with x1 by ring.
        assert (E : interp_at (x1 :: xp) (f1 :: fp) x1 = f1).
        { destruct xp as [|x2 xp]; [reflexivity|]. destruct fp as [|f2 fp]; [reflexivity|]. rewrite interp_cons.
          inversion I' as [| |? ? ? H2 _]; subst. destruct (Rlt_dec x1 x2); [|lra]. destruct (Rle_dec x1 x1); [reflexivity|lra]. }
        rewrite E. ring.
    + assert (x1 <= a).
      { apply (asc_nth _ (increasing_asc _ I') 0 k); [lia|reflexivity|exact Ha]. }
      assert (a <= b).
      { apply (asc_nth _ (increasing_asc _ I') k (S k)); [lia|exact Ha|exact Hb]. }
      destruct (Rlt_dec (between t a b) x1) as [H1|H1]; [unfold between in *; nra|].
      apply (IH (f1 :: fp) I' ltac:(cbn in *; lia) k); assumption.
Qed.

Lemma interp_first xp fp x a f : increasing xp -> nth_error xp 0 = Some a -> nth_error fp 0 = Some f -> x <= a ->
  interp_at xp fp x = f.
Proof.
  intros I Ha Hf Hx. destruct xp as [|x0 [|x1 xp]], fp as [|f0 [|f1 fp]]; try discriminate; cbn in Ha, Hf;
    injection Ha as <-; injection Hf as <-; try reflexivity.
  rewrite interp_cons. inversion I; subst. destruct (Rlt_dec x x1); [|lra]. destruct (Rle_dec x x0); [reflexivity|lra].
Qed.

Lemma interp_last : forall xp fp x a f, ascending xp -> length xp = length fp ->
  nth_error xp (length xp - 1) = Some a -> nth_error fp (length fp - 1) = Some f -> a <= x -> interp_at xp fp x = f.
Proof.
  induction xp as [|x0 [|x1 xp] IH]; intros fp x a f I L Ha Hf Hx.
  - discriminate.
  - destruct fp as [|f0 [|f1 fp]]; try discriminate L. cbn in Hf. injection Hf as <-. reflexivity.
  - destruct fp as [|f0 [|f1 fp]]; try discriminate L. rewrite interp_cons. inversion I as [| |? ? ? H I']; subst.
    assert (Ha' : nth_error (x1 :: xp) (length (x1 :: xp) - 1) = Some a).
    { cbn [length] in *. rewrite Nat.sub_succ, Nat.sub_0_r in Ha. cbn [nth_error] in Ha.
      now replace (S (length xp) - 1)%nat with (length xp) by lia. }
    assert (Hf' : nth_error (f1 :: fp) (length (f1 :: fp) - 1) = Some f).
    { cbn [length] in *. rewrite Nat.sub_succ, Nat.sub_0_r in Hf. cbn [nth_error] in Hf.
      now replace (S (length fp) - 1)%nat with (length fp) by lia. }
    assert (x1 <= a). { eapply (asc_nth _ I' 0 (length (x1 :: xp) - 1)); [lia|reflexivity|exact Ha']. }
    destruct (Rlt_dec x x1); [lra|]. eapply IH; eauto.
Qed.

Lemma interp_range lo hi : forall xp fp x, length xp = length fp -> fp <> [] -> Forall (fun f => lo <= f <= hi) fp ->
  lo <= interp_at xp fp x <= hi.
Proof.
  induction xp as [|x0 [|x1 xp] IH]; intros fp x L N F.
  - destruct fp; [congruence|discriminate].
  - destruct fp as [|f0 [|f1 fp]]; try discriminate L. inversion F; subst. assumption.
  - destruct fp as [|f0 [|f1 fp]]; try discriminate L. rewrite interp_cons.
    inversion F as [|? ? H0 F']; subst. inversion F' as [|? ? H1 _]; subst.
    destruct (Rlt_dec x x1) as [H|H].
    + destruct (Rle_dec x x0) as [H2|H2]; [assumption|].
      set (t := (x - x0) / (x1 - x0)).
      assert (0 <= t <= 1).
      { unfold t. split; [apply Rmult_le_pos; [lra|apply Rlt_le, Rinv_0_lt_compat; lra]|].
        apply Rmult_le_reg_r with (x1 - x0); [lra|]. unfold Rdiv. rewrite Rmult_assoc, Rinv_l; lra. }
      replace ((x - x0) * ((f1 - f0) / (x1 - x0))) with (t * (f1 - f0)) by (unfold t; field; lra). nra.
    + apply IH; [cbn in *; lia|discriminate|assumption].
Qed.

(* ---------- axes ---------- *)

Lemma varies_spec l : varies l = true <-> exists a b, In a l /\ In b l /\ a <> b.
Proof.
  destruct l as [|x l]; cbn [varies].
  - split; [discriminate|]. intros (a & b & [] & _).
  - rewrite existsb_exists. split.
    + intros (y & Hy & H). exists x, y. split; [now left|]. split; [now right|]. destruct (Reqb_spec x y); [discriminate H|assumption].
    + intros (a & b & Ha & Hb & Hab). destruct (Req_dec x a) as [->|Ha'].
      * destruct Hb as [<-|Hb]; [congruence|]. exists b. split; [assumption|]. destruct (Reqb_spec a b); [congruence|reflexivity].
      * destruct Ha as [->|Ha]; [congruence|]. exists a. split; [assumption|]. destruct (Reqb_spec x a); [congruence|reflexivity].
Qed.

Lemma varies_points k points : varies (map (coord k) points) = true <->
  exists p q, In p points /\ In q points /\ coord k p <> coord k q.
Proof.
  rewrite varies_spec. split.
  - intros (a & b & Ha & Hb & H). apply in_map_iff in Ha as (p & <- & Hp). apply in_map_iff in Hb as (q & <- & Hq). now exists p, q.
  - intros (p & q & Hp & Hq & H). exists (coord k p), (coord k q). split; [now apply in_map|]. split; [now apply in_map|assumption].
Qed.

Lemma only_axis_eq axis i points : (axis <= 2)%nat -> only_axis axis i points -> other_axes axis points = [i].
Proof.
  intros Ha (Hi & Hne & H). unfold other_axes.
  assert (K : forall k, (k <= 2)%nat -> (negb (k =? axis)%nat && varies (map (coord k) points))%bool = (k =? i)%nat).
  { intros k Hk. destruct (Nat.eqb_spec k axis) as [->|Hk'].
    - cbn. symmetry. apply Nat.eqb_neq. congruence.
    - cbn [negb andb]. specialize (H k Hk Hk'). rewrite <- varies_points in H.
      destruct (Nat.eqb_spec k i) as [->|]; [now apply H|]. destruct (varies _); [exfalso; apply n; now apply H|reflexivity]. }
  cbn [filter]. rewrite !K by lia. destruct i as [|[|[|i]]]; try lia; reflexivity.
Qed.

Lemma two_axes_eq axis i j points : (axis <= 2)%nat -> (i < j <= 2)%nat -> i <> axis -> j <> axis ->
  (exists p q, In p points /\ In q points /\ coord i p <> coord i q) ->
  (exists p q, In p points /\ In q points /\ coord j p <> coord j q) -> other_axes axis points = [i; j].
Proof.
  intros Ha Hij Hi Hj Vi Vj. apply varies_points in Vi, Vj. unfold other_axes.
  destruct axis as [|[|[|axis]]], i as [|[|[|i]]], j as [|[|[|j]]]; try lia; cbn [filter Nat.eqb negb andb]; rewrite ?Vi, ?Vj; reflexivity.
Qed.

Section Interp.
Variable other : list R -> list R -> list R -> list R.
Variable linear : list (R * R) -> list R -> list (R * R) -> res (list (option R)).
Variable nearest : list (R * R) -> list R -> R * R -> R.
Notation interpolate := (interpolate other linear nearest).

Lemma interp1_inv axis i points base e zs : (axis <= 2)%nat -> only_axis axis i points ->
  ascending (map (coord i) points) -> interpolate axis points base e = Ok zs ->
  zs = map (fun b => interp_at (map (coord i) points) (map (coord axis) points) (coord i b)) base.
Proof.
  intros Ha Ho A H. unfold Objects_model.interpolate in H. rewrite (only_axis_eq axis i points Ha Ho) in H.
  destruct (map (coord i) base) as [|x0 x] eqn:Ex; [discriminate|].
  destruct (map (coord i) points) as [|p0 xp] eqn:Exp; [discriminate|].
  destruct (_ && _)%bool in H; [discriminate|]. unfold np_interp in H.
  destruct (length (p0 :: xp) =? 0)%nat; [discriminate|]. destruct (negb _); [discriminate|].
  rewrite (nondecreasing_asc _ A) in H. apply Ok_inj in H. subst zs. rewrite <- Ex, map_map. reflexivity.
Qed.

Lemma interp1_linear axis i points base e zs : (axis <= 2)%nat -> only_axis axis i points ->
  increasing (map (coord i) points) -> interpolate axis points base e = Ok zs ->
  length zs = length base /\
  (forall m b k p q t, nth_error base m = Some b -> nth_error points k = Some p -> nth_error points (S k) = Some q ->
     0 <= t <= 1 -> coord i b = between t (coord i p) (coord i q) ->
     nth_error zs m = Some (between t (coord axis p) (coord axis q))) /\
  (forall m b p, nth_error base m = Some b -> hd_error points = Some p -> coord i b <= coord i p ->
     nth_error zs m = Some (coord axis p)) /\
  (forall m b q, nth_error base m = Some b -> nth_error points (length points - 1) = Some q -> coord i q <= coord i b ->
     nth_error zs m = Some (coord axis q)).
Proof.
  intros Ha Ho A H. rewrite (interp1_inv _ _ _ _ _ _ Ha Ho (increasing_asc _ A) H). split; [apply map_length|].
  split; [|split].
  - intros m b k p q t Hb Hp Hq Ht E. rewrite nth_error_map, Hb. cbn [option_map]. f_equal. rewrite E.
    apply interp_segment with (k := k); try assumption; rewrite ?map_length, ?nth_error_map, ?Hp, ?Hq; reflexivity.
  - intros m b p Hb Hp Hx. rewrite nth_error_map, Hb. cbn [option_map]. f_equal.
    destruct points as [|p0 l]; [discriminate|]. injection Hp as ->. now apply interp_first with (a := coord i p).
  - intros m b p Hb Hp Hx. rewrite nth_error_map, Hb. cbn [option_map]. f_equal.
    apply interp_last with (a := coord i p); rewrite ?map_length, ?nth_error_map, ?Hp; try reflexivity; [now apply increasing_asc|assumption].
Qed.

Lemma interp1_range axis i points base e zs lo hi : (axis <= 2)%nat -> only_axis axis i points ->
  ascending (map (coord i) points) -> interpolate axis points base e = Ok zs ->
  (forall p, In p points -> lo <= coord axis p <= hi) -> forall z, In z zs -> lo <= z <= hi.
Proof.
  intros Ha Ho A H F z Hz. rewrite (interp1_inv _ _ _ _ _ _ Ha Ho A H) in Hz. apply in_map_iff in Hz as (b & <- & Hb).
  apply interp_range; [now rewrite !map_length| |].
  - destruct Ho as (Hi & Hne & Ho). destruct (proj1 (Ho i Hi Hne) eq_refl) as (p & _ & Hp & _). destruct points; [destruct Hp|discriminate].
  - apply Forall_forall. intros f Hf. apply in_map_iff in Hf as (p & <- & Hp). auto.
Qed.

Lemma last_nth {A} (l : list A) d x : nth_error l (length l - 1) = Some x -> last l d = x.
Proof.
  revert x. induction l as [|a [|b l] IH]; intros x H; [discriminate|now injection H|].
  change (last (a :: b :: l) d) with (last (b :: l) d). apply IH. cbn [length] in *.
  replace (S (S (length l)) - 1)%nat with (S (length l)) in H by lia. cbn [nth_error] in H.
  now replace (S (length l) - 1)%nat with (length l) by lia.
Qed.

Lemma interp1_decision axis i points base e b0 bl p q : (axis <= 2)%nat -> only_axis axis i points ->
  hd_error base = Some b0 -> nth_error base (length base - 1) = Some bl ->
  hd_error points = Some p -> nth_error points (length points - 1) = Some q ->
  ascending (map (coord i) points) ->
  if Rle_dec (coord i p) (coord i b0) then
  if Rle_dec (coord i b0) (coord i q) then
  if Rle_dec (coord i p) (coord i bl) then
  if Rle_dec (coord i bl) (coord i q) then exists zs, interpolate axis points base e = Ok zs
  else no_extrapolation e -> interpolate axis points base e = Err ValueError
  else no_extrapolation e -> interpolate axis points base e = Err ValueError
  else no_extrapolation e -> interpolate axis points base e = Err ValueError
  else no_extrapolation e -> interpolate axis points base e = Err ValueError.
Proof.
  intros Ha Ho Hb0 Hbl Hp Hq A. unfold Objects_model.interpolate. rewrite (only_axis_eq axis i points Ha Ho).
  destruct base as [|b base]; [discriminate|]. injection Hb0 as ->. destruct points as [|p' points]; [discriminate|]. injection Hp as ->.
  cbn [map]. rewrite <- (map_cons (coord i) b0 base), <- (map_cons (coord i) p points).
  rewrite (last_nth (map (coord i) (b0 :: base)) (coord i b0) (coord i bl)) by now rewrite map_length, nth_error_map, Hbl.
  rewrite (last_nth (map (coord i) (p :: points)) (coord i p) (coord i q)) by now rewrite map_length, nth_error_map, Hq.
  assert (N : no_extrapolation e -> match match e with None => None | Some EmptyString => None | Some s => Some s end with
              None => true | Some _ => false end = true) by (intros [->| ->]; reflexivity).
  destruct (Rleb_spec (coord i p) (coord i b0)), (Rle_dec (coord i p) (coord i b0)); try lra; cbn [andb negb];
    [|intros E; now rewrite (N E)].
  destruct (Rleb_spec (coord i b0) (coord i q)), (Rle_dec (coord i b0) (coord i q)); try lra; cbn [andb negb];
    [|intros E; now rewrite (N E)].
  destruct (Rleb_spec (coord i p) (coord i bl)), (Rle_dec (coord i p) (coord i bl)); try lra; cbn [andb negb];
    [|intros E; now rewrite (N E)].
  destruct (Rleb_spec (coord i bl) (coord i q)), (Rle_dec (coord i bl) (coord i q)); try lra; cbn [andb negb];
    [|intros E; now rewrite (N E)].
  unfold np_interp. rewrite (nondecreasing_asc _ A). cbn [map length Nat.eqb]. rewrite !map_length, Nat.eqb_refl. cbn [negb]. eauto.
Qed.

(* bases whose first or last point leaves the range *)
Lemma interp1_rejects axis i points base b e p q : (axis <= 2)%nat -> only_axis axis i points -> no_extrapolation e ->
  hd_error points = Some p -> nth_error points (length points - 1) = Some q ->
  hd_error base = Some b \/ nth_error base (length base - 1) = Some b ->
  ~ coord i p <= coord i b <= coord i q -> interpolate axis points base e = Err ValueError.
Proof.
  intros Ha Ho Ne Hp Hq Hb Hx. unfold Objects_model.interpolate. rewrite (only_axis_eq axis i points Ha Ho).
  destruct base as [|b0 base]; [destruct Hb; discriminate|].
  destruct points as [|p' points]; [discriminate|]. injection Hp as ->.
  cbn [map]. rewrite <- (map_cons (coord i) b0 base), <- (map_cons (coord i) p points).
  rewrite (last_nth (map (coord i) (p :: points)) (coord i p) (coord i q)) by now rewrite map_length, nth_error_map, Hq.
  assert (N : match match e with None => None | Some EmptyString => None | Some s => Some s end with
              None => true | Some _ => false end = true) by (destruct Ne as [->| ->]; reflexivity).
  rewrite N, Bool.andb_true_r.
  assert (K : (Rleb (coord i p) (coord i b) && Rleb (coord i b) (coord i q))%bool = false).
  { destruct (Rleb_spec (coord i p) (coord i b)), (Rleb_spec (coord i b) (coord i q)); try reflexivity. exfalso. lra. }
  destruct Hb as [Hb|Hb].
  - injection Hb as ->. rewrite K. reflexivity.
  - rewrite (last_nth (map (coord i) (b0 :: base)) (coord i b0) (coord i b)) by now rewrite map_length, nth_error_map, Hb.
    rewrite K, Bool.andb_false_r. reflexivity.
Qed.

(* flat data *)
Lemma interp_flat axis points base e : (forall k, (k <= 2)%nat -> k <> axis -> forall p q, In p points -> In q points -> coord k p = coord k q) ->
  interpolate axis points base e = Err IndexError.
Proof.
  intros H. unfold Objects_model.interpolate.
  assert (other_axes axis points = []) as ->; [|reflexivity].
  unfold other_axes. cbn [filter].
  assert (K : forall k, (k <= 2)%nat -> (negb (k =? axis)%nat && varies (map (coord k) points))%bool = false).
  { intros k Hk. destruct (Nat.eqb_spec k axis) as [->|Hk']; [reflexivity|]. cbn [negb andb].
    destruct (varies _) eqn:E; [|reflexivity]. apply varies_points in E as (p & q & Hp & Hq & Hn). exfalso. apply Hn. now apply H. }
  now rewrite !K by lia.
Qed.

(* a base monotone along the axis i *)
Lemma interp1_iff axis i points base e : (axis <= 2)%nat -> only_axis axis i points -> no_extrapolation e ->
  base <> [] -> ascending (map (coord i) points) -> ascending (map (coord i) base) ->
  (exists zs, interpolate axis points base e = Ok zs) <-> enclosed i points base.
Proof.
  intros Ha Ho Ne Hb A B.
  assert (Hp : points <> []).
  { destruct Ho as (Hi & Hne & Ho). destruct (proj1 (Ho i Hi Hne) eq_refl) as (p & _ & Hp & _). destruct points; [destruct Hp|discriminate]. }
  destruct base as [|b0 base]; [congruence|]. destruct points as [|p points]; [congruence|].
  destruct (nth_error (b0 :: base) (length (b0 :: base) - 1)) as [bl|] eqn:Ebl; [|apply nth_error_None in Ebl; cbn in Ebl; lia].
  destruct (nth_error (p :: points) (length (p :: points) - 1)) as [q|] eqn:Eq; [|apply nth_error_None in Eq; cbn in Eq; lia].
  pose proof (interp1_decision axis i (p :: points) (b0 :: base) e b0 bl p q Ha Ho eq_refl Ebl eq_refl Eq A) as D.
  assert (B0 : forall b, In b (b0 :: base) -> coord i b0 <= coord i b <= coord i bl).
  { intros b Hin. apply In_nth_error in Hin as (m & Hm).
    assert (m < length (b0 :: base))%nat by (apply nth_error_Some; congruence). split.
    - apply (asc_nth _ B 0 m); [lia|reflexivity|]. now rewrite nth_error_map, Hm.
    - apply (asc_nth _ B m (length (b0 :: base) - 1)); [lia| |]; now rewrite nth_error_map, ?Hm, ?Ebl. }
  assert (In b0 (b0 :: base)) as I0 by now left.
  assert (In bl (b0 :: base)) as Il by (eapply nth_error_In; exact Ebl).
  split.
  - intros (zs & Hz). exists p, q. split; [reflexivity|]. split; [exact Eq|]. intros b Hin. pose proof (B0 b Hin). change xyz with coord.
    destruct (Rle_dec (coord i p) (coord i b0)); [|rewrite D in Hz by assumption; discriminate].
    destruct (Rle_dec (coord i b0) (coord i q)); [|rewrite D in Hz by assumption; discriminate].
    destruct (Rle_dec (coord i p) (coord i bl)); [|rewrite D in Hz by assumption; discriminate].
    destruct (Rle_dec (coord i bl) (coord i q)); [|rewrite D in Hz by assumption; discriminate]. lra.
  - intros (p' & q' & E1 & E2 & H). injection E1 as <-. rewrite Eq in E2. injection E2 as <-. change xyz with coord in H.
    pose proof (H b0 I0). pose proof (H bl Il).
    destruct (Rle_dec (coord i p) (coord i b0)); [|lra]. destruct (Rle_dec (coord i b0) (coord i q)); [|lra].
    destruct (Rle_dec (coord i p) (coord i bl)); [|lra]. destruct (Rle_dec (coord i bl) (coord i q)); [|lra]. exact D.
Qed.

(* two varying axes *)
Lemma interp2 axis i j points base e tmp : other_axes axis points = [i; j] ->
  linear (map (fun p => (coord i p, coord j p)) points) (map (coord axis) points) (map (fun p => (coord i p, coord j p)) base) = Ok tmp ->
  length tmp = length base ->
  (* every base point in the hull: the values of the linear interpolator, whatever e *)
  ((forall m, nth_error tmp m <> Some None) ->
     exists zs, interpolate axis points base e = Ok zs /\ forall m v, nth_error zs m = Some v <-> nth_error tmp m = Some (Some v)) /\
  (* some base point out of the hull *)
  ((exists m, nth_error tmp m = Some None) ->
     (no_extrapolation e -> interpolate axis points base e = Err ValueError) /\
     (e = Some "nearest"%string -> exists zs, interpolate axis points base e = Ok zs /\ length zs = length base /\
        forall m b, nth_error base m = Some b ->
          nth_error zs m = match nth_error tmp m with
                           | Some (Some v) => Some v
                           | _ => Some (nearest (map (fun p => (coord i p, coord j p)) points) (map (coord axis) points) (coord i b, coord j b))
                           end) /\
     (~ no_extrapolation e -> e <> Some "nearest"%string -> interpolate axis points base e = Err ValueError)).
Proof.
  intros Ho Hl L. unfold Objects_model.interpolate. rewrite Ho, Hl. cbn [bind].
  set (nan := existsb _ tmp).
  assert (Hnan : nan = true <-> exists m, nth_error tmp m = Some None).
  { unfold nan. rewrite existsb_exists. split.
    - intros (o & Hin & E). destruct o; [discriminate|]. now apply In_nth_error in Hin.
    - intros (m & Hm). exists None. split; [eapply nth_error_In; exact Hm|reflexivity]. }
  split.
  - intros H. destruct nan; [exfalso; destruct (proj1 Hnan eq_refl) as (m & Hm); now apply (H m)|].
    eexists. split; [reflexivity|]. intros m v. rewrite nth_error_map.
    destruct (nth_error tmp m) as [[w|]|] eqn:E; cbn [option_map]; [|now apply H in E|split; discriminate].
    split; intros [= ->]; reflexivity.
  - intros H. apply Hnan in H. rewrite H. split; [|split].
    + intros [->| ->]; reflexivity.
    + intros ->. cbn [String.eqb]. eexists. split; [reflexivity|]. split; [rewrite map2_length, L; lia|].
      intros m b Hb. rewrite map2_nth_error, Hb.
      assert (m < length tmp)%nat by (rewrite L; apply nth_error_Some; congruence).
      destruct (nth_error tmp m) as [[v|]|] eqn:E; [reflexivity|reflexivity|apply nth_error_None in E; lia].
    + intros Hne Hnn. destruct e as [[|c s]|]; [exfalso; apply Hne; now right| |exfalso; apply Hne; now left].
      destruct (String.eqb_spec (String c s) "nearest"); [congruence|reflexivity].
Qed.

(* interior base points may leave the range *)
Lemma interp_outside : exists points base zs, only_axis 2 0 points /\ ascending (map (coord 0) points) /\
  interpolate 2 points base None = Ok zs /\ ~ enclosed 0 points base.
Proof.
  exists [(0, 0, 0); (1, 0, 1)], [(0, 0, 0); (5, 0, 0); (1, 0, 0)].
  assert (O : only_axis 2 0 [(0, 0, 0); (1, 0, 1)]).
  { split; [lia|]. split; [lia|]. intros k Hk Hk2. destruct k as [|[|[|k]]]; try lia.
    - split; [intros _|reflexivity]. exists (0, 0, 0), (1, 0, 1). cbn. split; [auto|]. split; [auto|lra].
    - split; [discriminate|]. intros (p & q & [<-|[<-|[]]] & [<-|[<-|[]]] & H); cbn in H; lra. }
  assert (A : ascending (map (coord 0) [(0, 0, 0); (1, 0, 1)])) by (cbn; constructor; [lra|constructor]).
  pose proof (interp1_decision 2 0 [(0, 0, 0); (1, 0, 1)] [(0, 0, 0); (5, 0, 0); (1, 0, 0)] None
    (0, 0, 0) (1, 0, 0) (0, 0, 0) (1, 0, 1) ltac:(lia) O eq_refl eq_refl eq_refl eq_refl A) as D. cbn [coord] in D.
  destruct (Rle_dec 0 0); [|lra]. destruct (Rle_dec 0 1); [|lra]. destruct (Rle_dec 1 1); [|lra].
  destruct D as (zs & E). exists zs. split; [exact O|]. split; [exact A|]. split; [exact E|].
  intros (p & q & E1 & E2 & H). injection E1 as <-. injection E2 as <-.
  specialize (H (5, 0, 0) ltac:(cbn; auto)). cbn in H. lra.
Qed.

(* points given in descending order are refused though they enclose the base *)
Lemma interp_descending : exists points base, only_axis 2 0 points /\
  (forall b, In b base -> exists p q, In p points /\ In q points /\ coord 0 p <= coord 0 b <= coord 0 q) /\
  interpolate 2 points base None = Err ValueError.
Proof.
  exists [(1, 0, 1); (0, 0, 0)], [(/ 2, 0, 0)].
  assert (O : only_axis 2 0 [(1, 0, 1); (0, 0, 0)]).
  { split; [lia|]. split; [lia|]. intros k Hk Hk2. destruct k as [|[|[|k]]]; try lia.
    - split; [intros _|reflexivity]. exists (0, 0, 0), (1, 0, 1). cbn. split; [auto|]. split; [auto|lra].
    - split; [discriminate|]. intros (p & q & [<-|[<-|[]]] & [<-|[<-|[]]] & H); cbn in H; lra. }
  split; [exact O|]. split.
  - intros b [<-|[]]. exists (0, 0, 0), (1, 0, 1). cbn. split; [auto|]. split; [auto|lra].
  - eapply (interp1_rejects 2 0 _ _ (/ 2, 0, 0) None (1, 0, 1) (0, 0, 0)); try reflexivity; [exact O|now left|now left|].
    cbn. lra.
Qed.
End Interp.
