From Coq Require Import Reals Lra Lia Sorted.
From Verif Require Import Prelude RealAux Perc_model Surface_model Volume_model Lines_model Objects_model Cast_model Cast_spec.
Open Scope R_scope.
Local Notation norm := Objects_model.norm.

Lemma norm_dist p q : norm (sub3 q p) = dist p q.
Proof.
  destruct p as [[x y] z], q as [[x' y'] z']. unfold Objects_model.norm, dot, sub3, dist. f_equal. ring.
Qed.
Lemma close_apart tol p q : close tol p q = false -> apart tol p q.
Proof.
  assert (H1 : forall x y, close1 tol x y = false -> tol < Rabs (x - y)).
  { intros x y. unfold close1. destruct (Rleb_spec (Rabs (x - y)) (tol + / 100000 * Rabs y)) as [|H]; [discriminate|].
    intros _. pose proof (Rabs_pos y). lra. }
  destruct p as [[x y] z], q as [[x' y'] z']. unfold close, apart.
  destruct (close1 tol x x') eqn:E1; [|left; auto]. destruct (close1 tol y y') eqn:E2; [|right; left; auto].
  destruct (close1 tol z z') eqn:E3; [discriminate|right; right; auto].
Qed.

Lemma sorted_snoc l x : StronglySorted le l -> Forall (fun y => (y <= x)%nat) l -> StronglySorted le (l ++ [x]).
Proof.
  induction 1 as [|y l H IH Hy]; intros F; cbn; [repeat constructor|]. inversion F; subst. constructor; [auto|].
  apply Forall_app. auto.
Qed.
Lemma nth_error_snoc {A} (l : list A) x k y : nth_error (l ++ [x]) k = Some y -> nth_error l k = Some y \/ k = length l /\ y = x.
Proof.
  intros H. destruct (Nat.lt_ge_cases k (length l)) as [L|L].
  - rewrite nth_error_app1 in H by assumption. now left.
  - rewrite nth_error_app2 in H by assumption. right. destruct (k - length l)%nat as [|n] eqn:E; cbn in H.
    + split; [lia|congruence]. + destruct n; discriminate.
Qed.
Lemma last_nth {A} (l : list A) d x : nth_error l (length l - 1) = Some x -> last l d = x.
Proof.
  intros H. destruct (exists_last (l := l)) as (l' & y & ->); [intros ->; discriminate|].
  rewrite last_last. rewrite app_length in H. cbn in H. rewrite Nat.add_sub, nth_error_app2, Nat.sub_diag in H by lia. cbn in H. congruence.
Qed.

Lemma if_split {A} (b : bool) (x y : A) (P : A -> Prop) : (b = true -> P x) -> (b = false -> P y) -> P (if b then x else y).
Proof. destruct b; auto. Qed.

Section invariants.
Context {F : Type}.
Variable (o : oracles F).
Variables (min_length tolerance : R) (ignore_after : bool).
Variable pts : list pt.
Notation add := (add_point tolerance min_length).
Notation n := (length pts - 1)%nat.

Lemma add_cases t p l c : add t p l c = t \/
  (close tolerance (last_pt t) p = false /\ (tr_in t = true -> tr_out t = false -> min_length <= norm (sub3 p (last_pt t))) /\
   add t p l c = mkT (tr_pts t ++ [p]) (tr_lines t ++ [l]) (tr_cells t ++ [c]) (tr_in t) (tr_out t) (tr_count t) (tr_cell t)).
Proof.
  unfold add_point. destruct (close tolerance (last_pt t) p) eqn:E; [now left|].
  destruct (_ || _)%bool eqn:E2; [right|now left]. split; [reflexivity|]. split; [|reflexivity].
  intros Hi Ho. rewrite Hi, Ho in E2. cbn in E2. destruct (Rleb_spec min_length (norm (sub3 p (last_pt t)))); [assumption|discriminate].
Qed.

Lemma add_flags t p l c : let t' := add t p l c in
  tr_in t' = tr_in t /\ tr_out t' = tr_out t /\ tr_count t' = tr_count t /\ tr_cell t' = tr_cell t.
Proof. cbn zeta. destruct (add_cases t p l c) as [->|(_ & _ & ->)]; cbn; auto. Qed.

(* where the end q of a segment of polyline segment l, labelled c, comes from *)
Definition source (q : pt) (l : nat) (c : Z) : Prop :=
  exists a b, nth_error pts l = Some a /\ nth_error pts (S l) = Some b /\
    (q = b /\ (c = (-1)%Z \/ contains o c b = true /\ S l = n) \/
     exists cid rows f, cast o cid a b = Some rows /\ In (q, f) rows /\ (c = cid \/ c = (-1)%Z)).

Definition good (p q : pt) (l : nat) (c : Z) : Prop :=
  apart tolerance p q /\ (c <> (-1)%Z -> min_length <= dist p q) /\ source q l c.

Record inv (lid : nat) (t : trail) : Prop := mkI {
  i_head : hd_error (tr_pts t) = hd_error pts;
  i_pts : length (tr_pts t) = S (length (tr_lines t));
  i_cells : length (tr_cells t) = length (tr_lines t);
  i_sort : StronglySorted le (tr_lines t);
  i_lid : Forall (fun l => (l <= lid)%nat) (tr_lines t);
  i_steps : forall k p q l c, nth_error (tr_pts t) k = Some p -> nth_error (tr_pts t) (S k) = Some q ->
    nth_error (tr_lines t) k = Some l -> nth_error (tr_cells t) k = Some c -> good p q l c;
  i_cell : tr_cell t <> Some (-1)%Z /\ (tr_cell t = None -> tr_in t = false);
  i_labels : if tr_in t then exists m1 cs m2, tr_cells t = repeat (-1)%Z m1 ++ cs ++ repeat (-1)%Z m2 /\
      ~ In (-1)%Z cs /\ (m1 <= tr_count t)%nat /\ (tr_count t <= length (tr_pts t))%nat /\ (tr_out t = false \/ ignore_after = true -> m2 = 0%nat)
    else tr_out t = false /\ tr_count t = 0%nat /\ tr_cells t = repeat (-1)%Z (length (tr_cells t)) }.

Lemma repeat_snoc {A} (x : A) k : repeat x k ++ [x] = repeat x (S k).
Proof. induction k; cbn in *; [reflexivity|]. now rewrite IHk. Qed.

Lemma inv_add lid t q c : inv lid t -> source q lid c ->
  (c <> (-1)%Z -> tr_in t = true /\ tr_out t = false) ->
  (c = (-1)%Z -> tr_in t = true -> tr_out t = true /\ ignore_after = false) -> inv lid (add t q lid c).
Proof.
  intros I Hs Hc Hc'. destruct (add_cases t q lid c) as [->|(Hcl & Hm & ->)]; [exact I|].
  destruct I as [I1 I2 I3 I4 I5 I6 I7 I8]. constructor; cbn [tr_pts tr_lines tr_cells tr_in tr_out tr_count tr_cell].
  - destruct (tr_pts t); [discriminate|exact I1].
  - rewrite !app_length; cbn; lia.
  - rewrite !app_length; cbn; lia.
  - now apply sorted_snoc.
  - apply Forall_app. auto.
  - intros k p q' l c' Hp Hq Hl Hcc. apply nth_error_snoc in Hq as [Hq|[Ek ->]].
    + assert (k < length (tr_lines t))%nat. { apply nth_error_Some_lt in Hq || (assert (nth_error (tr_pts t) (S k) <> None) by congruence; apply nth_error_Some in H). lia. }
      rewrite nth_error_app1 in Hl by lia. rewrite nth_error_app1 in Hcc by lia. rewrite nth_error_app1 in Hp by lia. eauto.
    + assert (k = length (tr_lines t)) by lia. subst k. clear Ek.
      rewrite nth_error_app2, Nat.sub_diag in Hl by lia. injection Hl as <-.
      rewrite <- I3 in Hcc. rewrite nth_error_app2, Nat.sub_diag in Hcc by lia. injection Hcc as <-.
      rewrite nth_error_app1 in Hp by lia.
      assert (Elast : last_pt t = p). { apply last_nth. replace (length (tr_pts t) - 1)%nat with (length (tr_lines t)) by lia. exact Hp. }
      rewrite Elast in Hcl, Hm. split; [now apply close_apart|]. split; [|exact Hs].
      intros Hne. destruct (Hc Hne). rewrite <- norm_dist. auto.
  - exact I7.
  - destruct (tr_in t) eqn:Ein.
    + destruct I8 as (m1 & cs & m2 & E & Hno & Hle & Hle2 & Hm2). destruct (Z.eq_dec c (-1)) as [->|Hne].
      * destruct (Hc' eq_refl eq_refl) as [Eo Ea]. exists m1, cs, (S m2). rewrite E, <- !app_assoc, repeat_snoc, app_length.
        repeat split; auto; try lia. intros [?|?]; congruence.
      * destruct (Hc Hne) as [_ Eo]. rewrite (Hm2 (or_introl Eo)) in E. cbn in E. rewrite app_nil_r in E.
        exists m1, (cs ++ [c]), 0%nat. rewrite E, app_length. cbn. rewrite app_nil_r, <- app_assoc.
        repeat split; auto; try lia. intros Hin%in_app_or. destruct Hin as [?|[?|[]]]; [contradiction|congruence].
    + destruct I8 as (Eo & Ec & E). destruct (Z.eq_dec c (-1)) as [->|Hne]; [|destruct (Hc Hne); congruence].
      repeat split; auto. rewrite app_length, Nat.add_comm. cbn [length Nat.add]. rewrite E at 1. now rewrite repeat_snoc.
Qed.

Lemma inv_entry lid t : inv lid t -> tr_in t = false ->
  length (tr_pts t) = S (length (tr_cells t)) /\ tr_out t = false /\ tr_cells t = repeat (-1)%Z (length (tr_cells t)).
Proof. intros [I1 I2 I3 I4 I5 I6 I7 I8] E. rewrite E in I8. destruct I8 as (? & ? & ?). repeat split; auto. lia. Qed.

Lemma inv_in lid u t' m : inv lid u -> tr_in u = false -> tr_pts t' = tr_pts u -> tr_lines t' = tr_lines u ->
  tr_cells t' = tr_cells u -> tr_in t' = true -> tr_count t' = m -> tr_cell t' = tr_cell u ->
  (length (tr_cells u) <= m <= length (tr_pts u))%nat -> tr_cell u <> None -> inv lid t'.
Proof.
  intros I Ein E1 E2 E3 E4 E5 E6 Hm Hne. destruct (inv_entry _ _ I Ein) as (El & Eo & Ec).
  destruct I as [J1 J2 J3 J4 J5 J6 J7 J8]. constructor; rewrite ?E1, ?E2, ?E3, ?E4, ?E5, ?E6; auto.
  - destruct J7. split; [assumption|congruence].
  - exists (length (tr_cells u)), [], 0%nat. cbn. rewrite app_nil_r. repeat split; auto; lia.
Qed.

(* the line enters the mesh at q *)
Lemma inv_enter lid t q : inv lid t -> tr_in t = false -> tr_cell t <> None -> source q lid (-1)%Z ->
  inv lid (add (enter (counted t)) q lid (-1)%Z) /\ inv lid (enter (add (counted t) q lid (-1)%Z)).
Proof.
  intros I Ein Hne Hs. destruct (inv_entry _ _ I Ein) as (El & Eo & Ec).
  assert (Iq : inv lid (add t q lid (-1)%Z)) by (apply inv_add; auto; congruence).
  assert (K : forall t', tr_in t' = true -> tr_count t' = length (tr_pts t) -> tr_cell t' = tr_cell t ->
    (tr_pts t' = tr_pts t /\ tr_lines t' = tr_lines t /\ tr_cells t' = tr_cells t \/
     close tolerance (last_pt t) q = false /\ tr_pts t' = tr_pts t ++ [q] /\ tr_lines t' = tr_lines t ++ [lid] /\ tr_cells t' = tr_cells t ++ [(-1)%Z]) -> inv lid t').
  { intros t' E4 E5 E6 [(E1 & E2 & E3)|(Hc & E1 & E2 & E3)].
    - apply (inv_in lid t t' (length (tr_pts t))); auto. lia.
    - unfold add_point in Iq. rewrite Hc, Ein in Iq. cbn [negb orb] in Iq. eapply (inv_in _ _ t' (length (tr_pts t)) Iq); auto.
      cbn. rewrite !app_length. cbn. lia. }
  split.
  - destruct (add_flags (enter (counted t)) q lid (-1)%Z) as (E1 & E2 & E3 & E4). apply K; auto.
    destruct (add_cases (enter (counted t)) q lid (-1)%Z) as [->|(Hc & _ & ->)]; [left|right]; cbn; auto.
  - destruct (add_flags (counted t) q lid (-1)%Z) as (E1 & E2 & E3 & E4). apply K; auto.
    destruct (add_cases (counted t) q lid (-1)%Z) as [->|(Hc & _ & ->)]; [left|right]; cbn; auto.
Qed.

Lemma inv_move lid t c : inv lid t -> c <> (-1)%Z -> inv lid (move c t).
Proof. intros [I1 I2 I3 I4 I5 I6 I7 I8] H. constructor; cbn; auto. split; congruence. Qed.
Lemma inv_leave lid t : inv lid t -> tr_in t = true -> inv lid (leave t).
Proof.
  intros [I1 I2 I3 I4 I5 I6 I7 I8] H. constructor; cbn; auto. rewrite H in *. destruct I8 as (m1 & cs & m2 & E & Hno & Hle & Hle2 & Hm2).
  exists m1, cs, m2. repeat split; auto. intros [?|?]; [discriminate|auto].
Qed.
Lemma inv_next lid t : inv lid t -> inv (S lid) t.
Proof. intros [I1 I2 I3 I4 I5 I6 I7 I8]. constructor; auto. eapply Forall_impl; [|exact I5]. cbn; lia. Qed.

(* leaving and adding b: the order of the two does not matter *)
Lemma leave_add lid t b : inv lid t -> tr_in t = true -> tr_out t = false -> ignore_after = false -> source b lid (-1)%Z ->
  inv lid (leave (add t b lid (-1)%Z)).
Proof.
  intros I Hi Ho Ha Hs. destruct (add_cases t b lid (-1)%Z) as [->|(Hc & _ & ->)]; [now apply inv_leave|].
  pose proof (inv_add lid (leave t) b (-1)%Z (inv_leave _ _ I Hi) Hs) as J.
  unfold add_point, last_pt in J. cbn [leave tr_pts tr_lines tr_cells tr_in tr_out tr_count tr_cell] in J.
  unfold last_pt in Hc. rewrite Hc, orb_true_r in J. cbn [orb] in J. apply J; [congruence|auto].
Qed.

Section segment.
Variables (lid : nat) (a b last : pt).
Hypothesis (Ha : nth_error pts lid = Some a) (Hb : nth_error pts (S lid) = Some b).

Lemma inv_through t cid x f rows r : inv lid t -> tr_in t = true -> tr_out t = false -> tr_cell t = Some cid ->
  cast o cid a b = Some rows -> In (x, f) rows ->
  through o min_length tolerance ignore_after lid (S lid =? n)%nat b last t cid x f = Ok r ->
  inv lid (snd r) /\ (fst r = true -> tr_in (snd r) = true /\ tr_out (snd r) = false).
Proof.
  intros I Hi Ho Hcell Hr Hx. unfold through. cbn zeta.
  assert (Ncid : cid <> (-1)%Z) by (destruct I as [? ? ? ? ? ? [? ?] ?]; congruence).
  assert (I1 : inv lid (add t x lid cid)).
  { apply inv_add; auto; [|congruence]. exists a, b. repeat split; auto. right. eauto 7. }
  destruct (add_flags t x lid cid) as (Ei & Eo & _ & Ec). set (t1 := add t x lid cid) in *. clearbody t1.
  rewrite Hi in Ei. rewrite Ho in Eo.
  destruct (Rltb _ _); [intros [= <-]; cbn; split; [auto|discriminate]|].
  destruct (length (sides o f) =? 1)%nat; [discriminate|].
  destruct (negb _); [discriminate|].
  destruct (existsb (Z.eqb (-1)) (sides o f)) eqn:Eout.
  - intros [= <-]. cbn [fst snd]. split; [|discriminate]. apply (if_split ignore_after t1 _ (fun u => inv lid (leave u))); intros Ea.
    + now apply inv_leave.
    + apply leave_add; auto. exists a, b. repeat split; auto.
  - destruct (filter _ (sides o f)) as [|c rest] eqn:Ef; [discriminate|].
    assert (Nc : c <> (-1)%Z).
    { intros ->. assert (Hin : In (-1)%Z (filter (fun c => negb (c =? cid)%Z) (sides o f))) by (rewrite Ef; now left).
      apply filter_In in Hin as [Hin _]. assert (existsb (Z.eqb (-1)) (sides o f) = true); [|congruence].
      apply existsb_exists. exists (-1)%Z. now rewrite Z.eqb_refl. }
    destruct (_ && _)%bool eqn:Efin; intros [= <-]; cbn [fst snd].
    + apply andb_prop in Efin as [E1 E2]. apply Nat.eqb_eq in E1. split; [|discriminate].
      apply inv_add; [now apply inv_move| |auto|congruence]. exists a, b. repeat split; auto.
    + split; [now apply inv_move|]. auto.
Qed.

Lemma inv_turn t r : inv lid t -> tr_out t = false ->
  turn o min_length tolerance ignore_after lid (S lid =? n)%nat a b last t = Ok r ->
  inv lid (snd r) /\ (fst r = true -> tr_out (snd r) = false).
Proof.
  intros I Ho. unfold turn. destruct (tr_cell t) as [cid|] eqn:Ec; [|discriminate].
  destruct (cast o cid a b) as [rows|] eqn:Er; [|intros [= <-]; cbn; auto].
  assert (S1 : forall x f, In (x, f) rows -> source x lid (-1)%Z).
  { intros x f Hx. exists a, b. repeat split; auto. right. eauto 8. }
  assert (T : forall t' x f r', inv lid t' -> tr_in t' = true -> tr_out t' = false -> tr_cell t' = Some cid -> In (x, f) rows ->
    through o min_length tolerance ignore_after lid (S lid =? n)%nat b last t' cid x f = Ok r' ->
    inv lid (snd r') /\ (fst r' = true -> tr_out (snd r') = false)).
  { intros t' x f r' I' Hi' Ho' Hc' Hx' H'. destruct (inv_through _ _ _ _ _ _ I' Hi' Ho' Hc' Er Hx' H') as [? K]. split; [assumption|]. intros K'. now apply K. }
  destruct rows as [|[x f] [|[y g] [|]]]; try discriminate.
  - destruct (tr_in t) eqn:Ein; cbn [negb].
    + destruct (close _ _ _) eqn:Ecl.
      * intros [= <-]. cbn [fst snd]. split; [|discriminate]. unfold add_point. rewrite Ecl. exact I.
      * intros H. apply (T t x f r I Ein Ho Ec); [now left|exact H].
    + destruct (inv_enter lid t x I Ein ltac:(congruence) (S1 x f (or_introl eq_refl))) as [I1 _]. cbn zeta.
      destruct (add_flags (enter (counted t)) x lid (-1)%Z) as (E1 & E2 & E3 & E4).
      destruct (_ <? _)%nat; [intros [= <-]; cbn [fst snd]; split; [exact I1|discriminate]|].
      intros H. refine (T _ x f r I1 _ _ _ _ H); [now rewrite E1|now rewrite E2|now rewrite E4|now left].
  - cbn zeta. set (near := if Rleb _ _ then x else y).
    assert (Sn : source near lid (-1)%Z). { unfold near. destruct (Rleb _ _); [apply (S1 x f)|apply (S1 y g)]; cbn; auto. }
    set (t' := if negb (tr_in t) then _ else t).
    assert (It : inv lid t' /\ tr_in t' = true /\ tr_out t' = false /\ tr_cell t' = Some cid).
    { unfold t'. destruct (tr_in t) eqn:Ein; cbn [negb]; [auto|].
      destruct (inv_enter lid t near I Ein ltac:(congruence) Sn) as [_ I1]. destruct (add_flags (counted t) near lid (-1)%Z) as (E1 & E2 & E3 & E4).
      split; [exact I1|]. repeat split; cbn; [rewrite E2|rewrite E4]; assumption. }
    destruct It as (It & Hit & Hot & Hct). clearbody t'. clearbody near.
    destruct (Rleb _ _); intros H; [exact (T t' x f r It Hit Hot Hct (or_introl eq_refl) H)|exact (T t' y g r It Hit Hot Hct (or_intror (or_introl eq_refl)) H)].
Qed.

Lemma inv_walk fuel : forall t t', inv lid t -> tr_out t = false ->
  walk o min_length tolerance ignore_after fuel lid (S lid =? n)%nat a b last t = Some (Ok t') -> inv lid t'.
Proof.
  induction fuel as [|fuel IH]; intros t t' I Ho; cbn [walk]; [discriminate|].
  destruct (turn _ _ _ _ _ _ _ _ _ _) as [[[] t1]|e] eqn:E; [| |discriminate]; apply (inv_turn _ _ I Ho) in E as [I1 K]; cbn [fst snd] in *.
  - apply IH; auto.
  - intros [= <-]. exact I1.
Qed.
End segment.

Lemma inv_segments fuel last : forall ps lid t t', inv lid t -> (forall k, nth_error ps k = nth_error pts (lid + k)) ->
  segments o min_length tolerance ignore_after fuel n lid last t ps = Some (Ok t') -> exists l', inv l' t'.
Proof.
  induction ps as [|a ps IH]; intros lid t t' I Hp; cbn [segments]; [intros [= <-]; eauto|].
  destruct ps as [|b ps]; [intros [= <-]; eauto|].
  pose proof (Hp 0%nat) as Ha. pose proof (Hp 1%nat) as Hb. cbn [nth_error] in Ha, Hb. rewrite Nat.add_0_r in Ha. rewrite Nat.add_1_r in Hb. symmetry in Ha, Hb.
  assert (Hp' : forall k, nth_error (b :: ps) k = nth_error pts (S lid + k)).
  { intros k. specialize (Hp (S k)). replace (S lid + k)%nat with (lid + S k)%nat by lia. rewrite <- Hp. reflexivity. }
  assert (Hs : source b lid (-1)%Z) by (exists a, b; repeat split; auto).
  destruct (match tr_cell t with Some c => Some c | None => first_cell o a b end) as [c|] eqn:Ec.
  - assert (Nc : c <> (-1)%Z).
    { destruct (tr_cell t) as [c'|] eqn:Et; [destruct I as [? ? ? ? ? ? [? ?] ?]; congruence|]. unfold first_cell in Ec. destruct (id_sort _); [discriminate|]. injection Ec as <-. lia. }
    pose proof (inv_move _ _ _ I Nc) as I1. destruct (tr_out (move c t)) eqn:Eo; cbn [negb].
    + apply (if_split ignore_after _ _ (fun u => u = Some (Ok t') -> exists l', inv l' t')); intros Ea; [intros [= <-]; eauto|].
      apply IH; [|exact Hp']. apply inv_next. apply inv_add; auto; congruence.
    + destruct (walk _ _ _ _ _ _ _ _ _ _ _) as [[t1|]|] eqn:Ew; [|discriminate|discriminate].
      apply inv_walk in Ew; auto. apply IH; [|exact Hp']. now apply inv_next.
  - assert (Ein : tr_cell t = None) by (destruct (tr_cell t); congruence).
    apply IH; [|exact Hp']. apply inv_next. apply inv_add; auto; [congruence|].
    intros _ Hin. destruct I as [? ? ? ? ? ? [_ K] ?]. rewrite (K Ein) in Hin. discriminate.
Qed.

Lemma nth_error_skipn {A} (l : list A) k i : nth_error (skipn k l) i = nth_error l (k + i).
Proof. revert l. induction k as [|k IH]; intros [|x l]; cbn; auto. now destruct i. Qed.

Lemma sorted_skipn k l : StronglySorted le l -> StronglySorted le (skipn k l).
Proof. revert l. induction k as [|k IH]; intros l H; [exact H|]. destruct l; [constructor|]. inversion H; subst. cbn. auto. Qed.

Lemma labels_skipn m1 cs m2 k : ~ In (-1)%Z cs -> (m1 <= k)%nat ->
  exists cs' m, skipn k (repeat (-1)%Z m1 ++ cs ++ repeat (-1)%Z m2) = cs' ++ repeat (-1)%Z m /\ ~ In (-1)%Z cs' /\ (m <= m2)%nat.
Proof.
  intros Hn Hk. rewrite skipn_app, repeat_length, skipn_all2 by (rewrite repeat_length; lia). cbn [app].
  rewrite skipn_app. set (k1 := (k - m1)%nat). exists (skipn k1 cs), (m2 - (k1 - length cs))%nat. split; [|split; [|lia]].
  - f_equal. generalize (k1 - length cs)%nat as j. clear. induction m2 as [|m2 IH]; intros [|j]; cbn; auto.
  - intros H. apply Hn. rewrite <- (firstn_skipn k1 cs). apply in_or_app. now right.
Qed.

Lemma crossings_ok fuel ib ps ls cs :
  crossings o min_length tolerance ignore_after fuel ib pts = Some (Ok (ps, ls, cs)) ->
  (ps = [] /\ ls = [] /\ cs = [] /\ ib = true \/ length ps = S (length ls)) /\ length cs = length ls /\
  StronglySorted le ls /\ (ib = false -> hd_error ps = hd_error pts) /\
  (forall l, In l ls -> (S l < length pts)%nat) /\
  (forall k p q l c, nth_error ps k = Some p -> nth_error ps (S k) = Some q -> nth_error ls k = Some l -> nth_error cs k = Some c -> good p q l c) /\
  (exists m1 cs1 m2, cs = repeat (-1)%Z m1 ++ cs1 ++ repeat (-1)%Z m2 /\ ~ In (-1)%Z cs1 /\ (ib = true -> cs1 = [] \/ m1 = 0%nat) /\ (ignore_after = true -> cs1 = [] \/ m2 = 0%nat)).
Proof.
  unfold crossings. destruct pts as [|p0 ps0] eqn:Ep; [discriminate|]. rewrite <- Ep.
  destruct (segments _ _ _ _ _ _ _ _ _ _) as [[t|]|] eqn:Es; [|discriminate|discriminate].
  intros H%(f_equal (fun r => match r with Some (Ok x) => x | _ => ([], [], []) end)). cbn beta iota in H.
  set (k := if ib then tr_count t else 0%nat) in H. injection H as <- <- <-.
  assert (I0 : inv 0 (mkT [p0] [] [] false false 0 None)).
  { constructor; cbn [tr_pts tr_lines tr_cells tr_in tr_out tr_count tr_cell]; try reflexivity; try solve [constructor].
    - now rewrite Ep.
    - intros [|k']; discriminate.
    - split; [discriminate|reflexivity].
    - repeat split; reflexivity. }
  destruct (inv_segments _ _ _ _ _ _ I0 (fun k => eq_refl) Es) as (l' & [I1 I2 I3 I4 I5 I6 I7 I8]).
  assert (Steps : forall j p q l c, nth_error (skipn k (tr_pts t)) j = Some p -> nth_error (skipn k (tr_pts t)) (S j) = Some q ->
    nth_error (skipn k (tr_lines t)) j = Some l -> nth_error (skipn k (tr_cells t)) j = Some c -> good p q l c).
  { intros j p q l c. rewrite !nth_error_skipn, Nat.add_succ_r. apply I6. }
  assert (Hk : (k <= length (tr_pts t))%nat).
  { unfold k. destruct ib; [|lia]. destruct (tr_in t); [destruct I8 as (? & ? & ? & ? & ? & ? & ? & ?); lia|destruct I8 as (? & ? & ?); lia]. }
  assert (Hlen : (k = length (tr_pts t) /\ ib = true \/ (k <= length (tr_lines t))%nat)).
  { destruct (Nat.eq_dec k (length (tr_pts t))) as [E|E]; [left|right; lia]. split; [exact E|]. unfold k in E. destruct ib; [reflexivity|lia]. }
  assert (Hlen2 : skipn k (tr_pts t) = [] /\ skipn k (tr_lines t) = [] /\ skipn k (tr_cells t) = [] /\ ib = true \/
     length (skipn k (tr_pts t)) = S (length (skipn k (tr_lines t)))).
  { destruct Hlen as [[E1 E2]|E]; [left|right; rewrite !skipn_length; lia].
    split; [apply skipn_all2; lia|]. split; [apply skipn_all2; lia|]. split; [apply skipn_all2; lia|exact E2]. }
  assert (Hcl : length (skipn k (tr_cells t)) = length (skipn k (tr_lines t))) by (rewrite !skipn_length; lia).
  split; [exact Hlen2|]. split; [exact Hcl|]. split; [now apply sorted_skipn|].
  split. { intros ->. exact I1. }
  split.
  { intros l Hl. apply In_nth_error in Hl as (j & Hj).
    assert (Lj : (j < length (skipn k (tr_lines t)))%nat) by (apply nth_error_Some; congruence).
    destruct Hlen2 as [(_ & E & _)|E]; [rewrite E in Lj; cbn in Lj; lia|].
    destruct (nth_error (skipn k (tr_pts t)) j) as [p|] eqn:E1; [|apply nth_error_None in E1; lia].
    destruct (nth_error (skipn k (tr_pts t)) (S j)) as [q|] eqn:E2; [|apply nth_error_None in E2; lia].
    destruct (nth_error (skipn k (tr_cells t)) j) as [c|] eqn:E3; [|apply nth_error_None in E3; lia].
    destruct (Steps _ _ _ _ _ E1 E2 Hj E3) as (_ & _ & a & b & _ & Hb & _). apply nth_error_Some. congruence. }
  split; [exact Steps|].
  unfold k. destruct (tr_in t).
  - destruct I8 as (m1 & cs & m2 & E & Hno & Hle & Hle2 & Hm2). destruct ib.
    + destruct (labels_skipn m1 cs m2 (tr_count t) Hno Hle) as (cs' & m & E' & Hno' & Hm). rewrite E, E'. exists 0%nat, cs', m.
      repeat split; auto. intros Ha. right. rewrite (Hm2 (or_intror Ha)) in Hm. lia.
    + exists m1, cs, m2. cbn [skipn]. repeat split; auto. discriminate.
  - destruct I8 as (_ & Ec & E). rewrite Ec. replace (if ib then 0%nat else 0%nat) with 0%nat by now destruct ib. cbn [skipn].
    exists (length (tr_cells t)), [], 0%nat. cbn. rewrite app_nil_r. auto.
Qed.
End invariants.
