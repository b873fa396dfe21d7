(* Proofs for C56. *)
From Coq Require Import Reals Lra Permutation.
From Verif Require Import Prelude Surface_model Volume_spec Lines_model Lines_spec Topo2_proof Lines1_proof Lines3_proof.
Open Scope R_scope.

Lemma argmax_spec l i b ib im d : argmax_from l i b ib = (im, d) ->
  b <= d /\ (forall x, In x l -> x <= d) /\
  (im = ib /\ d = b \/ (i <= im < i + length l)%nat /\ nth_error l (im - i) = Some d).
Proof.
  revert i b ib; induction l as [|x l IH]; intros i b ib H; cbn [argmax_from] in H.
  - injection H as <- <-. repeat split; auto; [lra|easy].
  - destruct (Rlt_dec b x) as [Hlt|Hge]; apply IH in H as (H1 & H2 & H3).
    + split; [lra|]. split; [intros y [<-|Hy]; auto|]. right.
      destruct H3 as [[-> ->]|[H3 H4]].
      * rewrite Nat.sub_diag. cbn [length nth_error]. split; [lia|auto].
      * cbn [length]. split; [lia|]. replace (im - i)%nat with (S (im - S i)) by lia. exact H4.
    + split; [lra|]. split; [intros y [<-|Hy]; auto; lra|].
      destruct H3 as [[-> ->]|[H3 H4]]; [now left|right].
      cbn [length]. split; [lia|]. replace (im - i)%nat with (S (im - S i)) by lia. exact H4.
Qed.

Lemma norm_0 p : norm p = 0 -> p = (0, 0, 0).
Proof.
  destruct p as [[x y] z]. unfold norm. intros H.
  apply sqrt_eq_0 in H; [|pose proof (Rle_0_sqr x); pose proof (Rle_0_sqr y); pose proof (Rle_0_sqr z); unfold Rsqr in *; lra].
  pose proof (Rle_0_sqr x); pose proof (Rle_0_sqr y); pose proof (Rle_0_sqr z). unfold Rsqr in *.
  assert (E1 : x * x = 0) by lra. assert (E2 : y * y = 0) by lra. assert (E3 : z * z = 0) by lra.
  apply Rsqr_0_uniq in E1, E2, E3. now subst.
Qed.

Lemma norm_zero : norm (0, 0, 0) = 0.
Proof. unfold norm. replace (0 * 0 + 0 * 0 + 0 * 0) with 0 by ring. apply sqrt_0. Qed.

Lemma norm_nonneg p : 0 <= norm p.
Proof. destruct p as [[x y] z]. apply sqrt_pos. Qed.

Lemma rdp_dist_nonneg p0 p1 p : 0 <= rdp_dist p0 p1 p.
Proof.
  unfold rdp_dist. destruct (Rlt_dec _ _) as [H|H]; [|apply norm_nonneg].
  apply Rmult_le_pos; [apply norm_nonneg|]. left. now apply Rinv_0_lt_compat.
Qed.

Lemma rdp_dist_first p0 p1 : rdp_dist p0 p1 p0 = 0.
Proof.
  unfold rdp_dist. destruct (Rlt_dec _ _) as [H|H].
  - replace (times (minus p1 p0) (minus p0 p0)) with ((0, 0, 0) : pt).
    + rewrite norm_zero. unfold Rdiv. ring.
    + destruct p0 as [[x y] z], p1 as [[a b] c]. unfold times, minus. repeat f_equal; ring.
  - rewrite norm_minus. apply distance_refl.
Qed.

Lemma rdp_dist_last p0 p1 : rdp_dist p0 p1 p1 = 0.
Proof.
  unfold rdp_dist. destruct (Rlt_dec _ _) as [H|H].
  - replace (times (minus p1 p0) (minus p0 p1)) with ((0, 0, 0) : pt).
    + rewrite norm_zero. unfold Rdiv. ring.
    + destruct p0 as [[x y] z], p1 as [[a b] c]. unfold times, minus. repeat f_equal; ring.
  - pose proof (norm_nonneg (minus p1 p0)). lra.
Qed.

(* squared distance to a point of the line *)
Lemma sq_along p0 p1 p t :
  let '(ux, uy, uz) := minus p1 p0 in let '(wx, wy, wz) := minus p p0 in
  let u2 := ux * ux + uy * uy + uz * uz in let uw := ux * wx + uy * wy + uz * wz in
  u2 * sq_dist p (along p0 p1 t) =
  (let '(cx, cy, cz) := times (minus p1 p0) (minus p0 p) in cx * cx + cy * cy + cz * cz) +
  (uw - t * u2) * (uw - t * u2).
Proof.
  destruct p0 as [[x y] z], p1 as [[a b] c], p as [[r s] q]. unfold minus, times, along, sq_dist. ring.
Qed.

Lemma rdp_dist_near tol p0 p1 p : rdp_dist p0 p1 p <= tol <-> near_line tol p0 p1 p.
Proof.
  unfold rdp_dist, near_line. destruct (Rlt_dec _ _) as [H|H].
  - set (u := minus p1 p0) in *. set (c := times u (minus p0 p)).
    assert (Hu : 0 < (let '(a, b, c) := u in a * a + b * b + c * c)).
    { destruct u as [[a b] d]. unfold norm in H. apply Rnot_le_lt. intros Hle.
      rewrite sqrt_neg_0 in H by auto. lra. }
    assert (E : norm c / norm u = sqrt ((let '(a, b, c) := c in a * a + b * b + c * c) / (let '(a, b, c) := u in a * a + b * b + c * c))).
    { destruct c as [[c1 c2] c3], u as [[u1 u2] u3]. unfold norm. symmetry. apply sqrt_div_alt. exact Hu. }
    rewrite E. pose proof (fun t => sq_along p0 p1 p t) as S. fold u in S. fold c in S.
    destruct u as [[u1 u2] u3]. destruct (minus p p0) as [[w1 w2] w3]. destruct c as [[c1 c2] c3]. cbv zeta in S.
    set (U := u1 * u1 + u2 * u2 + u3 * u3) in *. set (UW := u1 * w1 + u2 * w2 + u3 * w3) in *.
    set (C := c1 * c1 + c2 * c2 + c3 * c3) in *. split.
    + intros Hd. exists (UW / U). unfold distance.
      replace (sq_dist p (along p0 p1 (UW / U))) with (C / U); auto.
      specialize (S (UW / U)). replace (UW - UW / U * U) with 0 in S by (field; lra).
      apply (Rmult_eq_reg_l U); [|lra]. rewrite S. field. lra.
    + intros [t Ht]. apply Rle_trans with (2 := Ht). unfold distance.
      apply sqrt_le_1_alt. specialize (S t).
      apply (Rmult_le_reg_l U); auto. rewrite S. replace (U * (C / U)) with C by (field; lra).
      pose proof (Rle_0_sqr (UW - t * U)). unfold Rsqr in *. lra.
  - assert (E0 : minus p1 p0 = (0, 0, 0)) by (apply norm_0; pose proof (norm_nonneg (minus p1 p0)); lra).
    assert (E : forall t, along p0 p1 t = p0).
    { intros t. destruct p0 as [[x y] z], p1 as [[a b] c]. unfold minus in E0. injection E0 as E1 E2 E3.
      unfold along. rewrite E1, E2, E3. repeat f_equal; ring. }
    rewrite norm_minus. split.
    + intros Hd. exists 0. rewrite E. now rewrite distance_sym.
    + intros [t Ht]. rewrite E in Ht. now rewrite distance_sym.
Qed.

(* ---- simplifications ---- *)
Lemma simplifies_last {A} (D : A -> A -> A -> Prop) ps qs : simplifies D ps qs ->
  exists x l o, ps = l ++ [x] /\ qs = o ++ [x].
Proof.
  induction 1 as [p l q H|p l q ps qs H _ (x & l' & o & E1 & E2)].
  - exists q, (p :: l), [p]. auto.
  - exists x, (p :: l ++ l'), (p :: o). rewrite E1, E2. cbn [app]. now rewrite <- app_assoc.
Qed.

Lemma simplifies_glue {A} (D : A -> A -> A -> Prop) l1 x l2 o1 o2 :
  simplifies D (l1 ++ [x]) (o1 ++ [x]) -> simplifies D (x :: l2) (x :: o2) ->
  simplifies D (l1 ++ x :: l2) (o1 ++ x :: o2).
Proof.
  intros H H2. remember (l1 ++ [x]) as ps eqn:E1. remember (o1 ++ [x]) as qs eqn:E2.
  revert l1 o1 E1 E2. induction H as [p l q H|p l q ps qs H H' IH]; intros l1 o1 E1 E2.
  - destruct o1 as [|a [|b o1]]; [discriminate|injection E2 as <- <-|destruct o1; discriminate].
    rewrite app_comm_cons in E1. apply app_inj_tail in E1 as [<- _]. cbn [app]. constructor; auto.
  - destruct o1 as [|a o1]; [discriminate|]. injection E2 as <- E2.
    destruct (simplifies_last _ _ _ H') as (y & l' & o' & Ha & Hb).
    rewrite Ha in E1. rewrite app_comm_cons, app_assoc in E1. apply app_inj_tail in E1 as [<- <-].
    specialize (IH l' o1 Ha E2).
    destruct o1 as [|b o1].
    + injection E2 as -> ->. inversion H'.
    + injection E2 as <- ->.
      destruct l' as [|c l'].
      * injection Ha as -> ->. inversion H'; [destruct l0; discriminate|destruct l0; discriminate].
      * injection Ha as <- ->. cbn [app]. rewrite <- app_assoc. cbn [app]. constructor; auto.
Qed.

Lemma simplifies_hd {A} (D : A -> A -> A -> Prop) ps qs : simplifies D ps qs -> hd_error ps = hd_error qs.
Proof. now destruct 1. Qed.

Lemma last_split {A} (l : list A) d : l <> [] -> l = removelast l ++ [last l d].
Proof. apply app_removelast_last. Qed.

Open Scope nat_scope.
Lemma rdp_step fuel tol p0 l p1 : (0 <= tol)%R ->
  let ps := p0 :: l ++ [p1] in
  (Forall (near_line tol p0 p1) l /\ rdp (S fuel) tol ps = Ok [p0; p1]) \/
  (~ Forall (near_line tol p0 p1) l /\ exists im, 0 < im < S (length l) /\
   rdp (S fuel) tol ps = let! r1 := rdp fuel tol (firstn (im + 1) ps) in
                         let! r2 := rdp fuel tol (skipn im ps) in Ok (removelast r1 ++ r2)).
Proof.
  intros Ht. cbv zeta. cbn [rdp].
  assert (El : last (p0 :: l ++ [p1]) p0 = p1) by (rewrite app_comm_cons; apply last_last).
  rewrite El. cbn [map tl].
  destruct (argmax_from (map (rdp_dist p0 p1) (l ++ [p1])) 1 (rdp_dist p0 p1 p0) 0) as [im d] eqn:E.
  apply argmax_spec in E as (H1 & H2 & H3). rewrite rdp_dist_first in *.
  destruct (Rlt_dec tol d) as [Hd|Hd].
  - right. destruct H3 as [[_ ->]|[H3 H4]]; [lra|].
    rewrite map_length, app_length in H3. cbn [length] in H3.
    assert (Him : im < S (length l)).
    { destruct (Nat.eq_dec im (S (length l))) as [->|]; [|lia]. rewrite nth_error_map in H4.
      replace (S (length l) - 1) with (length l) in H4 by lia.
      rewrite nth_error_app2, Nat.sub_diag in H4 by lia. cbn in H4. injection H4 as <-.
      rewrite rdp_dist_last in Hd. lra. }
    split; [|exists im; split; [lia|reflexivity]].
    intros Hall. rewrite Forall_forall in Hall. rewrite nth_error_map in H4.
    rewrite nth_error_app1 in H4 by lia. destruct (nth_error l (im - 1)) as [x|] eqn:Ex; [|discriminate].
    injection H4 as <-. apply nth_error_In in Ex. apply Hall in Ex. apply rdp_dist_near in Ex. lra.
  - left. split; [|reflexivity]. apply Forall_forall. intros x Hx. apply rdp_dist_near.
    assert (rdp_dist p0 p1 x <= d)%R by (apply H2; apply in_map, in_app_iff; now left). lra.
Qed.

Lemma two_ends {A} (l : list A) : 2 <= length l -> exists a m b, l = a :: m ++ [b].
Proof.
  destruct l as [|a l]; cbn; [lia|]. intros H. exists a, (removelast l), (last l a). f_equal.
  apply last_split. destruct l; [cbn in H; lia|discriminate].
Qed.

Lemma rdp_spec fuel tol ps : (0 <= tol)%R -> 2 <= length ps <= fuel ->
  exists out, rdp fuel tol ps = Ok out /\ simplifies (near_line tol) ps out.
Proof.
  intros Ht. revert ps; induction fuel as [|fuel IH]; intros ps Hl; [lia|].
  destruct (two_ends ps) as (p0 & l & p1 & ->); [lia|].
  destruct (rdp_step fuel tol p0 l p1 Ht) as [[Ha E]|(_ & im & Him & E)]; cbv zeta in E; rewrite E.
  - eexists; split; [reflexivity|]. now constructor.
  - set (ps := p0 :: l ++ [p1]) in *.
    assert (Hlen : length ps = S (S (length l))) by (unfold ps; cbn; rewrite app_length; cbn; lia).
    destruct (IH (firstn (im + 1) ps)) as (r1 & E1 & S1); [rewrite firstn_length; lia|].
    destruct (IH (skipn im ps)) as (r2 & E2 & S2); [rewrite skipn_length; lia|].
    rewrite E1, E2. cbn [bind]. eexists; split; [reflexivity|].
    destruct (nth_error ps im) as [x|] eqn:Ex; [|apply nth_error_None in Ex; lia].
    assert (Ef : firstn (im + 1) ps = firstn im ps ++ [x]).
    { clear -Ex. revert im Ex; induction ps as [|y ps IH]; intros [|im] Ex; try discriminate.
      - injection Ex as ->. reflexivity.
      - cbn [Nat.add firstn app]. f_equal. now apply IH. }
    assert (Es : skipn im ps = x :: skipn (S im) ps).
    { clear -Ex. revert im Ex; induction ps as [|y ps IH]; intros [|im] Ex; try discriminate.
      - injection Ex as ->. reflexivity.
      - cbn [skipn]. now apply IH. }
    rewrite Ef in S1. rewrite Es in S2.
    destruct (simplifies_last _ _ _ S1) as (y & l1 & o1 & Ha & ->). apply app_inj_tail in Ha as [<- <-].
    rewrite removelast_last. destruct r2 as [|z o2]; [apply simplifies_hd in S2; discriminate|].
    pose proof (simplifies_hd _ _ _ S2) as Hz. injection Hz as <-.
    rewrite <- (firstn_skipn im ps), Es. apply simplifies_glue; auto.
Qed.

(* C56: two points are left exactly when all others are near their line *)
Lemma simplifies_len {A} (D : A -> A -> A -> Prop) ps qs : simplifies D ps qs -> 2 <= length qs.
Proof. induction 1; cbn in *; lia. Qed.

Lemma rdp_two fuel tol p0 l p1 out : (0 <= tol)%R -> length l + 2 <= fuel ->
  rdp fuel tol (p0 :: l ++ [p1]) = Ok out ->
  (length out = 2 <-> Forall (near_line tol p0 p1) l).
Proof.
  intros Ht Hf H. destruct fuel as [|fuel]; [lia|].
  destruct (rdp_step fuel tol p0 l p1 Ht) as [[Ha E]|(Hn & im & Him & E)]; cbv zeta in E; rewrite E in H.
  - apply Ok_inj in H as <-. tauto.
  - split; [|tauto]. intros Hlen. exfalso.
    set (ps := p0 :: l ++ [p1]) in *.
    assert (Hl : length ps = S (S (length l))) by (unfold ps; cbn; rewrite app_length; cbn; lia).
    destruct (rdp_spec fuel tol (firstn (im + 1) ps) Ht) as (r1 & E1 & S1); [rewrite firstn_length; lia|].
    destruct (rdp_spec fuel tol (skipn im ps) Ht) as (r2 & E2 & S2); [rewrite skipn_length; lia|].
    rewrite E1, E2 in H. cbn [bind] in H. apply Ok_inj in H as <-.
    apply simplifies_len in S1, S2. rewrite app_length in Hlen.
    destruct r1 as [|a [|b r1]]; cbn in S1; try lia. cbn [removelast length] in Hlen. lia.
Qed.

Lemma rdp_negative fuel tol p ps : (tol < 0)%R -> rdp fuel tol (p :: ps) = Err RecursionError.
Proof.
  intros Ht. revert p ps; induction fuel as [|fuel IH]; intros p ps; auto. cbn [rdp].
  destruct (argmax_from _ _ _ _) as [im d] eqn:E. apply argmax_spec in E as (H & _).
  rewrite rdp_dist_first in H. destruct (Rlt_dec tol d) as [Hd|Hd]; [|lra].
  rewrite Nat.add_1_r. cbn [firstn]. now rewrite IH.
Qed.

Lemma decimate_rdp_spec fuel tol points cells : (0 <= tol)%R ->
  (forall t ids, In (t, ids) cells -> in_range (length points) ids /\ (t = 4 -> 2 <= length ids <= fuel)) ->
  exists pts lines out, decimate_rdp fuel tol points cells = Ok (pts, lines) /\
  pts = concat out /\ runs pts lines out /\
  Forall2 (fun c o => exists ps, picks points (snd c) ps /\
      (fst c = 3 /\ o = ps \/ fst c = 4 /\ simplifies (near_line tol) ps o))
    (filter (fun c => (fst c =? 3) || (fst c =? 4)) cells) out.
Proof.
  intros Ht Hc. unfold decimate_rdp.
  assert (H : forall pre, exists pts lines out, rdp_lines fuel tol points (length pre) cells = Ok (pts, lines) /\
    pts = concat out /\ runs (pre ++ pts) lines out /\
    Forall2 (fun c o => exists ps, picks points (snd c) ps /\
      (fst c = 3 /\ o = ps \/ fst c = 4 /\ simplifies (near_line tol) ps o))
    (filter (fun c => (fst c =? 3) || (fst c =? 4)) cells) out).
  { induction cells as [|[t ids] cells IH]; intros pre; cbn [rdp_lines filter fst].
    - exists [], [], []. repeat split; constructor.
    - assert (IH' := IH (fun t ids H => Hc t ids (or_intror H))). clear IH.
      destruct ((t =? 3) || (t =? 4)) eqn:Et; [|apply IH'].
      destruct (Hc t ids (or_introl eq_refl)) as [Hr Hl].
      destruct (picks_exists points ids Hr) as [ps Hps]. rewrite (proj2 (take_picks _ _ _) Hps). cbn [bind].
      assert (Hx : exists ps', (if t =? 4 then rdp fuel tol ps else Ok ps) = Ok ps' /\
         (t = 3 /\ ps' = ps \/ t = 4 /\ simplifies (near_line tol) ps ps')).
      { destruct (Nat.eqb_spec t 4) as [->|H4].
        - destruct (rdp_spec fuel tol ps Ht) as (o & E & S); [rewrite (picks_len _ _ _ Hps); auto|].
          exists o; auto.
        - exists ps; split; auto. left. split; auto. rewrite orb_false_r in Et. now apply Nat.eqb_eq in Et. }
      destruct Hx as (ps' & -> & Hx). cbn [bind].
      destruct (IH' (pre ++ ps')) as (pts & lines & out & E & H1 & H2 & H3).
      rewrite app_length in E. rewrite E. cbn [bind fst snd].
      exists (ps' ++ pts), (seq (length pre) (length ps') :: lines), (ps' :: out). split; [reflexivity|].
      split; [cbn; congruence|]. split; [|constructor; auto; exists ps; auto].
      constructor; [apply picks_seq|]. now rewrite <- app_assoc in H2. }
  exact (H []).
Qed.

Lemma rdp_segment_refuted : exists tol ps out x, (0 <= tol)%R /\
  (forall fuel, 3 <= fuel -> rdp fuel tol ps = Ok out) /\
  ps = [(0, 0, 0); x; (1, 0, 0)]%R /\ out = [(0, 0, 0); (1, 0, 0)]%R /\
  ~ near_segment tol (0, 0, 0)%R (1, 0, 0)%R x.
Proof.
  exists 0%R, [(0, 0, 0); (2, 0, 0); (1, 0, 0)]%R, [(0, 0, 0); (1, 0, 0)]%R, (2, 0, 0)%R.
  assert (Hd : forall a b : R, distance (a, 0, 0)%R (b, 0, 0)%R = Rabs (a - b)%R).
  { intros a b. unfold distance, sq_dist. rewrite <- sqrt_Rsqr_abs. f_equal. unfold Rsqr. ring. }
  assert (Ha : forall t, along (0, 0, 0)%R (1, 0, 0)%R t = (t, 0, 0)%R).
  { intros t. unfold along. repeat f_equal; ring. }
  split; [lra|]. split; [|split; [auto|split; [auto|]]].
  - intros fuel Hf. destruct fuel as [|fuel]; [lia|].
    destruct (rdp_step fuel 0 (0, 0, 0)%R [(2, 0, 0)%R] (1, 0, 0)%R ltac:(lra)) as [[_ E]|[Hn _]]; [exact E|].
    exfalso. apply Hn. constructor; [|constructor]. exists 2%R. rewrite Ha, Hd.
    replace (2 - 2)%R with 0%R by ring. rewrite Rabs_R0. lra.
  - intros (t & Ht & Hd'). rewrite Ha, Hd in Hd'. rewrite Rabs_right in Hd' by lra. lra.
Qed.
