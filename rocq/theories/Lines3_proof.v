(* Proofs for C53-C55. *)
From Coq Require Import Reals Lra Permutation.
From Verif Require Import Prelude Surface_model Volume_spec Lines_model Lines_spec Topo2_proof Lines1_proof.
Open Scope R_scope.

(* ---- distances ---- *)
Lemma sq_dist_nonneg p q : 0 <= sq_dist p q.
Proof. destruct p as [[x y] z], q as [[a b] c]. unfold sq_dist.
  pose proof (Rle_0_sqr (x - a)); pose proof (Rle_0_sqr (y - b)); pose proof (Rle_0_sqr (z - c)).
  unfold Rsqr in *. lra. Qed.

Lemma distance_nonneg p q : 0 <= distance p q.
Proof. apply sqrt_pos. Qed.

Lemma distance_sym p q : distance p q = distance q p.
Proof. unfold distance. f_equal. destruct p as [[x y] z], q as [[a b] c]. unfold sq_dist. ring. Qed.

Lemma distance_refl p : distance p p = 0.
Proof.
  unfold distance. replace (sq_dist p p) with 0; [apply sqrt_0|].
  destruct p as [[x y] z]. unfold sq_dist. ring.
Qed.

Lemma distance_pos p q : p <> q -> 0 < distance p q.
Proof.
  intros H. apply sqrt_lt_R0. destruct (Rle_lt_or_eq_dec _ _ (sq_dist_nonneg p q)) as [|E]; auto.
  exfalso. apply H. destruct p as [[x y] z], q as [[a b] c]. unfold sq_dist in E.
  pose proof (Rle_0_sqr (x - a)) as H1; pose proof (Rle_0_sqr (y - b)) as H2; pose proof (Rle_0_sqr (z - c)) as H3.
  unfold Rsqr in *.
  assert (E1 : (x - a) * (x - a) = 0) by lra. assert (E2 : (y - b) * (y - b) = 0) by lra.
  assert (E3 : (z - c) * (z - c) = 0) by lra.
  apply Rsqr_0_uniq in E1, E2, E3. repeat f_equal; lra.
Qed.

Lemma cauchy a b c x y z :
  (a * x + b * y + c * z) * (a * x + b * y + c * z) <= (a * a + b * b + c * c) * (x * x + y * y + z * z).
Proof.
  pose proof (Rle_0_sqr (a * y - b * x)). pose proof (Rle_0_sqr (a * z - c * x)).
  pose proof (Rle_0_sqr (b * z - c * y)). unfold Rsqr in *. nra.
Qed.

Lemma triangle p q r : distance p r <= distance p q + distance q r.
Proof.
  unfold distance. pose proof (sq_dist_nonneg p q) as H1. pose proof (sq_dist_nonneg q r) as H2.
  pose proof (sqrt_pos (sq_dist p q)) as Hs1. pose proof (sqrt_pos (sq_dist q r)) as Hs2.
  rewrite <- (sqrt_Rsqr (sqrt (sq_dist p q) + sqrt (sq_dist q r))) by lra.
  apply sqrt_le_1; [apply sq_dist_nonneg|apply Rle_0_sqr|].
  unfold Rsqr. pose proof (sqrt_sqrt _ H1) as E1. pose proof (sqrt_sqrt _ H2) as E2.
  destruct p as [[x y] z], q as [[a b] c], r as [[u v] w].
  set (s1 := sqrt (sq_dist (x, y, z) (a, b, c))) in *. set (s2 := sqrt (sq_dist (a, b, c) (u, v, w))) in *.
  unfold sq_dist in *.
  pose proof (cauchy (x - a) (y - b) (z - c) (a - u) (b - v) (c - w)) as HC.
  set (d := (x - a) * (a - u) + (y - b) * (b - v) + (z - c) * (c - w)) in *.
  assert (Hd : d <= s1 * s2).
  { apply Rnot_lt_le. intros Hlt. assert (0 <= s1 * s2) by nra.
    assert (d * d <= (s1 * s2) * (s1 * s2)); [|nra].
    replace (s1 * s2 * (s1 * s2)) with ((s1 * s1) * (s2 * s2)) by ring. rewrite E1, E2. exact HC. }
  unfold d in Hd. nra.
Qed.

Lemma norm_minus p q : norm (minus q p) = distance p q.
Proof.
  destruct p as [[x y] z], q as [[a b] c]. unfold norm, minus, distance, sq_dist. f_equal. ring.
Qed.

Lemma chain_length_len ps : chain_length ps = chain_len ps.
Proof.
  induction ps as [|p [|q ps] IH]; auto.
  change (chain_length (p :: q :: ps)) with (norm (minus q p) + chain_length (q :: ps)).
  rewrite IH, norm_minus. reflexivity.
Qed.

Lemma chain_len_cons p q ps : chain_len (p :: q :: ps) = distance p q + chain_len (q :: ps).
Proof. reflexivity. Qed.

Lemma chain_len_nonneg ps : 0 <= chain_len ps.
Proof.
  induction ps as [|p [|q ps] IH]; [unfold chain_len; cbn; lra..|].
  rewrite chain_len_cons. pose proof (distance_nonneg p q). lra.
Qed.

Lemma chain_len_head p ps q : In q (p :: ps) -> distance p q <= chain_len (p :: ps).
Proof.
  revert p; induction ps as [|r ps IH]; intros p [->|H].
  - rewrite distance_refl. apply chain_len_nonneg.
  - easy.
  - rewrite distance_refl. apply chain_len_nonneg.
  - rewrite chain_len_cons. specialize (IH r H). pose proof (triangle p r q). lra.
Qed.

Lemma chain_len_two ps p q : In p ps -> In q ps -> distance p q <= chain_len ps.
Proof.
  induction ps as [|r ps IH]; intros Hp Hq; [easy|].
  destruct Hp as [->|Hp]; [apply chain_len_head; auto|].
  destruct Hq as [->|Hq]; [rewrite distance_sym; apply chain_len_head; now right|].
  destruct ps as [|s ps]; [easy|]. rewrite chain_len_cons. specialize (IH Hp Hq).
  pose proof (distance_nonneg r s). lra.
Qed.

Lemma chain_len_same ps : (forall p q, In p ps -> In q ps -> p = q) -> chain_len ps = 0.
Proof.
  induction ps as [|p [|q ps] IH]; intros H; auto.
  rewrite chain_len_cons, IH, (H p q); [rewrite distance_refl; lra|now left|right; now left|].
  intros; apply H; now right.
Qed.

(* ---- flips ---- *)
Open Scope nat_scope.
Lemma skipn_add {A} a b (l : list A) : skipn a (skipn b l) = skipn (b + a) l.
Proof. revert l; induction b as [|b IH]; intros l; auto. destruct l; cbn; [now rewrite skipn_nil|apply IH]. Qed.

Lemma flip_split {A} f l (path : list A) : f <= l ->
  path = firstn f path ++ firstn (l - f) (skipn f path) ++ skipn l path.
Proof.
  intros H. rewrite <- (firstn_skipn f path) at 1. f_equal.
  rewrite <- (firstn_skipn (l - f) (skipn f path)) at 1. f_equal.
  rewrite skipn_add. f_equal. lia.
Qed.

Lemma flip_perm {A} f l (path : list A) : f <= l -> Permutation (flip f l path) path.
Proof.
  intros H. rewrite (flip_split f l path H) at 2. unfold flip.
  apply Permutation_app_head, Permutation_app_tail. symmetry. apply Permutation_rev.
Qed.

Lemma flip_hd {A} f l (path : list A) : 1 <= f -> hd_error (flip f l path) = hd_error path.
Proof.
  intros H. unfold flip. destruct f as [|f]; [lia|]. destruct path as [|x path]; auto.
  cbn [firstn skipn]. rewrite firstn_nil. destruct l; auto.
Qed.

Lemma blocks_in n f l : In (f, l) (blocks n) <-> 1 <= f /\ f + 3 <= n /\ f + 2 <= l <= n.
Proof.
  unfold blocks. rewrite in_flat_map. split.
  - intros (x & Hx & Hy). apply in_map_iff in Hy as (y & [= <- <-] & Hy). apply in_seq in Hx, Hy. lia.
  - intros H. exists f. split; [apply in_seq; lia|]. apply in_map_iff. exists l; split; auto. apply in_seq. lia.
Qed.

Lemma try_flip_step points close path b : try_flip points close path b = path \/
  try_flip points close path b = flip (fst b) (snd b) path /\
  (path_length points close (try_flip points close path b) < path_length points close path)%R.
Proof. unfold try_flip. destruct (Rlt_dec _ _); auto. Qed.

Definition good_blocks (bs : list (nat * nat)) : Prop := forall f l, In (f, l) bs -> 1 <= f <= l.

Lemma fold_inv points close bs path : good_blocks bs ->
  let path' := fold_left (try_flip points close) bs path in
  Permutation path' path /\ hd_error path' = hd_error path /\
  (path_length points close path' <= path_length points close path)%R /\
  (path' = path \/ (path_length points close path' < path_length points close path)%R).
Proof.
  revert path; induction bs as [|[f l] bs IH]; intros path Hb; cbn [fold_left].
  - repeat split; auto. lra.
  - destruct (IH (try_flip points close path (f, l))) as (H1 & H2 & H3 & H4).
    { intros f' l' Hin; apply Hb; now right. }
    assert (Hfl : 1 <= f <= l) by (apply Hb; now left).
    destruct (try_flip_step points close path (f, l)) as [E|[E Hlt]].
    + rewrite E in *. auto.
    + cbn [fst snd] in E. split; [|split; [|split]].
      * rewrite H1, E. apply flip_perm. lia.
      * rewrite H2, E. apply flip_hd. lia.
      * lra.
      * right. lra.
Qed.

Lemma blocks_good n : good_blocks (blocks n).
Proof. intros f l H. apply blocks_in in H. lia. Qed.

(* no block of a pass that keeps the path shortens it *)
Lemma fold_fixed points close bs path : good_blocks bs ->
  fold_left (try_flip points close) bs path = path ->
  forall f l, In (f, l) bs -> (path_length points close path <= path_length points close (flip f l path))%R.
Proof.
  revert path; induction bs as [|[f l] bs IH]; intros path Hb H f' l' Hin; [easy|].
  cbn [fold_left] in H.
  assert (Hb' : good_blocks bs) by (intros x y Hxy; apply Hb; now right).
  assert (E : try_flip points close path (f, l) = path).
  { destruct (try_flip_step points close path (f, l)) as [E|[E Hlt]]; auto.
    destruct (fold_inv points close bs (try_flip points close path (f, l)) Hb') as (_ & _ & H3 & _).
    rewrite H in H3. lra. }
  rewrite E in H. destruct Hin as [[= <- <-]|Hin]; [|eapply IH; eauto].
  unfold try_flip in E. cbn [fst snd] in E. destruct (Rlt_dec _ _) as [Hlt|Hge]; [|lra].
  rewrite E in Hlt. lra.
Qed.

(* ---- the loop ---- *)
Lemma opt_loop_inv fuel points close tol path path' : opt_loop fuel points close tol path = Some path' ->
  Permutation path' path /\ hd_error path' = hd_error path /\
  (path_length points close path' <= path_length points close path)%R /\
  (path' = path -> one_pass points close path = path).
Proof.
  revert path; induction fuel as [|fuel IH]; intros path H; [discriminate|]. cbn [opt_loop] in H.
  destruct (fold_inv points close (blocks (length points)) path (blocks_good _)) as (H1 & H2 & H3 & H4).
  fold (one_pass points close path) in *. cbv zeta in *.
  set (p1 := one_pass points close path) in *.
  destruct (Rlt_dec _ _) as [Hlt|Hge].
  - injection H as <-. auto.
  - apply IH in H as (K1 & K2 & K3 & K4). repeat split.
    + now rewrite K1.
    + congruence.
    + lra.
    + intros ->. destruct H4 as [H4|H4]; auto. lra.
Qed.

Lemma roll_start_spec n s : 0 < n ->
  roll_start n s = let k := Z.to_nat (s mod Z.of_nat n) in skipn k (seq 0 n) ++ firstn k (seq 0 n).
Proof.
  intros Hn. unfold roll_start. cbv zeta.
  pose proof (Z.mod_pos_bound s (Z.of_nat n) ltac:(lia)) as Hb.
  set (m := (s mod Z.of_nat n)%Z) in *. set (k := Z.to_nat m).
  assert (Hk : k < n) by lia.
  apply nth_error_ext. intros i. rewrite nth_error_map, nth_error_seq.
  assert (Hs : skipn k (seq 0 n) = seq k (n - k)).
  { replace (seq 0 n) with (seq 0 k ++ seq k (n - k)).
    - rewrite skipn_app, skipn_all2, seq_length by (rewrite seq_length; lia).
      now rewrite Nat.sub_diag.
    - change k with (0 + k) at 2. rewrite <- seq_app. f_equal. lia. }
  assert (Hf : firstn k (seq 0 n) = seq 0 k).
  { replace (seq 0 n) with (seq 0 k ++ seq k (n - k)).
    - rewrite firstn_app, seq_length, Nat.sub_diag, firstn_O, app_nil_r, firstn_all2; auto. rewrite seq_length; lia.
    - change k with (0 + k) at 2. rewrite <- seq_app. f_equal. lia. }
  rewrite Hs, Hf.
  assert (Hmod : ((Z.of_nat i + s) mod Z.of_nat n = (Z.of_nat i + m) mod Z.of_nat n)%Z).
  { unfold m. now rewrite Zplus_mod_idemp_r. }
  destruct (i <? n) eqn:Ei.
  - apply Nat.ltb_lt in Ei. cbn [option_map]. rewrite Nat.add_0_l, Hmod.
    destruct (Nat.lt_ge_cases i (n - k)) as [Hi|Hi].
    + rewrite nth_error_app1 by (rewrite seq_length; lia). rewrite nth_error_seq.
      rewrite (proj2 (Nat.ltb_lt i _)) by lia. f_equal. rewrite Z.mod_small by lia. lia.
    + rewrite nth_error_app2 by (rewrite seq_length; lia). rewrite seq_length, nth_error_seq.
      rewrite (proj2 (Nat.ltb_lt _ _)) by lia. f_equal.
      replace (Z.of_nat i + m)%Z with ((Z.of_nat i + m - Z.of_nat n) + 1 * Z.of_nat n)%Z by ring.
      rewrite Z_mod_plus_full, Z.mod_small by lia. lia.
  - apply Nat.ltb_ge in Ei. cbn [option_map]. symmetry. apply nth_error_None.
    rewrite app_length, !seq_length. lia.
Qed.

Lemma roll_start_perm n s : Permutation (roll_start n s) (seq 0 n).
Proof.
  destruct n as [|n]; [constructor|]. rewrite roll_start_spec by lia. cbv zeta.
  rewrite Permutation_app_comm. now rewrite firstn_skipn.
Qed.

Lemma skipn_hd {A} k (l : list A) : hd_error (skipn k l) = nth_error l k.
Proof. revert l; induction k; intros [|x l]; cbn; auto. Qed.

Lemma roll_start_hd n s : 0 < n -> hd_error (roll_start n s) = Some (Z.to_nat (s mod Z.of_nat n)).
Proof.
  intros Hn. rewrite roll_start_spec by auto. cbv zeta.
  pose proof (Z.mod_pos_bound s (Z.of_nat n) ltac:(lia)) as Hb.
  set (k := Z.to_nat (s mod Z.of_nat n)). assert (Hk : k < n) by lia.
  pose proof (skipn_hd k (seq 0 n)) as H. rewrite nth_error_seq, (proj2 (Nat.ltb_lt k n) Hk) in H.
  destruct (skipn k (seq 0 n)); [discriminate|]. exact H.
Qed.

Lemma picks_point points path : in_range (length points) path -> picks points path (map (point points) path).
Proof.
  induction path as [|i path IH]; intros H; [constructor|]. cbn [map]. constructor.
  - unfold point. apply nth_error_nth'. apply H. now left.
  - apply IH. intros j Hj. apply H. now right.
Qed.

Lemma path_length_tour points close path : in_range (length points) path ->
  tour points close path (path_length points close path).
Proof.
  intros H. exists (map (point points) path). split; [now apply picks_point|].
  unfold path_length. rewrite chain_length_len. f_equal. destruct close; auto.
  rewrite map_app. f_equal. destruct path; auto.
Qed.

Lemma tour_fun points close path l l' : tour points close path l -> tour points close path l' -> l = l'.
Proof. intros (ps & H1 & ->) (qs & H2 & ->). now rewrite (picks_fun _ _ _ _ H1 H2). Qed.

Lemma perm_range n path : Permutation path (seq 0 n) -> in_range n path.
Proof. intros H i Hi. apply (Permutation_in _ H) in Hi. apply in_seq in Hi. lia. Qed.

Lemma reconstruct_some fuel points start close tol path :
  reconstruct_line fuel points start close tol = Some (Ok path) ->
  opt_loop fuel points close tol (roll_start (length points) start) = Some path.
Proof.
  unfold reconstruct_line. destruct points as [|p points], close;
    try (intros H; destruct (opt_loop _ _ _ _ _); cbn in H; congruence).
Qed.

(* C53 *)
Lemma reconstruct_permutes fuel points start close tol path :
  reconstruct_line fuel points start close tol = Some (Ok path) ->
  let n := length points in
  let k := Z.to_nat (start mod Z.of_nat n) in
  Permutation path (seq 0 n) /\
  (0 < n -> hd_error path = Some k) /\
  forall l l0, tour points close path l ->
    tour points close (skipn k (seq 0 n) ++ firstn k (seq 0 n)) l0 -> (l <= l0)%R.
Proof.
  intros H%reconstruct_some. cbv zeta. apply opt_loop_inv in H as (H1 & H2 & H3 & _).
  pose proof (roll_start_perm (length points) start) as Hr.
  assert (Hp : Permutation path (seq 0 (length points))) by (now rewrite H1).
  split; [exact Hp|]. split.
  - intros Hn. now rewrite H2, roll_start_hd.
  - intros l l0 Ht Ht0.
    rewrite (tour_fun _ _ _ _ _ Ht (path_length_tour points close path (perm_range _ _ Hp))).
    destruct (length points) as [|n] eqn:En.
    + cbn [seq] in Hp. apply Permutation_sym, Permutation_nil in Hp. subst path.
      assert (Et : l0 = path_length points close []).
      { destruct points; [|discriminate]. cbn [seq] in Ht0. rewrite skipn_nil, firstn_nil in Ht0.
        refine (tour_fun _ _ _ _ _ Ht0 (path_length_tour _ _ [] _)). intros i []. }
      rewrite Et. lra.
    + rewrite roll_start_spec in H3, Hr by lia. cbv zeta in H3, Hr.
      apply perm_range in Hr. rewrite <- En in Hr at 1.
      rewrite (tour_fun _ _ _ _ _ Ht0 (path_length_tour points close _ Hr)). exact H3.
Qed.

(* C54 *)
Lemma path_length_lower points close path p q : Permutation path (seq 0 (length points)) ->
  In p points -> In q points -> (distance p q <= path_length points close path)%R.
Proof.
  intros Hp Hip Hiq.
  assert (Hin : forall x, In x points -> In x (map (point points) path)).
  { intros x Hx. apply In_nth_error in Hx as [i Hi]. apply in_map_iff. exists i. split.
    - unfold point. now apply nth_error_nth.
    - apply (Permutation_in i (Permutation_sym Hp)). apply in_seq.
      assert (nth_error points i <> None) by congruence. apply nth_error_Some in H. lia. }
  unfold path_length. rewrite chain_length_len. apply chain_len_two; destruct close;
    try rewrite map_app; try apply in_or_app; auto.
Qed.

Lemma one_pass_perm points close path : Permutation (one_pass points close path) path.
Proof. apply fold_inv, blocks_good. Qed.

Lemma loop_none_bound points close tol d : (0 < tol < 1)%R ->
  forall fuel path,
  (forall path, Permutation path (seq 0 (length points)) -> d <= path_length points close path)%R ->
  Permutation path (seq 0 (length points)) ->
  opt_loop fuel points close tol path = None ->
  (d <= (1 - tol) ^ fuel * path_length points close path)%R.
Proof.
  intros Ht. induction fuel as [|fuel IH]; intros path Hd Hp H.
  - cbn [pow]. rewrite Rmult_1_l. auto.
  - cbn [opt_loop] in H. destruct (Rlt_dec _ _) as [|Hge]; [discriminate|]. apply IH in H; auto.
    2:{ now rewrite one_pass_perm. }
    cbn [pow]. assert (0 < (1 - tol) ^ fuel)%R by (apply pow_lt; lra).
    assert (Hs : (path_length points close (one_pass points close path) <= (1 - tol) * path_length points close path)%R) by lra.
    apply (Rmult_le_compat_l ((1 - tol) ^ fuel)) in Hs; [|lra]. lra.
Qed.

Lemma path_length_nonneg points close path : (0 <= path_length points close path)%R.
Proof. unfold path_length. rewrite chain_length_len. apply chain_len_nonneg. Qed.

Lemma loop_terminates points close tol path p q : (0 < tol)%R -> In p points -> In q points -> p <> q ->
  Permutation path (seq 0 (length points)) -> exists fuel r, opt_loop fuel points close tol path = Some r.
Proof.
  intros Ht Hp Hq Hpq Hperm. pose proof (distance_pos p q Hpq) as Hd.
  assert (Hlow : forall path, Permutation path (seq 0 (length points)) -> (distance p q <= path_length points close path)%R)
    by (intros; apply path_length_lower; auto).
  destruct (Rlt_le_dec tol 1) as [H1|H1].
  - set (L := path_length points close path).
    destruct (pow_lt_1_zero (1 - tol) ltac:(rewrite Rabs_pos_eq; lra) (distance p q / (L + 1)))
      as [N HN]. { apply Rdiv_lt_0_compat; auto. pose proof (path_length_nonneg points close path). unfold L. lra. }
    exists N. destruct (opt_loop N points close tol path) as [r|] eqn:E; [eauto|]. exfalso.
    apply (loop_none_bound points close tol (distance p q)) in E; auto.
    specialize (HN N (le_n N)). rewrite Rabs_pos_eq in HN by (apply pow_le; lra).
    pose proof (path_length_nonneg points close path) as HL. fold L in HL, E.
    apply (Rmult_lt_compat_r (L + 1)) in HN; [|lra]. unfold Rdiv in HN.
    rewrite Rmult_assoc, Rinv_l, Rmult_1_r in HN by lra.
    assert (0 < (1 - tol) ^ N)%R by (apply pow_lt; lra). nra.
  - exists 1. cbn [opt_loop]. destruct (Rlt_dec _ _) as [|Hge]; [eauto|]. exfalso. apply Hge.
    assert (distance p q <= path_length points close (one_pass points close path))%R.
    { apply Hlow. now rewrite one_pass_perm. }
    pose proof (path_length_nonneg points close path). nra.
Qed.

Lemma loop_diverges points close tol path : Permutation path (seq 0 (length points)) ->
  (tol <= 0)%R \/ (forall p q, In p points -> In q points -> p = q) ->
  forall fuel, opt_loop fuel points close tol path = None.
Proof.
  intros Hp Hor fuel. revert path Hp. induction fuel as [|fuel IH]; intros path Hp; auto.
  cbn [opt_loop].
  destruct (fold_inv points close (blocks (length points)) path (blocks_good _)) as (H1 & H2 & H3 & H4).
  fold (one_pass points close path) in *. cbv zeta in *.
  destruct (Rlt_dec _ _) as [Hlt|Hge]; [exfalso|apply IH; now rewrite H1].
  pose proof (path_length_nonneg points close path) as Hn.
  destruct Hor as [Ht|Hs]; [nra|].
  assert (Hz : forall path, Permutation path (seq 0 (length points)) -> path_length points close path = 0%R).
  { intros path0 Hp0. unfold path_length. rewrite chain_length_len. apply chain_len_same.
    assert (Hin : forall i, In i path0 -> In (point points i) points).
    { intros i Hi. apply nth_In. exact (perm_range _ _ Hp0 i Hi). }
    assert (Hin2 : forall p, In p (map (point points)
       (if close then path0 ++ match path0 with [] => [] | i :: _ => [i] end else path0)) -> In p points).
    { intros p Hip. apply in_map_iff in Hip as (i & <- & Hi). apply Hin. destruct close; auto.
      apply in_app_iff in Hi as [Hi|Hi]; auto. destruct path0; [easy|]. destruct Hi as [<-|[]]. now left. }
    intros p q Hip Hiq. apply Hs; auto. }
  rewrite (Hz path Hp), (Hz (one_pass points close path)) in Hlt; [lra|]. now rewrite H1.
Qed.

Lemma reconstruct_terminates_iff points start close tol :
  (exists fuel path, reconstruct_line fuel points start close tol = Some (Ok path)) <->
  (0 < tol)%R /\ exists p q, In p points /\ In q points /\ p <> q.
Proof.
  split.
  - intros (fuel & path & H). apply reconstruct_some in H.
    destruct (Rlt_le_dec 0 tol) as [Ht|Ht].
    + split; auto. destruct points as [|p points].
      * rewrite loop_diverges in H; [discriminate|apply roll_start_perm|right; easy].
      * assert (Hd : forall x y : pt, {x = y} + {x <> y}).
        { intros [[a b] c] [[x y] z]. destruct (Req_EM_T a x), (Req_EM_T b y), (Req_EM_T c z); subst; auto; right; congruence. }
        destruct (Forall_Exists_dec (fun q => p = q) (Hd p) points) as [Ha|He].
        -- rewrite loop_diverges in H; [discriminate|apply roll_start_perm|right].
           rewrite Forall_forall in Ha. intros x y [<-|Hx] [<-|Hy]; auto.
           ++ symmetry; auto.
           ++ rewrite <- (Ha x Hx). auto.
        -- apply Exists_exists in He as (q & Hq & Hne). exists p, q. repeat split; auto; [now left|now right].
    + rewrite loop_diverges in H; [discriminate|apply roll_start_perm|auto].
  - intros (Ht & p & q & Hp & Hq & Hne).
    destruct (loop_terminates points close tol (roll_start (length points) start) p q Ht Hp Hq Hne (roll_start_perm _ _))
      as (fuel & r & H).
    exists fuel, r. unfold reconstruct_line. destruct points as [|p0 points]; [easy|].
    rewrite H. destruct close; reflexivity.
Qed.

Lemma reconstruct_terminates_refuted : exists points start close tol, (0 < tol)%R /\ points <> [] /\
  forall fuel, reconstruct_line fuel points start close tol = None.
Proof.
  exists [(0, 0, 0); (0, 0, 0)]%R, 0%Z, false, 1%R. split; [lra|]. split; [discriminate|]. intros fuel.
  unfold reconstruct_line. rewrite loop_diverges; [reflexivity|apply roll_start_perm|right].
  intros p q [<-|[<-|[]]] [<-|[<-|[]]]; reflexivity.
Qed.

(* C55 *)
Lemma reversed_block_flip {A} (path path' : list A) a : reversed_block path a path' ->
  exists l, a <= l <= length path /\ path' = flip a l path.
Proof.
  intros (u & v & w & -> & -> & <-). exists (length u + length v). split; [rewrite !app_length; lia|].
  unfold flip. rewrite firstn_app, firstn_all, Nat.sub_diag, firstn_O, app_nil_r.
  rewrite skipn_app, skipn_all, Nat.sub_diag, skipn_O. cbn [app].
  replace (length u + length v - length u) with (length v) by lia.
  rewrite firstn_app, firstn_all, Nat.sub_diag, firstn_O, app_nil_r. f_equal. f_equal.
  rewrite app_assoc, skipn_app, skipn_all2 by (rewrite app_length; lia).
  rewrite app_length, Nat.sub_diag. reflexivity.
Qed.

Lemma flip_short {A} a l (path : list A) : l <= a + 1 -> a <= l -> flip a l path = path.
Proof.
  intros H1 H2. rewrite (flip_split a l path H2) at 2. unfold flip. f_equal. f_equal.
  destruct (l - a) as [|[|]] eqn:E; [now rewrite !firstn_O| |lia].
  destruct (skipn a path); reflexivity.
Qed.

Lemma reconstruct_local_optimum fuel points start close tol k path' l l' :
  let n := length points in
  let order := skipn k (seq 0 n) ++ firstn k (seq 0 n) in
  k = Z.to_nat (start mod Z.of_nat n) -> 0 < n ->
  reconstruct_line fuel points start close tol = Some (Ok order) ->
  (exists a, 1 <= a /\ a + 3 <= n /\ reversed_block order a path') ->
  tour points close order l -> tour points close path' l' -> (l <= l')%R.
Proof.
  intros n order Hk Hn H%reconstruct_some (a & Ha1 & Ha2 & Hrev) Ht Ht'.
  fold n in H. rewrite roll_start_spec in H by auto. cbv zeta in H. rewrite <- Hk in H. fold order in H.
  apply opt_loop_inv in H as (_ & _ & _ & Hfix). specialize (Hfix eq_refl).
  assert (Hperm : Permutation order (seq 0 n)).
  { unfold order. rewrite Permutation_app_comm. now rewrite firstn_skipn. }
  assert (Hlen : length order = n) by (rewrite (Permutation_length Hperm); apply seq_length).
  apply reversed_block_flip in Hrev as (last & Hl & ->).
  rewrite (tour_fun _ _ _ _ _ Ht (path_length_tour points close order (perm_range _ _ Hperm))).
  assert (Hpf : Permutation (flip a last order) (seq 0 n)) by (rewrite flip_perm; [exact Hperm|lia]).
  rewrite (tour_fun _ _ _ _ _ Ht' (path_length_tour points close _ (perm_range _ _ Hpf))).
  destruct (Nat.lt_ge_cases last (a + 2)) as [Hs|Hs].
  - rewrite flip_short by lia. lra.
  - apply (fold_fixed points close (blocks n)); [apply blocks_good|exact Hfix|].
    apply blocks_in. lia.
Qed.

Lemma reconstruct_local_refuted : exists points path' l l',
  (forall fuel tol, (0 < tol)%R -> reconstruct_line (S fuel) points 0 false tol = Some (Ok [0; 1; 2])) /\
  reversed_block [0; 1; 2] 1 path' /\
  tour points false [0; 1; 2] l /\ tour points false path' l' /\ (l' < l)%R.
Proof.
  assert (D : forall a b : R, distance (a, 0, 0)%R (b, 0, 0)%R = Rabs (a - b)%R).
  { intros a b. unfold distance, sq_dist. rewrite <- sqrt_Rsqr_abs. f_equal. unfold Rsqr. ring. }
  exists [(0, 0, 0); (2, 0, 0); (1, 0, 0)]%R, [0; 2; 1], 3%R, 2%R.
  assert (L1 : tour [(0, 0, 0); (2, 0, 0); (1, 0, 0)]%R false [0; 1; 2] 3%R).
  { exists [(0, 0, 0); (2, 0, 0); (1, 0, 0)]%R. split; [repeat constructor|].
    unfold chain_len. cbn [pairs map fold_right]. rewrite !D. rewrite Rabs_left, Rabs_right by lra. lra. }
  split; [|split; [|split; [|split]]].
  - intros fuel tol Ht. unfold reconstruct_line. cbn [length]. change (roll_start 3 0) with [0; 1; 2].
    cbn [opt_loop]. destruct (Rlt_dec _ _) as [|Hge]; [reflexivity|]. exfalso. apply Hge.
    change (one_pass _ false [0; 1; 2]) with [0; 1; 2].
    pose proof (path_length_tour [(0, 0, 0); (2, 0, 0); (1, 0, 0)]%R false [0; 1; 2]
      (perm_range 3 [0; 1; 2] (Permutation_refl _))) as L2.
    rewrite <- (tour_fun _ _ _ _ _ L1 L2). lra.
  - exists [0], [1; 2], []. repeat split.
  - exact L1.
  - exists [(0, 0, 0); (1, 0, 0); (2, 0, 0)]%R. split; [repeat constructor|].
    unfold chain_len. cbn [pairs map fold_right]. rewrite !D. rewrite !Rabs_left by lra. lra.
  - lra.
Qed.
