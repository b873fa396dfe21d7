From Coq Require Import Reals Lra Lia Sorted Permutation.
From Verif Require Import Prelude RealAux Perc_model Surface_model Volume_model Lines_model Objects_model Cast_model Cast_spec Cast1_proof Cast2_proof.
Open Scope R_scope.
Local Notation norm := Objects_model.norm.

Lemma norm_px x y : norm (sub3 (px x) (px y)) = Rabs (x - y).
Proof.
  unfold Objects_model.norm, dot, sub3, px. replace (_ + _ + _) with (Rsqr (x - y)) by (unfold Rsqr; ring). apply sqrt_Rsqr_abs.
Qed.
Lemma close_px tol x y : 0 <= tol -> close tol (px x) (px y) = close1 tol x y.
Proof.
  intros H. unfold close, px. assert (E : close1 tol 0 0 = true).
  { unfold close1. rewrite Rminus_0_r, Rabs_R0. destruct (Rleb_spec 0 (tol + / 100000 * 0)); [reflexivity|lra]. }
  rewrite E. now rewrite !andb_true_r.
Qed.
Lemma separate_close tol ml x y : separate tol ml x y -> close1 tol x y = false.
Proof.
  intros [_ H]. unfold close1. destruct (Rleb_spec (Rabs (x - y)) (tol + / 100000 * Rabs y)) as [C|]; [|reflexivity].
  pose proof (Rabs_pos y). rewrite Rabs_minus_sym in C. pose proof (Rle_abs (y - x)). lra.
Qed.
Lemma separate_lt tol ml x y : 0 <= tol -> separate tol ml x y -> x < y.
Proof. intros H [_ K]. pose proof (Rabs_pos y). lra. Qed.

Lemma Rleb_t x y : x <= y -> Rleb x y = true.
Proof. intros. destruct (Rleb_spec x y); [reflexivity|contradiction]. Qed.
Lemma Rleb_f x y : y < x -> Rleb x y = false.
Proof. intros. destruct (Rleb_spec x y); [lra|reflexivity]. Qed.
Lemma Rltb_t x y : x < y -> Rltb x y = true.
Proof. intros. destruct (Rltb_spec x y); [reflexivity|contradiction]. Qed.
Lemma Rltb_f x y : y <= x -> Rltb x y = false.
Proof. intros. destruct (Rltb_spec x y); [lra|reflexivity]. Qed.

Lemma nearest_first {F} (o : oracles F) a ids : forall best,
  (forall i, In i ids -> norm (sub3 (center o best) a) <= norm (sub3 (center o i) a)) -> nearest o a best ids = best.
Proof.
  induction ids as [|i ids IH]; intros best H; cbn [nearest]; [reflexivity|].
  rewrite Rltb_f by (apply H; now left). apply IH. intros j Hj. apply H. now right.
Qed.

Lemma add_far tol ml t x y l c : 0 <= tol -> last_pt t = px x -> separate tol ml x y ->
  add_point tol ml t (px y) l c = mkT (tr_pts t ++ [px y]) (tr_lines t ++ [l]) (tr_cells t ++ [c]) (tr_in t) (tr_out t) (tr_count t) (tr_cell t).
Proof.
  intros H E S. unfold add_point. rewrite E, close_px, (separate_close _ _ _ _ S), norm_px by assumption.
  pose proof (separate_lt _ _ _ _ H S). rewrite (Rleb_t ml), orb_true_r; [reflexivity|]. destruct S as [S _]. rewrite Rabs_right; lra.
Qed.

Lemma last_snoc p l c i o n k t : last_pt (mkT (tr_pts t ++ [p]) l c i o n k) = p.
Proof. unfold last_pt. cbn. apply last_last. Qed.

Lemma seq_nth_some n i : (i < n)%nat -> nth_error (seq 0 n) i = Some i.
Proof. intros H. rewrite nth_error_seq. now rewrite (proj2 (Nat.ltb_lt _ _) H). Qed.

Section row.
Variables (tol ml : R) (ia : bool) (u v : list R) (a b : R).
Let xs := u ++ v.
Hypothesis (Htol : 0 <= tol).
Hypothesis (Hinc : StronglySorted Rlt xs).
Hypothesis (Hu : (2 <= length u)%nat).
Hypothesis (Hx3 : (3 <= length xs)%nat).
Hypothesis (Hsep : separated tol ml (a :: u ++ [b])).
Hypothesis (Hv : forall x, In x v -> b <= x).
Notation m := (length u - 1)%nat.
Notation bd := (bound xs).

Lemma sep_nth l : separated tol ml l -> forall k x y, nth_error l k = Some x -> nth_error l (S k) = Some y -> separate tol ml x y.
Proof.
  induction l as [|x0 l IH]; intros H k x y Hx Hy; [destruct k; discriminate|].
  destruct l as [|y0 l]; [destruct k; discriminate|]. destruct H as [H1 H2]. destruct k as [|k].
  - cbn in Hx, Hy. congruence.
  - exact (IH H2 k x y Hx Hy).
Qed.
Lemma bd_u k : (k < length u)%nat -> nth_error u k = Some (bd k).
Proof. intros H. unfold bound, xs. rewrite app_nth1 by assumption. now apply nth_error_nth'. Qed.
Lemma bd_xs k : (k < length xs)%nat -> nth_error xs k = Some (bd k).
Proof. intros H. unfold bound. now apply nth_error_nth'. Qed.
Lemma len_xs : length xs = (length u + length v)%nat.
Proof. unfold xs. apply app_length. Qed.
Lemma sep_a : separate tol ml a (bd 0).
Proof.
  apply (sep_nth _ Hsep 0); [reflexivity|]. change (nth_error (u ++ [b]) 0 = Some (bd 0)). rewrite nth_error_app1 by lia. apply bd_u. lia.
Qed.
Lemma sep_ub k x y : nth_error (u ++ [b]) k = Some x -> nth_error (u ++ [b]) (S k) = Some y -> separate tol ml x y.
Proof. exact (sep_nth _ Hsep (S k) x y). Qed.
Lemma sep_u k : (S k < length u)%nat -> separate tol ml (bd k) (bd (S k)).
Proof.
  intros H. apply (sep_ub k); rewrite nth_error_app1 by lia; apply bd_u; lia.
Qed.
Lemma sep_b : separate tol ml (bd m) b.
Proof.
  apply (sep_ub m).
  - rewrite nth_error_app1 by lia. apply bd_u. lia.
  - replace (S m) with (length u) by lia. now rewrite nth_error_app2, Nat.sub_diag by lia.
Qed.
Lemma bd_lt i j : (i < j)%nat -> (j < length xs)%nat -> bd i < bd j.
Proof.
  intros H1 H2. assert (G : forall l, StronglySorted Rlt l -> forall i j x y, (i < j)%nat -> nth_error l i = Some x -> nth_error l j = Some y -> x < y).
  { clear. induction 1 as [|z l S IH Hz]; intros i j x y Hij Hx Hy; [destruct i; discriminate|].
    destruct j as [|j]; [lia|]. cbn in Hy. destruct i as [|i].
    - cbn in Hx. injection Hx as <-. rewrite Forall_forall in Hz. apply Hz. eapply nth_error_In; eauto.
    - cbn in Hx. eapply (IH i j); eauto. lia. }
  apply (G _ Hinc i j); auto; apply bd_xs; lia.
Qed.
Lemma bd_le i j : (i <= j)%nat -> (j < length xs)%nat -> bd i <= bd j.
Proof. intros H1 H2. destruct (Nat.eq_dec i j) as [->|]; [lra|]. left. apply bd_lt; lia. Qed.
Lemma a_lt k : (k < length xs)%nat -> a < bd k.
Proof. intros H. pose proof (separate_lt _ _ _ _ Htol sep_a). pose proof (bd_le 0 k ltac:(lia) H). lra. Qed.
Lemma b_gt k : (k <= m)%nat -> bd k < b.
Proof. intros H. pose proof (separate_lt _ _ _ _ Htol sep_b). pose proof len_xs. pose proof (bd_le k m H ltac:(lia)). lra. Qed.

Lemma row_cast k : (S k <= m)%nat -> cast (row xs) (Z.of_nat k) (px a) (px b) = Some [(px (bd k), k); (px (bd (S k)), S k)].
Proof.
  intros H. pose proof len_xs. cbn [cast row]. rewrite Nat2Z.id. unfold px at 1 2. cbn [coord nth filter].
  assert (M : forall j, (j <= m)%nat -> meets (bd j) (bd j) a b = true).
  { intros j Hj. unfold meets. pose proof (b_gt j Hj). pose proof (a_lt j ltac:(lia)).
    rewrite Rmax_right, Rmin_left by lra. rewrite !Rleb_t by lra. reflexivity. }
  change (coord 0 (a, 0, 0)) with a. change (coord 0 (b, 0, 0)) with b. rewrite !M by lia. reflexivity.
Qed.

Lemma row_turn k t : (S k <= m)%nat -> tr_cell t = Some (Z.of_nat k) -> tr_in t = true -> last_pt t = px (bd k) ->
  turn (row xs) ml tol ia 0 true (px a) (px b) (px b) t =
  through (row xs) ml tol ia 0 true (px b) (px b) t (Z.of_nat k) (px (bd (S k))) (S k).
Proof.
  intros H Ec Ei El. unfold turn. rewrite Ec, row_cast by assumption. rewrite Ei. cbn [negb]. cbn zeta.
  rewrite El, !norm_px. pose proof len_xs. pose proof (bd_lt k (S k) ltac:(lia) ltac:(lia)).
  rewrite Rleb_f; [reflexivity|]. rewrite Rminus_diag_eq, Rabs_R0 by reflexivity. apply Rabs_pos_lt. lra.
Qed.

Definition grown (t : trail) (ps : list pt) (cs : list Z) (out : bool) (c : option Z) : trail :=
  mkT (tr_pts t ++ ps) (tr_lines t ++ repeat 0%nat (length ps)) (tr_cells t ++ cs) (tr_in t) out (tr_count t) c.

Lemma row_through k t : (S k <= m)%nat -> tr_cell t = Some (Z.of_nat k) -> tr_in t = true -> tr_out t = false -> last_pt t = px (bd k) ->
  through (row xs) ml tol ia 0 true (px b) (px b) t (Z.of_nat k) (px (bd (S k))) (S k) =
  if (S k <? m)%nat then Ok (true, grown t [px (bd (S k))] [Z.of_nat k] false (Some (Z.of_nat (S k))))
  else match v with
       | [] => if ia then Ok (false, grown t [px (bd (S k))] [Z.of_nat k] true (Some (Z.of_nat k)))
               else Ok (false, grown t [px (bd (S k)); px b] [Z.of_nat k; (-1)%Z] true (Some (Z.of_nat k)))
       | _ => Ok (false, grown t [px (bd (S k)); px b] [Z.of_nat k; Z.of_nat (S k)] false (Some (Z.of_nat (S k))))
       end.
Proof.
  intros H Ec Ei Eo El. unfold through. cbn zeta. pose proof len_xs as Hl.
  rewrite (add_far tol ml t (bd k) (bd (S k))) by (auto; apply sep_u; lia). set (t1 := mkT _ _ _ _ _ _ _).
  rewrite norm_px. pose proof (b_gt (S k) H) as Hb1. rewrite Rltb_f.
  2:{ pose proof sep_b as [S1 _]. pose proof (bd_le (S k) m H ltac:(lia)). rewrite Rabs_minus_sym, Rabs_right; lra. }
  cbn [sides row]. replace (length xs =? 2)%nat with false by (symmetry; apply Nat.eqb_neq; lia). cbv iota.
  match goal with |- context [(length [?x; ?y] =? 1)%nat] => change (length [x; y] =? 1)%nat with false end. cbv iota. replace (S k =? 0)%nat with false by reflexivity. replace (S k - 1)%nat with k by lia.
  replace (existsb (Z.eqb (Z.of_nat k)) _) with true by (cbn [existsb]; now rewrite Z.eqb_refl). cbn [negb].
  assert (Hm1 : ((-1) =? Z.of_nat k)%Z = false) by (apply Z.eqb_neq; lia).
  assert (Hm2 : ((-1) =? Z.of_nat (S k))%Z = false) by (apply Z.eqb_neq; lia).
  destruct (Nat.eqb_spec (S (S k)) (length xs)) as [El2|El2].
  - assert (Hv0 : v = []) by (destruct v; [reflexivity|cbn in Hl; lia]).
    replace (S k <? m)%nat with false. 2:{ symmetry. apply Nat.ltb_ge. rewrite Hv0 in Hl. cbn in Hl. lia. }
    cbn [existsb]. rewrite Hm1. cbn [orb Z.eqb].
    replace (((-1) =? -1)%Z) with true by reflexivity. cbn [orb].
    assert (Em : S k = m) by (rewrite Hv0 in Hl; cbn in Hl; lia).
    rewrite Hv0. destruct ia; [now unfold grown, t1, leave; cbn; rewrite Ec|].
    rewrite (add_far tol ml t1 (bd (S k)) b); [|exact Htol|apply last_snoc|rewrite Em; exact sep_b].
    unfold leave, grown, t1. cbn. now rewrite Ec, <- !app_assoc.
  - cbn [existsb]. rewrite Hm1, Hm2. cbn [orb filter]. rewrite Z.eqb_refl. cbn [negb].
    replace (Z.of_nat (S k) =? Z.of_nat k)%Z with false by (symmetry; apply Z.eqb_neq; lia). cbn [negb].
    cbn [contains row]. change (coord 0 (px b)) with b. rewrite Nat2Z.id, (Rleb_t (bd (S k))) by lra. cbn [andb].
    destruct (Nat.ltb_spec (S k) m) as [Hlt|Hge].
    + rewrite Rleb_f by (apply b_gt; lia). unfold move, grown, t1. cbn. now rewrite Eo.
    + assert (Em : S k = m) by lia.
      replace (match v with [] => _ | _ => _ end) with (Ok (false, grown t [px (bd (S k)); px b] [Z.of_nat k; Z.of_nat (S k)] false (Some (Z.of_nat (S k)))))
        by (destruct v; [exfalso; cbn in Hl; lia|reflexivity]).
      rewrite Rleb_t. 2:{ apply Hv. unfold bound, xs. rewrite app_nth2 by lia. apply nth_In. lia. }
      rewrite (add_far tol ml (move _ t1) (bd (S k)) b); [|exact Htol|apply last_snoc|rewrite Em; exact sep_b].
      unfold move, grown, t1. cbn. now rewrite Eo, <- !app_assoc.
Qed.

(* the end of the line *)
Definition ends : list pt := match v with [] => if ia then [] else [px b] | _ => [px b] end.
Definition end_labels : list Z := match v with [] => if ia then [] else [(-1)%Z] | _ => [Z.of_nat m] end.

Lemma row_walk d : forall k fuel t, (k + S d = m)%nat -> (S d <= fuel)%nat ->
  tr_cell t = Some (Z.of_nat k) -> tr_in t = true -> tr_out t = false -> last_pt t = px (bd k) ->
  exists out c, walk (row xs) ml tol ia fuel 0 true (px a) (px b) (px b) t =
    Some (Ok (grown t (map (fun j => px (bd j)) (seq (S k) (S d)) ++ ends) (map Z.of_nat (seq k (S d)) ++ end_labels) out c)).
Proof.
  induction d as [|d IH]; intros k fuel t Hk Hf Ec Ei Eo El; (destruct fuel as [|fuel]; [lia|]); cbn [walk];
    rewrite (row_turn k t), (row_through k t) by (auto; lia).
  - replace (S k <? m)%nat with false by (symmetry; apply Nat.ltb_ge; lia). unfold ends, end_labels.
    replace m with (S k) by lia. destruct v; [destruct ia|]; eexists _, _; reflexivity.
  - replace (S k <? m)%nat with true by (symmetry; apply Nat.ltb_lt; lia). set (t1 := grown _ _ _ _ _).
    destruct (IH (S k) fuel t1) as (out & c & E); try lia; auto; [apply last_snoc|]. exists out, c. rewrite E.
    unfold grown, t1. cbn [grown tr_pts tr_lines tr_cells tr_in tr_count]. rewrite <- !app_assoc.
    cbn [map seq app length repeat]. reflexivity.
Qed.

Lemma row_first : first_cell (row xs) (px a) (px b) = Some 0%Z.
Proof.
  unfold first_cell. pose proof len_xs as Hl. set (ids := find (row xs) (px a) (px b)).
  assert (H0 : In 0%nat ids).
  { unfold ids. cbn [find row]. apply filter_In. split; [apply in_seq; lia|]. change (coord 0 (px a)) with a. change (coord 0 (px b)) with b.
    unfold meets. pose proof (a_lt 0 ltac:(lia)). pose proof (b_gt 0 ltac:(lia)). pose proof (a_lt 1 ltac:(lia)).
    rewrite Rmax_right, Rmin_left by lra. rewrite !Rleb_t by lra. reflexivity. }
  apply <- id_sort_in in H0. pose proof (id_sort_sorted ids) as Hs.
  assert (Hin : forall i, In i (id_sort ids) -> (S i < length xs)%nat).
  { intros i Hi. rewrite id_sort_in in Hi. unfold ids in Hi. cbn [find row] in Hi. apply filter_In in Hi as [Hi _]. apply in_seq in Hi. lia. }
  destruct (id_sort ids) as [|i rest]; [destruct H0|]. inversion Hs as [|? ? _ Hle]; subst.
  assert (i = 0%nat). { destruct H0 as [->|H0]; [reflexivity|]. rewrite Forall_forall in Hle. specialize (Hle 0%nat H0). lia. }
  subst i. rewrite nearest_first; [reflexivity|]. intros i Hi. cbn [center row]. rewrite !norm_px.
  assert (Hi' : (S i < length xs)%nat) by (apply Hin; now right).
  pose proof (bd_le 0 i ltac:(lia) ltac:(lia)). pose proof (bd_le 1 (S i) ltac:(lia) ltac:(lia)).
  pose proof (a_lt 0 ltac:(lia)). pose proof (a_lt 1 ltac:(lia)). rewrite !Rabs_right; lra.
Qed.

Lemma bd_map : map (fun j => px (bd j)) (seq 0 (length u)) = map px u.
Proof.
  apply nth_error_ext. intros i. destruct (Nat.lt_ge_cases i (length u)) as [H|H].
  - rewrite (map_nth_error _ _ _ (seq_nth_some _ _ H)). erewrite map_nth_error by (apply bd_u; exact H). reflexivity.
  - transitivity (@None pt); [|symmetry]; apply nth_error_None; rewrite map_length, ?seq_length; exact H.
Qed.

Lemma row_crossings fuel ib : (length u <= fuel)%nat ->
  crossings (row xs) ml tol ia fuel ib [px a; px b] =
  Some (Ok ((if ib then [] else [px a]) ++ map px u ++ ends,
            (if ib then [] else [0%nat]) ++ repeat 0%nat (m + length ends),
            (if ib then [] else [(-1)%Z]) ++ map Z.of_nat (seq 0 m) ++ end_labels)).
Proof.
  intros Hf. unfold crossings. cbn [length Nat.sub last segments tr_cell]. rewrite row_first. cbn [move tr_out negb Nat.eqb].
  set (t0 := move 0%Z _). pose proof len_xs as Hl.
  set (t2 := mkT [px a; px (bd 0)] [0%nat] [(-1)%Z] true false 1 (Some 0%Z)).
  assert (W : walk (row xs) ml tol ia fuel 0 true (px a) (px b) (px b) t0 = walk (row xs) ml tol ia fuel 0 true (px a) (px b) (px b) t2).
  { destruct fuel as [|fuel]; [lia|]. cbn [walk]. rewrite (row_turn 0 t2) by (auto; lia).
    unfold turn at 1. cbn [t0 move tr_cell tr_in negb]. cbn zeta.
    change 0%Z with (Z.of_nat 0). rewrite (row_cast 0) by lia.
    change (last_pt t0) with (px a). rewrite !norm_px.
    pose proof (a_lt 0 ltac:(lia)). pose proof (bd_lt 0 1 ltac:(lia) ltac:(lia)).
    rewrite (Rleb_t (Rabs (bd 0 - a))), (Rleb_f (Rabs (bd 1 - a))) by (rewrite !Rabs_right; lra).
    rewrite (add_far tol ml (counted t0) a (bd 0)); [reflexivity|exact Htol|reflexivity|exact sep_a]. }
  rewrite W. destruct (row_walk (m - 1) 0 fuel t2) as (out & c & E); try lia; auto. rewrite E. clear E W.
  replace (S (m - 1)) with m by lia. cbn [segments]. unfold grown. cbn [tr_count tr_pts tr_lines tr_cells t2].
  pose proof bd_map as B. replace (length u) with (S m) in B by lia. cbn [seq map] in B.
  replace (length (map (fun j => px (bd j)) (seq 1 m) ++ ends)) with (m + length ends)%nat by (now rewrite app_length, map_length, seq_length).
  destruct ib; cbn [skipn app]; rewrite <- B; reflexivity.
Qed.

Lemma right_labels_cons p ps c cs : right_labels xs (p :: ps) (c :: cs) -> right_labels xs ps cs.
Proof. intros H k. exact (H (S k)). Qed.
Lemma right_labels_app ps ps' cs cs' : right_labels xs (ps ++ ps') (cs ++ cs') -> right_labels xs ps cs.
Proof.
  intros H k p q c Hp Hq Hc. apply (H k p q c); (rewrite nth_error_app1; [assumption|]; apply nth_error_Some; congruence).
Qed.

Definition last_label : Z := match v with [] => (-1)%Z | _ => Z.of_nat m end.
Lemma row_right : right_labels xs (px a :: map px u ++ [px b]) ((-1)%Z :: map Z.of_nat (seq 0 m) ++ [last_label]).
Proof.
  pose proof len_xs as Hl. intros k p q c Hp Hq Hc. destruct k as [|k].
  - cbn [nth_error] in Hp, Hc. injection Hp as <-. injection Hc as <-.
    change (nth_error (map px u ++ [px b]) 0 = Some q) in Hq. rewrite nth_error_app1 in Hq by (rewrite map_length; lia).
    rewrite (map_nth_error px 0 u (bd_u 0 ltac:(lia))) in Hq. injection Hq as <-.
    left. split; [reflexivity|]. intros j [[J1 J2] J3]. change (coord 0 (px a)) with a in *. change (coord 0 (px (bd 0))) with (bd 0) in *.
    pose proof (bd_le 0 j ltac:(lia) ltac:(lia)). pose proof (a_lt 0 ltac:(lia)). lra.
  - change (nth_error (map px u ++ [px b]) k = Some p) in Hp. change (nth_error (map px u ++ [px b]) (S k) = Some q) in Hq.
    change (nth_error (map Z.of_nat (seq 0 m) ++ [last_label]) k = Some c) in Hc.
    assert (Hk : (k <= m)%nat). { assert (k < length (map Z.of_nat (seq 0 m) ++ [last_label]))%nat by (apply nth_error_Some; congruence).
      rewrite app_length, map_length, seq_length in H. cbn in H. lia. }
    rewrite nth_error_app1 in Hp by (rewrite map_length; lia).
    rewrite (map_nth_error px k u (bd_u k ltac:(lia))) in Hp. injection Hp as <-.
    destruct (Nat.eq_dec k m) as [->|Hne].
    + replace (S m) with (length (map px u)) in Hq by (rewrite map_length; lia). rewrite nth_error_app2, Nat.sub_diag in Hq by lia. injection Hq as <-.
      rewrite nth_error_app2, map_length, seq_length, Nat.sub_diag in Hc by (rewrite map_length, seq_length; lia). injection Hc as <-.
      unfold right_label. change (coord 0 (px b)) with b. change (coord 0 (px (bd m))) with (bd m). pose proof (b_gt m ltac:(lia)).
      assert (D : v = [] \/ v <> []) by (destruct v; [now left|right; discriminate]). destruct D as [Ev|Ev].
      * left. split; [unfold last_label; now rewrite Ev|]. intros j [[J1 J2] J3]. rewrite Ev in Hl. cbn in Hl.
        pose proof (bd_le (S j) m ltac:(lia) ltac:(lia)). lra.
      * right. exists m. split; [unfold last_label; destruct v; [contradiction|reflexivity]|].
        assert (0 < length v)%nat by (destruct v; [contradiction|cbn; lia]).
        assert (b <= bd (S m)). { apply Hv. unfold bound, xs. rewrite app_nth2 by lia. apply nth_In. lia. }
        split; [lra|lia].
    + rewrite nth_error_app1 in Hq by (rewrite map_length; lia).
      rewrite (map_nth_error px (S k) u (bd_u (S k) ltac:(lia))) in Hq. injection Hq as <-.
      rewrite nth_error_app1 in Hc by (rewrite map_length, seq_length; lia).
      rewrite (map_nth_error Z.of_nat k _ (seq_nth_some m k ltac:(lia))) in Hc. injection Hc as <-.
      right. exists k. split; [reflexivity|]. unfold px, coord. cbn. pose proof (bd_lt k (S k) ltac:(lia) ltac:(lia)). split; [lra|lia].
Qed.

Lemma row_right_all (ib : bool) :
  right_labels xs ((if ib then [] else [px a]) ++ map px u ++ ends) ((if ib then [] else [(-1)%Z]) ++ map Z.of_nat (seq 0 m) ++ end_labels).
Proof.
  assert (H : right_labels xs (px a :: map px u ++ ends) ((-1)%Z :: map Z.of_nat (seq 0 m) ++ end_labels)).
  { pose proof row_right as K. unfold ends, end_labels, last_label in *. 
    assert (D : v = [] \/ v <> []) by (destruct v; [now left|right; discriminate]).
    destruct D as [Ev|Ev].
    - rewrite Ev in K |- *. destruct ia; [|exact K]. rewrite !app_nil_r.
      rewrite !app_comm_cons in K. now apply right_labels_app in K.
    - assert (E : forall (A : Type) (x y : A), match v with [] => x | _ => y end = y) by (destruct v; [contradiction|reflexivity]).
      rewrite E in K. rewrite !E. exact K. }
  destruct ib; [now apply right_labels_cons in H|exact H].
Qed.
End row.
