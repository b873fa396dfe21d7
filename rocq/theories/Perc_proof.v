From Verif Require Import Perc_model Perc_spec.
Open Scope R_scope.

Definition pfun (g : grading) (n i : nat) : R :=
  match g with
  | Constant => INR i / INR n
  | LogR => log10 (1 + 9 * INR i / INR n)
  | Log => 1 - log10 (1 + 9 * INR (n - i) / INR n)
  end.

Lemma INR_n_pos n : (1 <= n)%nat -> 0 < INR n.
Proof. intros; apply lt_0_INR; lia. Qed.

Lemma frac_lt n i j : (1 <= n)%nat -> (i < j)%nat -> INR i / INR n < INR j / INR n.
Proof.
  intros Hn H; unfold Rdiv; apply Rmult_lt_compat_r.
  - apply Rinv_0_lt_compat, INR_n_pos; auto.
  - apply lt_INR; auto.
Qed.

Lemma arg_pos n i : (1 <= n)%nat -> 0 < 1 + 9 * INR i / INR n.
Proof.
  intros Hn. assert (0 <= INR i / INR n).
  { unfold Rdiv; apply Rmult_le_pos; [apply pos_INR|].
    left; apply Rinv_0_lt_compat, INR_n_pos; auto. }
  unfold Rdiv in *. lra.
Qed.

Lemma pfun_lt g n i j :
  (1 <= n)%nat -> (i < j <= n)%nat -> pfun g n i < pfun g n j.
Proof.
  intros Hn H; destruct g; simpl.
  - apply frac_lt; lia.
  - assert (log10 (1 + 9 * INR (n - j) / INR n) < log10 (1 + 9 * INR (n - i) / INR n)); [|lra].
    apply log10_lt; [apply arg_pos; auto|].
    pose proof (frac_lt n (n - j) (n - i) Hn ltac:(lia)). unfold Rdiv in *; lra.
  - apply log10_lt; [apply arg_pos; auto|].
    pose proof (frac_lt n i j Hn ltac:(lia)). unfold Rdiv in *; lra.
Qed.

Lemma pfun_0 g n : (1 <= n)%nat -> pfun g n 0 = 0.
Proof.
  intros Hn; pose proof (INR_n_pos n Hn); destruct g; unfold pfun.
  - simpl; unfold Rdiv; ring.
  - rewrite Nat.sub_0_r. replace (1 + 9 * INR n / INR n) with 10 by (field; lra).
    rewrite log10_10; ring.
  - change (INR 0) with 0. replace (1 + 9 * 0 / INR n) with 1 by (field; lra). apply log10_1.
Qed.

Lemma pfun_n g n : (1 <= n)%nat -> pfun g n n = 1.
Proof.
  intros Hn; pose proof (INR_n_pos n Hn); destruct g; unfold pfun.
  - field; lra.
  - rewrite Nat.sub_diag. change (INR 0) with 0.
    replace (1 + 9 * 0 / INR n) with 1 by (field; lra). rewrite log10_1; ring.
  - replace (1 + 9 * INR n / INR n) with 10 by (field; lra). apply log10_10.
Qed.

Lemma nth_map_seq {A} (f : nat -> A) n i d :
  (i < n)%nat -> nth i (map f (seq 0 n)) d = f i.
Proof.
  intros H. rewrite nth_indep with (d' := f 0%nat) by (rewrite map_length, seq_length; lia).
  rewrite map_nth, seq_nth by lia. reflexivity.
Qed.

Lemma pfun_sorted g n :
  (1 <= n)%nat -> StronglySorted Rle (map (pfun g n) (seq 0 (S n))).
Proof.
  intros Hn; apply sorted_of_nth; rewrite map_length, seq_length; intros i j Hij.
  rewrite !nth_map_seq by lia. left; apply pfun_lt; lia.
Qed.

Lemma map_rev_seq {A} (f : nat -> A) n :
  map (fun i => f (n - i)%nat) (seq 0 (S n)) = rev (map f (seq 0 (S n))).
Proof.
  rewrite <- map_rev. apply nth_error_ext; intros i.
  rewrite !nth_error_map, nth_error_seq.
  destruct (Nat.ltb_spec i (S n)) as [H|H].
  - rewrite nth_error_nth' with (d := 0%nat) by (rewrite rev_length, seq_length; auto).
    cbn [option_map]. rewrite rev_nth by (rewrite seq_length; auto).
    rewrite seq_length, seq_nth by lia. do 2 f_equal; lia.
  - assert (nth_error (rev (seq 0 (S n))) i = None) as ->; auto.
    apply nth_error_None; rewrite rev_length, seq_length; auto.
Qed.

Lemma method_grading m g : names_method m g ->
  let m' := match m with None => "constant"
            | Some s => if String.eqb s "" then "constant" else s end%string in
  m' = match g with Constant => "constant" | Log => "log" | LogR => "log_r" end%string.
Proof. destruct 1; reflexivity. Qed.

Lemma to_perc_closed z m g :
  names_method m g ->
  resolution_to_perc (ResInt z) m =
  Ok (map (pfun g (Z.to_nat (Z.max 1 z))) (seq 0 (S (Z.to_nat (Z.max 1 z))))).
Proof.
  intros Hm. pose proof (method_grading m g Hm) as Hg. cbv zeta in Hg.
  unfold resolution_to_perc. rewrite Hg.
  set (n := Z.to_nat (Z.max 1 z)). assert (1 <= n)%nat as Hn by (unfold n; lia).
  pose proof (INR_n_pos n Hn) as Hp.
  replace (n + 1)%nat with (S n) by lia.
  destruct g; cbn [String.eqb Ascii.eqb Bool.eqb bind orb ends_with_r]; cbn -[seq map];
    f_equal.
  - rewrite <- (np_sort_id _ (pfun_sorted Constant n Hn)). f_equal.
    unfold linspace. apply map_ext_in; intros i _. simpl pfun.
    replace (S n - 1)%nat with n by lia. field; lra.
  - rewrite <- (np_sort_id _ (pfun_sorted Log n Hn)).
    assert (forall a b, Permutation a b -> np_sort a = np_sort b) as Hs.
    { intros a b Hab; apply sorted_perm_unique; try apply np_sort_sorted.
      rewrite <- !np_sort_perm; auto. }
    apply Hs. unfold linspace. rewrite !map_map.
    transitivity (rev (map (fun i => 1 - log10 (1 + 9 * INR i / INR n)) (seq 0 (S n)))).
    + rewrite <- Permutation_rev. match goal with |- Permutation ?a ?b => assert (a = b) as ->; [|apply Permutation_refl] end.
      apply map_ext; intros i. do 2 f_equal.
      replace (S n - 1)%nat with n by lia. field; lra.
    + rewrite <- map_rev_seq. apply Permutation_refl.
  - rewrite <- (np_sort_id _ (pfun_sorted LogR n Hn)). f_equal.
    unfold linspace. rewrite map_map. apply map_ext; intros i. simpl pfun. f_equal.
    replace (S n - 1)%nat with n by lia. field; lra.
Qed.

Lemma nth_pfun g n i :
  (i <= n)%nat -> nth_error (map (pfun g n) (seq 0 (S n))) i = Some (pfun g n i).
Proof.
  intros H. rewrite nth_error_map, nth_error_seq.
  destruct (Nat.ltb_spec i (S n)); [reflexivity|lia].
Qed.

Lemma nth_pfun_inv g n i x :
  nth_error (map (pfun g n) (seq 0 (S n))) i = Some x -> (i <= n)%nat /\ x = pfun g n i.
Proof.
  rewrite nth_error_map, nth_error_seq.
  destruct (Nat.ltb_spec i (S n)); simpl; intros [= <-]; split; auto; lia.
Qed.

Lemma int_res_norm r z : (r = ResNone /\ z = 1%Z) \/ r = ResInt z ->
  forall m, resolution_to_perc r m = resolution_to_perc (ResInt z) m.
Proof. intros [[-> ->]| ->]; reflexivity. Qed.

Lemma perc_proper z m g :
  names_method m g ->
  exists p, resolution_to_perc (ResInt z) m = Ok p /\
            proper_subdivision (Z.to_nat (Z.max 1 z)) p.
Proof.
  intros Hm. rewrite (to_perc_closed z m g Hm). eexists; split; [reflexivity|].
  set (n := Z.to_nat (Z.max 1 z)). assert (1 <= n)%nat as Hn by (unfold n; lia).
  split; [rewrite map_length, seq_length; auto|].
  split; [rewrite nth_pfun, pfun_0 by lia; auto|].
  split; [rewrite nth_pfun, pfun_n by lia; auto|].
  intros i j x y Hij Hx Hy.
  apply nth_pfun_inv in Hx; apply nth_pfun_inv in Hy.
  destruct Hx as [? ->], Hy as [? ->]. apply pfun_lt; lia.
Qed.

Lemma perc_bad_method z m :
  (forall g, ~ names_method m g) -> resolution_to_perc (ResInt z) m = Err ValueError.
Proof.
  intros H. unfold resolution_to_perc.
  destruct m as [s|]; [|exfalso; eapply H; constructor].
  destruct (String.eqb_spec s ""); [subst; exfalso; eapply H; constructor|].
  destruct (String.eqb_spec s "constant"); [subst; exfalso; eapply H; constructor|].
  destruct (String.eqb_spec s "log"); [subst; exfalso; eapply H; constructor|].
  destruct (String.eqb_spec s "log_r"); [subst; exfalso; eapply H; constructor|].
  reflexivity.
Qed.

Lemma perc_none m : resolution_to_perc ResNone m = resolution_to_perc (ResInt 1) m.
Proof. reflexivity. Qed.

(* ---- C02 ---- *)
Lemma gap_pfun g n i d : gap (map (pfun g n) (seq 0 (S n))) i d ->
  (i < n)%nat /\ d = pfun g n (S i) - pfun g n i.
Proof.
  intros (x & y & Hx & Hy & ->).
  apply nth_pfun_inv in Hx; apply nth_pfun_inv in Hy.
  destruct Hx as [? ->], Hy as [? ->]; split; auto; lia.
Qed.

Lemma ratio_dec n i :
  (1 <= n)%nat ->
  (1 + 9 * INR (S (S i)) / INR n) / (1 + 9 * INR (S i) / INR n) <
  (1 + 9 * INR (S i) / INR n) / (1 + 9 * INR i / INR n).
Proof.
  intros Hn.
  pose proof (arg_pos n i Hn). pose proof (arg_pos n (S i) Hn).
  set (a := 1 + 9 * INR i / INR n) in *.
  set (b := 1 + 9 * INR (S i) / INR n) in *.
  assert (exists d, 0 < d /\ b = a + d /\ 1 + 9 * INR (S (S i)) / INR n = b + d) as (d & Hd & Hb & Hc).
  { exists (9 / INR n). pose proof (INR_n_pos n Hn). repeat split.
    - apply Rdiv_lt_0_compat; lra.
    - unfold b, a; rewrite S_INR; field; lra.
    - unfold b; rewrite (S_INR (S i)); field; lra. }
  rewrite Hc, Hb in *.
  apply Rmult_lt_reg_r with ((a + d) * a); [apply Rmult_lt_0_compat; lra|].
  replace ((a + d + d) / (a + d) * ((a + d) * a)) with ((a + d + d) * a) by (field; lra).
  replace ((a + d) / a * ((a + d) * a)) with ((a + d) * (a + d)) by (field; lra).
  nra.
Qed.

Lemma ratio_mono n i j :
  (1 <= n)%nat -> (i < j)%nat ->
  (1 + 9 * INR (S j) / INR n) / (1 + 9 * INR j / INR n) <
  (1 + 9 * INR (S i) / INR n) / (1 + 9 * INR i / INR n).
Proof.
  intros Hn Hij; induction Hij as [|j Hij IH].
  - apply ratio_dec; auto.
  - eapply Rlt_trans; [apply ratio_dec; auto|apply IH].
Qed.

Lemma logr_gap_mono n i j :
  (1 <= n)%nat -> (i < j)%nat ->
  pfun LogR n (S j) - pfun LogR n j < pfun LogR n (S i) - pfun LogR n i.
Proof.
  intros Hn Hij; unfold pfun.
  rewrite !log10_sub by (apply arg_pos; auto).
  apply log10_lt; [|apply ratio_mono; auto].
  apply Rdiv_lt_0_compat; apply arg_pos; auto.
Qed.

Lemma log_mirror n i : (i <= n)%nat -> pfun Log n i = 1 - pfun LogR n (n - i).
Proof. reflexivity. Qed.

Lemma constant_gaps z m p i d :
  names_method m Constant -> resolution_to_perc (ResInt z) m = Ok p ->
  gap p i d -> d = 1 / IZR (Z.max 1 z).
Proof.
  intros Hm. rewrite (to_perc_closed z m _ Hm). intros Hp%Ok_inj Hg. subst p.
  apply gap_pfun in Hg. destruct Hg as [Hi ->].
  set (n := Z.to_nat (Z.max 1 z)) in *. assert (1 <= n)%nat as Hn by (unfold n; lia).
  pose proof (INR_n_pos n Hn). simpl pfun.
  replace (IZR (Z.max 1 z)) with (INR n).
  - change (match i with 0%nat => 1 | S _ => INR i + 1 end) with (INR (S i)).
    rewrite S_INR. field; lra.
  - unfold n. rewrite INR_IZR_INZ. f_equal. lia.
Qed.

Lemma log_gaps_increase z m p i j d e :
  names_method m Log -> resolution_to_perc (ResInt z) m = Ok p ->
  (i < j)%nat -> gap p i d -> gap p j e -> d < e.
Proof.
  intros Hm. rewrite (to_perc_closed z m _ Hm). intros Hp%Ok_inj Hij Hd He. subst p.
  apply gap_pfun in Hd; apply gap_pfun in He. destruct Hd as [Hi ->], He as [Hj ->].
  set (n := Z.to_nat (Z.max 1 z)) in *.
  rewrite !log_mirror by lia.
  pose proof (logr_gap_mono n (n - S j) (n - S i) ltac:(lia) ltac:(lia)) as H.
  replace (S (n - S j)) with (n - j)%nat in H by lia.
  replace (S (n - S i)) with (n - i)%nat in H by lia. lra.
Qed.

Lemma logr_gaps_decrease z m p i j d e :
  names_method m LogR -> resolution_to_perc (ResInt z) m = Ok p ->
  (i < j)%nat -> gap p i d -> gap p j e -> e < d.
Proof.
  intros Hm. rewrite (to_perc_closed z m _ Hm). intros Hp%Ok_inj Hij Hd He. subst p.
  apply gap_pfun in Hd; apply gap_pfun in He. destruct Hd as [Hi ->], He as [Hj ->].
  apply logr_gap_mono; auto; lia.
Qed.

Lemma log_logr_mirrored z m m' p q :
  names_method m Log -> names_method m' LogR ->
  resolution_to_perc (ResInt z) m = Ok p ->
  resolution_to_perc (ResInt z) m' = Ok q -> mirrored p q.
Proof.
  intros Hm Hm'. rewrite (to_perc_closed z m _ Hm), (to_perc_closed z m' _ Hm').
  intros Hp%Ok_inj Hq%Ok_inj. subst p q. set (n := Z.to_nat (Z.max 1 z)).
  split; [rewrite !map_length; auto|].
  intros i x Hx. apply nth_pfun_inv in Hx. destruct Hx as [Hi ->].
  rewrite map_length, seq_length. replace (S n - 1 - i)%nat with (n - i)%nat by lia.
  rewrite nth_pfun by lia. rewrite log_mirror by auto. f_equal; ring.
Qed.

(* ---- C03 ---- *)
Lemma perc_array l m :
  exists p, resolution_to_perc (ResArr l) m = Ok p /\ Permutation l p /\
            StronglySorted Rle p.
Proof.
  exists (np_sort l); split; [reflexivity|].
  split; [apply np_sort_perm|apply np_sort_sorted].
Qed.

(* ---- C04 ---- *)
Lemma multiple_lines_Ok {A} (l m : list A) : multiple_lines l = Ok m -> m = l.
Proof. unfold multiple_lines. destruct (2 <=? length l)%nat; [intros [= <-]; reflexivity|discriminate]. Qed.
Lemma multiple_lines_two {A} (l : list A) : (2 <= length l)%nat -> multiple_lines l = Ok l.
Proof. intros H. unfold multiple_lines. destruct (Nat.leb_spec 2 (length l)); [reflexivity|lia]. Qed.
Lemma multiple_lines_few {A} (l : list A) : (length l < 2)%nat -> multiple_lines l = Err ValueError.
Proof. intros H. unfold multiple_lines. destruct (Nat.leb_spec 2 (length l)); [lia|reflexivity]. Qed.

Lemma line_points a b r m pts :
  generate_line_from_two_points a b r m = Ok pts ->
  (length a = length b /\ (length a = 2 \/ length a = 3))%nat /\
  exists p, resolution_to_perc r m = Ok p /\ Forall2 (on_segment_at a b) p pts.
Proof.
  unfold generate_line_from_two_points.
  destruct (Nat.eqb_spec (length a) (length b)) as [Hab|]; [|discriminate]. simpl negb.
  unfold bind. cbv iota. destruct (resolution_to_perc r m) as [p|]; [|discriminate].
  set (mk := fun t : R => map2 (fun x y => x + t * (y - x)) a b).
  assert (forall t k x y, nth_error a k = Some x -> nth_error b k = Some y ->
            nth_error (mk t) k = Some (x + t * (y - x))) as Hmk.
  { intros t k x y Hx Hy; unfold mk; rewrite map2_nth_error, Hx, Hy; auto. }
  assert (forall t, length (mk t) = length a) as Hlen
      by (intros t; unfold mk; rewrite map2_length; lia).
  destruct (Nat.eqb_spec (length a) 3) as [H3|H3]; simpl orb; cbv iota.
  - intros ->%multiple_lines_Ok. split; [auto|]. exists p; split; auto.
    clear -Hmk Hlen H3. induction p; simpl; constructor; auto.
    split; [rewrite Hlen; auto|]. split; [intros; apply Hmk; auto|intros; lia].
  - destruct (Nat.eqb_spec (length a) 2) as [H2|H2]; [|discriminate].
    intros ->%multiple_lines_Ok. split; [auto|]. exists p; split; auto.
    clear -Hmk Hlen H2. induction p; simpl; constructor; auto.
    split; [rewrite app_length, Hlen, H2; auto|].
    split.
    + intros k x y Hx Hy. rewrite nth_error_app1; [apply Hmk; auto|].
      rewrite Hlen. apply nth_error_Some; congruence.
    + intros k Hk. assert (k = 2)%nat as -> by lia.
      rewrite nth_error_app2, Hlen, H2 by (rewrite Hlen; lia). reflexivity.
Qed.

Lemma line_shape_error a b r m :
  length a <> length b -> generate_line_from_two_points a b r m = Err ValueError.
Proof.
  intros H; unfold generate_line_from_two_points.
  destruct (Nat.eqb_spec (length a) (length b)); [contradiction|reflexivity].
Qed.

Lemma line_defined a b r m p :
  resolution_to_perc r m = Ok p -> length a = length b -> (length a = 2 \/ length a = 3)%nat ->
  (exists pts, generate_line_from_two_points a b r m = Ok pts) <-> (2 <= length p)%nat.
Proof.
  intros Hp Hab H23; unfold generate_line_from_two_points.
  rewrite Hab, Nat.eqb_refl, Hp; simpl negb; cbv iota. cbn [bind]. rewrite <- Hab.
  assert (forall l : list (list R), length l = length p ->
    (exists pts, multiple_lines l = Ok pts) <-> (2 <= length p)%nat) as M.
  { intros l Hl. destruct (Nat.lt_ge_cases (length p) 2) as [C|C].
    - rewrite multiple_lines_few by lia. split; [intros (pts & E); discriminate|lia].
    - rewrite multiple_lines_two by lia. split; [lia|eauto]. }
  destruct H23 as [-> | ->]; cbn [Nat.eqb orb]; apply M; now rewrite !map_length.
Qed.

Lemma line_ok a b z m g :
  names_method m g -> length a = length b -> (length a = 2 \/ length a = 3)%nat ->
  exists pts, generate_line_from_two_points a b (ResInt z) m = Ok pts.
Proof.
  intros Hm Hab H23. destruct (perc_proper z m g Hm) as (p & Hp & Hl & _).
  apply (line_defined a b _ _ p); auto. rewrite Hl. lia.
Qed.

Lemma on_segment_0 a b c : length a = length b -> on_segment_at a b 0 c ->
  forall k x, nth_error a k = Some x -> nth_error c k = Some x.
Proof.
  intros Hl (_ & H & _) k x Hx.
  destruct (nth_error b k) as [y|] eqn:Hy.
  - rewrite (H k x y Hx Hy). f_equal; ring.
  - apply nth_error_None in Hy. assert (k < length a)%nat by (apply nth_error_Some; congruence). lia.
Qed.

Lemma on_segment_1 a b c : length a = length b -> on_segment_at a b 1 c ->
  forall k y, nth_error b k = Some y -> nth_error c k = Some y.
Proof.
  intros Hl (_ & H & _) k y Hy.
  destruct (nth_error a k) as [x|] eqn:Hx.
  - rewrite (H k x y Hx Hy). f_equal; ring.
  - apply nth_error_None in Hx. assert (k < length b)%nat by (apply nth_error_Some; congruence). lia.
Qed.

Lemma line_ends a b z m g pts :
  names_method m g -> generate_line_from_two_points a b (ResInt z) m = Ok pts ->
  length pts = S (Z.to_nat (Z.max 1 z)) /\
  (exists c, nth_error pts 0 = Some c /\ forall k x, nth_error a k = Some x -> nth_error c k = Some x) /\
  (exists c, nth_error pts (Z.to_nat (Z.max 1 z)) = Some c /\
             forall k y, nth_error b k = Some y -> nth_error c k = Some y).
Proof.
  intros Hm H. apply line_points in H. destruct H as ((Hl & _) & p & Hp & HF).
  destruct (perc_proper z m g Hm) as (p' & Hp' & Hlen & H0 & H1 & _).
  rewrite Hp in Hp'; injection Hp' as <-.
  split; [rewrite <- Hlen; symmetry; eapply Forall2_len; eauto|].
  split.
  - destruct (Forall2_nth_error _ _ _ _ _ HF H0) as (c & Hc & Hs).
    exists c; split; auto. eapply on_segment_0; eauto.
  - destruct (Forall2_nth_error _ _ _ _ _ HF H1) as (c & Hc & Hs).
    exists c; split; auto. eapply on_segment_1; eauto.
Qed.

(* ---- C05 ---- *)
Lemma arc_on_circle radius t0 t1 r m pts :
  generate_arc radius t0 t1 r m = Ok pts ->
  (exists p, resolution_to_perc r m = Ok p /\ length pts = length p) /\
  Forall (fun q => let '(x, y, z) := q in z = 0 /\ sqrt (x * x + y * y) = Rabs radius) pts.
Proof.
  unfold generate_arc, bind. destruct (resolution_to_perc r m) as [p|]; [|discriminate].
  intros ->%multiple_lines_Ok; split.
  - exists p; split; auto. rewrite !map_length; auto.
  - apply Forall_map, Forall_forall; intros t _. split; [ring|].
    replace (radius * cos t * (radius * cos t) + radius * sin t * (radius * sin t))
      with (Rsqr radius * (Rsqr (sin t) + Rsqr (cos t))) by (unfold Rsqr; ring).
    rewrite sin2_cos2, Rmult_1_r. apply sqrt_Rsqr_abs.
Qed.

Lemma arc_ends radius t0 t1 z m g :
  names_method m g ->
  exists pts, generate_arc radius t0 t1 (ResInt z) m = Ok pts /\
  length pts = S (Z.to_nat (Z.max 1 z)) /\
  nth_error pts 0 =
    Some (radius * cos (t0 * PI / 180), radius * sin (t0 * PI / 180), 0) /\
  nth_error pts (Z.to_nat (Z.max 1 z)) =
    Some (radius * cos (t1 * PI / 180), radius * sin (t1 * PI / 180), 0).
Proof.
  intros Hm. unfold generate_arc.
  destruct (perc_proper z m g Hm) as (p & -> & Hlen & H0 & H1 & _).
  unfold bind. rewrite multiple_lines_two by (rewrite !map_length, Hlen; lia).
  eexists; split; [reflexivity|]. rewrite !map_length.
  split; auto. rewrite !nth_error_map, H0, H1; simpl.
  unfold deg2rad.
  replace ((t0 + 0 * (t1 - t0)) * (PI / 180)) with (t0 * PI / 180) by field.
  replace ((t0 + 1 * (t1 - t0)) * (PI / 180)) with (t1 * PI / 180) by field.
  rewrite Rmult_0_r. auto.
Qed.

Lemma arc_points radius t0 t1 r m p :
  resolution_to_perc r m = Ok p ->
  ((exists pts, generate_arc radius t0 t1 r m = Ok pts) <-> (2 <= length p)%nat) /\
  forall pts, generate_arc radius t0 t1 r m = Ok pts -> length pts = length p /\
    forall k s, nth_error p k = Some s -> exists a, a = (t0 + s * (t1 - t0)) * PI / 180 /\
      nth_error pts k = Some (radius * cos a, radius * sin a, 0).
Proof.
  intros Hp. unfold generate_arc. rewrite Hp. cbn [bind].
  set (l := map _ (map _ p)). assert (Hl : length l = length p) by (unfold l; now rewrite !map_length).
  split.
  - destruct (Nat.lt_ge_cases (length p) 2) as [C|C].
    + rewrite multiple_lines_few by lia. split; [intros (pts & E); discriminate|lia].
    + rewrite multiple_lines_two by lia. split; [lia|eauto].
  - intros pts ->%multiple_lines_Ok. split; [exact Hl|]. intros k s Hs. eexists. split; [reflexivity|].
    unfold l. rewrite !nth_error_map, Hs. cbn. unfold deg2rad. rewrite Rmult_0_r.
    replace ((t0 + s * (t1 - t0)) * (PI / 180)) with ((t0 + s * (t1 - t0)) * PI / 180) by field. reflexivity.
Qed.
