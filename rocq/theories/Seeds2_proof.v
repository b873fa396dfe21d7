From Coq Require Import Reals Lra Lia.
From Verif Require Import Prelude RealAux Perc_model Perc_proof Grid Surface_model Surface_spec Volume_model
  Groups_model Lines_model Voronoi_model Objects_model Objects_spec Objects1_proof Objects3_proof Objects5_proof
  Seeds_model Seeds_spec Seeds1_proof.
Open Scope R_scope.

Section Circle.
Variable areas : shape3 -> list pt -> list R.
Variable swap : bool.

Lemma circle_bad axis s radius arg cr res center plain prio group :
  constraint_of radius arg cr -> ~ (0 < radius /\ radius <= cr < 2 * radius) ->
  add_circle areas swap axis s radius arg res center plain prio group = (s, Err ValueError).
Proof.
  intros Hc H. unfold add_circle. rewrite (constraint_val _ _ _ Hc).
  assert (B : forall r ts, r <= 0 -> Circle r ts center = Err ValueError).
  { intros r ts Hr. unfold Circle, Sector. destruct (Rleb_spec r 0); [reflexivity|lra]. }
  destruct (Rlt_dec 0 (cr - radius)).
  { rewrite B by lra. reflexivity. }
  destruct (Req_EM_T (cr - radius) 0); [|reflexivity]. rewrite B by lra. reflexivity.
Qed.

Lemma circle_inv r s center m : Circle r s center = Ok m ->
  0 < r /\ exists p c, subdivides s p /\ (2 <= length p)%nat /\ offset center c.
Proof.
  unfold Circle, Sector. destruct (Rleb_spec r 0) as [|Hr]; [discriminate|]. unfold generate_arc.
  destruct (resolution_to_perc _ _) as [p|] eqn:E; [|discriminate]. cbn [bind].
  unfold multiple_lines. rewrite !map_length. destruct (Nat.leb_spec 2 (length p)); [|discriminate]. cbn [bind].
  intros H1. split; [lra|].
  assert (exists c, offset center c) as (c & Hc).
  { destruct center as [[|x [|y [|z [|w l]]]]|]; cbn [translate] in H1; try discriminate; eexists; constructor. }
  exists p, c. auto.
Qed.

Lemma circle_atomic axis s radius arg res center plain prio group s' e :
  add_circle areas swap axis s radius arg res center plain prio group = (s', Err e) -> s' = s.
Proof.
  intros H.
  set (cr := match arg with Some c => c | None => 3 / 2 * radius end) in *.
  assert (Hc : constraint_of radius arg cr) by (unfold constraint_of, cr; destruct arg; auto).
  destruct (Rlt_dec 0 (cr - radius)) as [Hd|Hd].
  - destruct (Circle (radius - (cr - radius)) (mkSub res None) center) as [m|e'] eqn:Em.
    + apply circle_inv in Em as (Hr & p & c & S & L & O).
      destruct (circle_two areas swap axis s radius arg cr res p center c plain prio group Hc ltac:(lra) ltac:(lra) S L O)
        as (s2 & it1 & it2 & E & _). rewrite E in H. discriminate.
    + unfold add_circle in H. fold cr in H. destruct (Rlt_dec 0 (cr - radius)); [|lra]. rewrite Em in H. cbn [after] in H. congruence.
  - destruct (Req_EM_T (cr - radius) 0) as [Hz|Hz].
    + assert (Ecr : cr = radius) by lra. rewrite Ecr in *. clearbody cr.
      destruct (Circle radius (mkSub res None) center) as [m|e'] eqn:Em.
      * apply circle_inv in Em as (Hr & p & c & S & L & O).
        destruct (circle_one areas swap axis s radius arg res p center c plain prio group Hc Hr S L O)
          as (s2 & it & E & _). rewrite E in H. discriminate.
      * unfold add_circle in H. rewrite (constraint_val _ _ _ Hc) in H.
        destruct (Rlt_dec 0 (radius - radius)); [lra|]. destruct (Req_EM_T (radius - radius) 0); [|lra].
        rewrite Em in H. cbn [after] in H. congruence.
    + unfold add_circle in H. fold cr in H. destruct (Rlt_dec 0 (cr - radius)); [lra|].
      destruct (Req_EM_T (cr - radius) 0); [lra|]. congruence.
Qed.

Lemma circle_accepted axis s radius arg cr res p center c plain prio group :
  constraint_of radius arg cr -> subdivides (mkSub res None) p -> (2 <= length p)%nat -> offset center c ->
  (exists s', add_circle areas swap axis s radius arg res center plain prio group = (s', Ok tt)) <->
  0 < radius /\ radius <= cr < 2 * radius.
Proof.
  intros Hc S L O. split.
  - intros (s' & E). destruct (Rlt_dec 0 radius); [|rewrite (circle_bad _ _ _ _ cr) in E; auto; [discriminate|lra]].
    destruct (Rle_dec radius cr); [|rewrite (circle_bad _ _ _ _ cr) in E; auto; [discriminate|lra]].
    destruct (Rlt_dec cr (2 * radius)); [|rewrite (circle_bad _ _ _ _ cr) in E; auto; [discriminate|lra]]. lra.
  - intros (Hr & Hcr). destruct (Req_dec radius cr) as [E|E].
    + rewrite <- E in Hc. destruct (circle_one areas swap axis s radius arg res p center c plain prio group Hc Hr S L O)
        as (s2 & it & X & _). eauto.
    + destruct (circle_two areas swap axis s radius arg cr res p center c plain prio group Hc ltac:(lra) ltac:(lra) S L O)
        as (s2 & it1 & it2 & X & _). eauto.
Qed.

Lemma circle_large_rejected : exists axis s radius cr, radius <= cr /\ 0 < radius /\
  add_circle areas swap axis s radius (Some cr) ResNone None false 0 "" = (s, Err ValueError).
Proof.
  exists 2%nat, (mkSeeds [] []), 1, 2. split; [lra|]. split; [lra|].
  apply (circle_bad _ _ _ _ 2); [left; reflexivity|lra].
Qed.

(* the chord of the circle separates the cells *)
Lemma sq_eq a b : a = b -> sqrt a = sqrt b.
Proof. intros ->. reflexivity. Qed.

Lemma ring_mean x y r1 r2 a a' :
  mean_point (map (in_plane 2) (ring (x, y, 0) r1 r2 a a')) =
  (x + (r1 + r2) / 2 * ((cos (degrees a) + cos (degrees a')) / 2),
   y + (r1 + r2) / 2 * ((sin (degrees a) + sin (degrees a')) / 2), 0).
Proof.
  unfold mean_point, ring, polar. cbn [map in_plane length]. unfold total. cbn [fold_right xyz].
  replace (INR 4) with 4 by (cbn; lra). f_equal; [f_equal|]; field.
Qed.

Lemma chord_side x y r d a a' :
  dist3 (polar (x, y, 0) r a) (mean_point (map (in_plane 2) (ring (x, y, 0) (r - d) r a a'))) =
  dist3 (polar (x, y, 0) r a) (mean_point (map (in_plane 2) (ring (x, y, 0) r (r + d) a a'))) /\
  dist3 (polar (x, y, 0) r a') (mean_point (map (in_plane 2) (ring (x, y, 0) (r - d) r a a'))) =
  dist3 (polar (x, y, 0) r a') (mean_point (map (in_plane 2) (ring (x, y, 0) r (r + d) a a'))).
Proof.
  rewrite !ring_mean. unfold polar, dist3.
  pose proof (sin2_cos2 (degrees a)) as H1. pose proof (sin2_cos2 (degrees a')) as H2. unfold Rsqr in H1, H2.
  set (u := cos (degrees a)) in *. set (v := sin (degrees a)) in *.
  set (u' := cos (degrees a')) in *. set (v' := sin (degrees a')) in *.
  clearbody u v u' v'.
  assert (E1 : v * v = 1 - u * u) by lra. assert (E2 : v' * v' = 1 - u' * u') by lra.
  split; apply sq_eq.
  - transitivity (r * r - (r - d / 2) * r * (1 + u * u' + v * v') + (r - d / 2) * (r - d / 2) * ((1 + u * u' + v * v') / 2)).
    + transitivity ((r*r)*(u*u+v*v) - (r - d / 2) * r * (u*u + v*v + u * u' + v * v') + (r - d / 2) * (r - d / 2) * ((u*u+v*v + (u'*u'+v'*v')) / 4 + (u * u' + v * v') / 2)); [field|rewrite E1, E2; field].
    + transitivity ((r*r)*(u*u+v*v) - (r + d / 2) * r * (u*u + v*v + u * u' + v * v') + (r + d / 2) * (r + d / 2) * ((u*u+v*v + (u'*u'+v'*v')) / 4 + (u * u' + v * v') / 2)); [rewrite E1, E2; field|field].
  - transitivity (r * r - (r - d / 2) * r * (1 + u * u' + v * v') + (r - d / 2) * (r - d / 2) * ((1 + u * u' + v * v') / 2)).
    + transitivity ((r*r)*(u'*u'+v'*v') - (r - d / 2) * r * (u'*u' + v'*v' + u * u' + v * v') + (r - d / 2) * (r - d / 2) * ((u*u+v*v + (u'*u'+v'*v')) / 4 + (u * u' + v * v') / 2)); [field|rewrite E1, E2; field].
    + transitivity ((r*r)*(u'*u'+v'*v') - (r + d / 2) * r * (u'*u' + v'*v' + u * u' + v * v') + (r + d / 2) * (r + d / 2) * ((u*u+v*v + (u'*u'+v'*v')) / 4 + (u * u' + v * v') / 2)); [rewrite E1, E2; field|field].
Qed.

Lemma in_plane_ring x y z r1 r2 a a' :
  map (in_plane 2) (ring (x, y, z) r1 r2 a a') = map (in_plane 2) (ring (x, y, 0) r1 r2 a a').
Proof. reflexivity. Qed.

Lemma circle_chords s radius arg cr res p center x y z plain prio group :
  constraint_of radius arg cr -> 0 < radius -> radius < cr < 2 * radius ->
  subdivides (mkSub res None) p -> (2 <= length p)%nat -> offset center (x, y, z) ->
  exists s' it1 it2, add_circle areas swap 2 s radius arg res center plain prio group = (s', Ok tt) /\
    s_items s' = s_items s ++ [it1; it2] /\
    length (cells_of it1) = (2 * (length p - 1))%nat /\ length (cells_of it2) = (length p - 1)%nat /\
    vi_prio it1 = prio /\ vi_group it1 = group /\ vi_prio it2 = 0%Z /\ vi_group it2 = ""%string /\
    forall k t t', nth_error p k = Some t -> nth_error p (S k) = Some t' ->
      exists inner outer, In inner (cells_of it1) /\ nth_error (cells_of it2) k = Some outer /\
        (forall q, In q inner -> coord 2 q = 0 /\ dist3 (x, y, 0) q <= radius) /\
        (forall q, In q outer -> coord 2 q = 0 /\ radius <= dist3 (x, y, 0) q <= cr) /\
        let P := polar (x, y, 0) radius (360 * t) in
        let Q := polar (x, y, 0) radius (360 * t') in
        In P inner /\ In Q inner /\ In P outer /\ In Q outer /\
        dist3 P (mean_point inner) = dist3 P (mean_point outer) /\
        dist3 Q (mean_point inner) = dist3 Q (mean_point outer).
Proof.
  intros Hc Hr Hcr S L O.
  destruct (circle_two areas swap 2 s radius arg cr res p center _ plain prio group Hc Hr Hcr S L O)
    as (s' & it1 & it2 & E & I & P1 & G1 & _ & P2 & G2 & _ & L1 & L2 & _ & _ & _ & N & _).
  exists s', it1, it2. do 8 (split; [assumption|]).
  intros k t t' Ht Ht'. destruct (N k t t' Ht Ht') as (_ & In1 & In2).
  exists (map (in_plane 2) (ring (x, y, 0) (2 * radius - cr) radius (360 * t) (360 * t'))),
         (map (in_plane 2) (ring (x, y, 0) radius cr (360 * t) (360 * t'))).
  split; [exact In1|]. split; [exact In2|].
  assert (Dist : forall r a, 0 <= r -> dist3 (x, y, 0) (polar (x, y, 0) r a) = r).
  { intros r a Hr0. unfold dist3, polar. pose proof (sin2_cos2 (degrees a)) as H1. unfold Rsqr in H1.
    transitivity (sqrt (r * r)); [|apply sqrt_square; exact Hr0]. apply sq_eq.
    transitivity (r * r * (sin (degrees a) * sin (degrees a) + cos (degrees a) * cos (degrees a))); [ring|rewrite H1; ring]. }
  assert (Pl : forall r a, in_plane 2 (polar (x, y, 0) r a) = polar (x, y, 0) r a) by reflexivity.
  assert (M : forall r1 r2 q, In q (map (in_plane 2) (ring (x, y, 0) r1 r2 (360 * t) (360 * t'))) ->
     0 <= r1 -> 0 <= r2 -> coord 2 q = 0 /\ (dist3 (x, y, 0) q = r1 \/ dist3 (x, y, 0) q = r2)).
  { intros r1 r2 q Hq Hr1 Hr2. unfold ring in Hq. cbn [map In] in Hq. rewrite !Pl in Hq.
    destruct Hq as [<-|[<-|[<-|[<-|[]]]]]; (split; [reflexivity|]); rewrite Dist by assumption; auto. }
  split. { intros q Hq. destruct (M _ _ _ Hq) as (A & B); [lra|lra|]. split; [exact A|]. destruct B as [-> | ->]; lra. }
  split. { intros q Hq. destruct (M _ _ _ Hq) as (A & B); [lra|lra|]. split; [exact A|]. destruct B as [-> | ->]; lra. }
  cbn zeta. unfold ring at 1 2 3 4. cbn [map In]. rewrite !Pl. do 4 (split; [tauto|]).
  pose proof (chord_side x y radius (cr - radius) (360 * t) (360 * t')) as Ch.
  replace (radius - (cr - radius)) with (2 * radius - cr) in Ch by ring. replace (radius + (cr - radius)) with cr in Ch by ring.
  exact Ch.
Qed.

(* the circle is flat in the other planes *)
Lemma circle_flat axis s radius arg cr res p center x y z plain prio group :
  (axis <= 1)%nat ->
  constraint_of radius arg cr -> 0 < radius -> radius < cr < 2 * radius ->
  subdivides (mkSub res None) p -> (2 <= length p)%nat -> offset center (x, y, z) ->
  exists s' it1 it2, add_circle areas swap axis s radius arg res center plain prio group = (s', Ok tt) /\
    s_items s' = s_items s ++ [it1; it2] /\ cells_of it1 <> [] /\
    forall cell q, In cell (cells_of it1) \/ In cell (cells_of it2) -> In q cell -> coord axis q = 0 /\ coord 2 q = z.
Proof.
  intros Ha Hc Hr Hcr S L O.
  destruct (circle_two areas swap axis s radius arg cr res p center _ plain prio group Hc Hr Hcr S L O)
    as (s' & it1 & it2 & E & I & P1 & G1 & _ & P2 & G2 & _ & L1 & L2 & _ & _ & _ & _ & N & _).
  exists s', it1, it2. split; [exact E|]. split; [exact I|].
  split. { intros X. rewrite X in L1. cbn in L1. lia. }
  intros cell q Hcell Hq. destruct (N cell Hcell) as (k & t & t' & r1 & r2 & _ & _ & [-> | ->]);
    apply in_map_iff in Hq as (q0 & <- & Hq0); unfold pie, ring in Hq0; cbn [In] in Hq0;
    (destruct axis as [|[|n]]; [| |lia]);
    repeat match goal with H : _ \/ _ |- _ => destruct H as [<-|H] | H : False |- _ => destruct H end;
    cbn [polar in_plane coord]; auto.
Qed.

Lemma circle_flat_refuted : exists axis s radius s' it1 it2, 0 < radius /\
  add_circle areas swap axis s radius None (ResInt 8) None false 0 "" = (s', Ok tt) /\
  s_items s' = s_items s ++ [it1; it2] /\ cells_of it1 <> [] /\
  forall cell, In cell (cells_of it1) \/ In cell (cells_of it2) -> forall q q', In q cell -> In q' cell ->
    coord 0 q = coord 0 q' /\ coord 2 q = coord 2 q'.
Proof.
  exists 0%nat, (mkSeeds [] []), 1.
  assert (exists p, subdivides (mkSub (ResInt 8) None) p /\ (2 <= length p)%nat) as (p & S & L).
  { unfold subdivides. cbn [sb_res sb_method]. unfold resolution_to_perc. cbn [String.eqb bind].
    eexists. split; [reflexivity|]. rewrite np_sort_length. destruct (negb _); rewrite ?map_length; unfold linspace; rewrite map_length, seq_length; cbn; lia. }
  destruct (circle_flat 0 (mkSeeds [] []) 1 None (3 / 2 * 1) (ResInt 8) p None 0 0 0 false 0%Z ""%string ltac:(lia) (or_intror (conj eq_refl eq_refl))
     ltac:(lra) ltac:(lra) S L off_none) as (s' & it1 & it2 & E & I & Ne & N).
  exists s', it1, it2. split; [lra|]. do 3 (split; [assumption|]).
  intros cell Hc q q' Hq Hq'. destruct (N cell q Hc Hq) as (A & B). destruct (N cell q' Hc Hq') as (A' & B').
  split; congruence.
Qed.

(* fusion *)
Lemma sqrt_lt_iff u r : 0 <= r -> 0 <= u -> sqrt u < r <-> u < r * r.
Proof.
  intros Hr Hu. pose proof (sqrt_pos u). pose proof (sqrt_sqrt u Hu). split; intros H1; nra.
Qed.

Lemma circle_plain s radius arg cr res p center x y prio group :
  constraint_of radius arg cr -> 0 < radius -> radius <= cr < 2 * radius ->
  subdivides (mkSub res None) p -> (2 <= length p)%nat -> offset center (x, y, 0) ->
  exists s' f, add_circle areas swap 2 s radius arg res center true prio group = (s', Ok tt) /\
    s_fuse s' = s_fuse s ++ [f] /\
    forall u v, f (u, v, 0) = true <-> (u - x) * (u - x) + (v - y) * (v - y) < radius * radius.
Proof.
  intros Hc Hr Hcr S L O.
  assert (F : exists s', add_circle areas swap 2 s radius arg res center true prio group = (s', Ok tt) /\
     s_fuse s' = s_fuse s ++ match plain_center 2 center with Ok q => [inside q radius] | Err _ => [] end).
  { destruct (Req_dec radius cr) as [E|E].
    - rewrite <- E in Hc. destruct (circle_one areas swap 2 s radius arg res p center _ true prio group Hc Hr S L O)
        as (s2 & it & X & _ & _ & _ & _ & _ & _ & _ & F). eauto.
    - destruct (circle_two areas swap 2 s radius arg cr res p center _ true prio group Hc Hr ltac:(lra) S L O)
        as (s2 & it1 & it2 & X & H). decompose [and] H. eauto. }
  destruct F as (s' & E & F). exists s'. exists (inside (x, y, 0) radius). split; [exact E|].
  assert (Hp : plain_center 2 center = Ok (x, y, 0)) by (inversion O; reflexivity).
  rewrite Hp in F. split; [exact F|]. intros u v. unfold inside, Objects_model.norm, sub3, dot.
  assert (H1 := Rle_0_sqr (u - x)). assert (H2 := Rle_0_sqr (v - y)). unfold Rsqr in H1, H2.
  rewrite <- (sqrt_lt_iff ((u - x) * (u - x) + (v - y) * (v - y)) radius) by lra.
  replace ((u - x) * (u - x) + (v - y) * (v - y) + (0 - 0) * (0 - 0)) with ((u - x) * (u - x) + (v - y) * (v - y)) by ring.
  destruct (Rlt_dec _ radius); intuition discriminate.
Qed.

Lemma circle_plain_refuted : exists s radius center s' f, 0 < radius /\
  add_circle areas swap 2 s radius None ResNone (Some center) true 0 "" = (s', Ok tt) /\
  s_fuse s' = s_fuse s ++ [f] /\ exists x y z, center = [x; y; z] /\ forall u v, f (u, v, 0) = false.
Proof.
  exists (mkSeeds [] []), 1, [0; 0; 5].
  destruct (circle_two areas swap 2 (mkSeeds [] []) 1 None (3 / 2 * 1) ResNone [0; 1] (Some [0; 0; 5]) (0, 0, 5) true 0%Z ""%string
     (or_intror (conj eq_refl eq_refl)) ltac:(lra) ltac:(lra) sub_none (le_n 2) (off_three 0 0 5)) as (s' & it1 & it2 & X & H).
  exists s', (inside (0, 0, 5) 1). split; [lra|]. split; [exact X|]. split; [apply H|].
  exists 0, 0, 5. split; [reflexivity|]. intros u v. unfold inside.
  destruct (Rlt_dec _ 1) as [Hl|]; [|reflexivity]. exfalso. revert Hl. apply Rle_not_lt.
  unfold Objects_model.norm, sub3, dot. rewrite <- sqrt_1 at 1. apply sqrt_le_1_alt. nra.
Qed.

(* groups *)
Lemma ones_set n k (a : list Z) : length a = k -> mask_set n (repeat true k) a = repeat n k.
Proof. revert a; induction k as [|k IH]; intros [|x a] H; cbn in *; try lia; [reflexivity|]. f_equal. apply IH. lia. Qed.

Lemma neg_none n k : (n <> -1)%Z -> existsb (fun x => (x =? -1)%Z) (repeat n k) = false.
Proof. intros H. induction k; cbn; [reflexivity|]. rewrite IHk. destruct (Z.eqb_spec n (-1)); [congruence|reflexivity]. Qed.

Lemma all_neg n k : mask_set n (map (fun x => (x =? -1)%Z) (repeat (-1)%Z k)) (repeat (-1)%Z k) = repeat n k.
Proof. induction k as [|k IH]; [reflexivity|]. cbn. f_equal. exact IH. Qed.

Lemma forall_repeat {A} (P : A -> Prop) x k : P x -> Forall P (repeat x k).
Proof. intros H. induction k; cbn; constructor; auto. Qed.

Lemma dget_app k d d' : dget k (d ++ d') = match dget k d with Some x => Some x | None => dget k d' end.
Proof. induction d as [|(k0, v) d IH]; [reflexivity|]. cbn. destruct (String.eqb k k0); auto. Qed.

Lemma number_get name groups n groups' : get_group_number name groups = (n, groups') -> dget name groups' = Some n.
Proof.
  unfold get_group_number. destruct (dget name groups) eqn:E; intros H; injection H as <- <-; [exact E|].
  rewrite dget_app, E. cbn. rewrite String.eqb_refl. reflexivity.
Qed.

Lemma labels_get ig cg labels arr groups arr' groups' :
  apply_labels cg ig labels arr groups = (arr', groups') ->
  (forall k n, dget k groups = Some n -> (0 <= n)%Z) ->
  length arr' = length arr /\ (forall k n, dget k groups' = Some n -> (0 <= n)%Z).
Proof.
  revert arr groups; induction labels as [|(k, v) labels IH]; intros arr groups H Hn; cbn [apply_labels] in H.
  - injection H as <- <-. auto.
  - destruct (mem k ig); [apply IH in H; auto|].
    destruct (get_group_number k groups) as (n, g) eqn:E. apply IH in H.
    + rewrite mask_set_length in H. exact H.
    + unfold get_group_number in E. destruct (dget k groups) eqn:Ek; injection E as <- <-; [exact Hn|].
      intros k0 n0. rewrite dget_app. destruct (dget k0 groups) eqn:E0; [intros X; injection X as <-; eauto|].
      cbn. destruct (String.eqb k0 k); [|discriminate]. intros X. injection X as <-. lia.
Qed.

Lemma entry_dget k d : Groups_spec.entry_of k d = dget k d.
Proof. induction d as [|[k' v] d IH]; cbn; [reflexivity|]. now rewrite IH. Qed.

Lemma in_group_dget {A} o (m : gmesh A) group name :
  (forall groups, (forall k n, dget k groups = Some n -> (0 <= n)%Z) -> exists arr groups',
    initialize_group_array o m groups (GStr group) "" = Ok (arr, groups') /\
    length arr = length (gm_cells m) /\ Forall (fun n => dget name groups' = Some n) arr) -> all_in_group o m group name.
Proof.
  intros H groups Hn. destruct (H groups) as (arr & groups' & E & L & F).
  { intros k n E. apply (Hn k n). now rewrite entry_dget. }
  exists arr, groups'. split; [exact E|]. split; [exact L|]. eapply Forall_impl; [|exact F]. intros n E'. now rewrite entry_dget.
Qed.

Lemma group_given {A} o (m : gmesh A) group :
  group <> ""%string -> tilde group = None -> all_in_group o m group group.
Proof.
  intros Hg Ht. apply in_group_dget. intros groups Hn. unfold initialize_group_array.
  set (ag0 := match gm_cg m with Some cg => _ | None => _ end).
  assert (H0 : exists arr groups0, ag0 = (arr, groups0) /\ length arr = length (gm_cells m) /\
      (forall k n, dget k groups0 = Some n -> (0 <= n)%Z)).
  { unfold ag0. destruct (gm_cg m) as [cg|]; [destruct (gm_labels m) as [labels|]|].
    - destruct (apply_labels cg (ignore_groups o) labels _ groups) as (arr, groups0) eqn:E.
      apply labels_get in E as (E1 & E2); auto. rewrite repeat_length in E1. eauto.
    - do 2 eexists. split; [reflexivity|]. rewrite repeat_length. auto.
    - do 2 eexists. split; [reflexivity|]. rewrite repeat_length. auto. }
  destruct H0 as (arr & groups0 & -> & La & Hn0).
  destruct (String.eqb_spec group "") as [|_]; [congruence|]. cbn [apply_entries selector_mask bind]. rewrite Ht.
  destruct (get_group_number group groups0) as (n, groups1) eqn:En. cbn [np_set]. rewrite repeat_length.
  replace (length (gm_cells m) =? length arr)%nat with true by (symmetry; apply Nat.eqb_eq; auto). cbn [bind].
  rewrite ones_set by auto. rewrite neg_none.
  - do 2 eexists. split; [reflexivity|]. rewrite repeat_length. split; [reflexivity|].
    apply forall_repeat. eapply number_get; eauto.
  - unfold get_group_number in En. destruct (dget group groups0) eqn:Eg; injection En as <- <-; [|lia].
    apply Hn0 in Eg. lia.
Qed.

Lemma group_default {A} o (m : gmesh A) : gm_cg m = None -> all_in_group o m "" (default_group o).
Proof.
  intros Hm. apply in_group_dget. intros groups Hn. unfold initialize_group_array. rewrite Hm. cbn [String.eqb bind].
  destruct (get_group_number (default_group o) groups) as (n, groups1) eqn:En.
  destruct (gm_cells m) as [|c cells] eqn:Ec; cbn [length repeat existsb].
  - do 2 eexists. split; [reflexivity|]. auto.
  - cbn [Z.eqb Pos.eqb orb]. do 2 eexists. split; [reflexivity|]. split; [rewrite mask_set_length; cbn; rewrite repeat_length; reflexivity|].
    pose proof (all_neg n (S (length cells))) as E. cbn [repeat] in E. rewrite E.
    apply (forall_repeat _ _ (S (length cells))). eapply number_get; eauto.
Qed.

Lemma zeros_eq l : Forall (fun x => x = 0%Z) l -> map (fun x => (x =? 0)%Z) l = repeat true (length l).
Proof. induction 1 as [|x l -> _ IH]; [reflexivity|]. cbn. f_equal. exact IH. Qed.

Lemma group_kept {A} o (m : gmesh A) zs : gm_cg m = Some zs -> Forall (fun x => x = 0%Z) zs ->
  length zs = length (gm_cells m) -> gm_labels m = Some [("default"%string, 0%Z)] ->
  mem "default" (ignore_groups o) = false -> all_in_group o m "" "default".
Proof.
  intros Hm Hz Hl Hlab Hi. apply in_group_dget. intros groups Hn. unfold initialize_group_array. rewrite Hm, Hlab. cbn [apply_labels]. rewrite Hi.
  destruct (get_group_number "default" groups) as (n, groups1) eqn:En. rewrite (zeros_eq zs Hz), Hl.
  rewrite ones_set by (rewrite repeat_length; reflexivity). cbn [String.eqb bind].
  rewrite neg_none.
  - do 2 eexists. split; [reflexivity|]. rewrite repeat_length. split; [reflexivity|]. apply forall_repeat. eapply number_get; eauto.
  - unfold get_group_number in En. destruct (dget "default" groups) eqn:Eg; injection En as <- <-; [|lia].
    apply Hn in Eg. lia.
Qed.

Lemma mask_get_forall {A} (P : A -> Prop) mask l : Forall P l -> Forall P (mask_get mask l).
Proof.
  revert l; induction mask as [|b mask IH]; intros [|x l] H; cbn; auto; inversion H; subst; try constructor.
  destruct b; [constructor|]; auto.
Qed.
Lemma mask_get_len {A B} mask (l : list A) (k : list B) : length l = length k -> length (mask_get mask l) = length (mask_get mask k).
Proof.
  revert l k; induction mask as [|b mask IH]; intros [|x l] [|y k] H; cbn in *; try lia; auto.
  destruct b; cbn; rewrite (IH l k) by lia; reflexivity.
Qed.

Lemma circle_group axis s radius arg cr res p center c plain prio group o :
  constraint_of radius arg cr -> 0 < radius -> radius <= cr < 2 * radius ->
  subdivides (mkSub res None) p -> (2 <= length p)%nat -> offset center c ->
  exists s' it1 rest, add_circle areas swap axis s radius arg res center plain prio group = (s', Ok tt) /\
    s_items s' = s_items s ++ it1 :: rest /\
    (group <> ""%string -> tilde group = None -> forall m, clipped (vi_mesh it1) m ->
       all_in_group o m (vi_group it1) group) /\
    (group = ""%string -> cr = radius -> forall m, clipped (vi_mesh it1) m ->
       all_in_group o m (vi_group it1) (default_group o)) /\
    (forall it2, In it2 rest -> forall m, clipped (vi_mesh it2) m -> all_in_group o m (vi_group it2) (default_group o)).
Proof.
  intros Hc Hr Hcr S L O.
  assert (N : forall (m m' : gmesh (list pt)), clipped m m' -> gm_cg m = None -> gm_cg m' = None).
  { intros m m' [|mask] H; [exact H|]. cbn. rewrite H. reflexivity. }
  destruct (Req_dec radius cr) as [E|E].
  - rewrite <- E in Hc. destruct (circle_one areas swap axis s radius arg res p center c plain prio group Hc Hr S L O)
      as (s2 & it & X & I & P & G & _ & _ & C & _). exists s2, it, []. split; [exact X|]. split; [exact I|]. rewrite G.
    split; [intros; apply group_given; auto|]. split; [|intros it2 []].
    intros -> _ m Hm. apply group_default. eapply N; eauto.
  - destruct (circle_two areas swap axis s radius arg cr res p center c plain prio group Hc ltac:(lra) ltac:(lra) S L O)
      as (s2 & it1 & it2 & X & I & P1 & G1 & _ & P2 & G2 & _ & _ & _ & _ & _ & C2 & _).
    exists s2, it1, [it2]. split; [exact X|]. split; [exact I|]. rewrite G1.
    split; [intros; apply group_given; auto|]. split; [intros; lra|].
    intros it [<-|[]] m Hm. rewrite G2. apply group_default. eapply N; eauto.
Qed.

Lemma circle_group_wrong : exists axis s radius o s' it1 it2,
  add_circle areas swap axis s radius None ResNone None false 0 "" = (s', Ok tt) /\
  s_items s' = s_items s ++ [it1; it2] /\ cells_of it1 <> [] /\
  default_group o <> "default"%string /\
  all_in_group o (vi_mesh it1) (vi_group it1) "default" /\
  all_in_group o (vi_mesh it2) (vi_group it2) (default_group o).
Proof.
  exists 2%nat, (mkSeeds [] []), 1, (mkOpt "matrix" []).
  destruct (circle_two areas swap 2 (mkSeeds [] []) 1 None (3 / 2 * 1) ResNone [0; 1] None (0, 0, 0) false 0%Z ""%string
     (or_intror (conj eq_refl eq_refl)) ltac:(lra) ltac:(lra) sub_none (le_n 2) off_none)
    as (s' & it1 & it2 & X & I & P1 & G1 & _ & P2 & G2 & _ & L1 & _ & C1 & Lab & C2 & _).
  exists s', it1, it2. split; [exact X|]. split; [exact I|].
  split; [intros Y; rewrite Y in L1; discriminate|]. split; [discriminate|]. rewrite G1, G2. split.
  - apply (group_kept _ _ _ C1); auto; [apply forall_repeat; reflexivity|apply repeat_length].
  - apply group_default; exact C2.
Qed.
End Circle.
