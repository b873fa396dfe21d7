From Coq Require Import Reals Lra Lia Sorted Permutation.
From Verif Require Import Prelude RealAux Perc_model Surface_model Volume_model Lines_model Lines1_proof Objects_model Cast_model Cast_spec.
Open Scope R_scope.
Local Notation norm := Objects_model.norm.

(* id_sort *)
Lemma id_insert_perm x l : Permutation (id_insert x l) (x :: l).
Proof.
  induction l as [|y l IH]; cbn; [reflexivity|]. destruct (x <=? y)%nat; [reflexivity|].
  rewrite IH. apply perm_swap.
Qed.
Lemma id_sort_perm l : Permutation (id_sort l) l.
Proof. induction l as [|x l IH]; cbn; [reflexivity|]. rewrite id_insert_perm. now constructor. Qed.
Lemma id_insert_sorted x l : StronglySorted le l -> StronglySorted le (id_insert x l).
Proof.
  induction l as [|y l IH]; cbn; intros H; [repeat constructor|].
  destruct (Nat.leb_spec x y) as [Hx|Hx].
  - constructor; [exact H|]. inversion H; subst. constructor; [exact Hx|]. eapply Forall_impl; [|eassumption]. cbn; intros; lia.
  - inversion H as [|? ? H1 H2]; subst. constructor; [auto|].
    rewrite Forall_forall in *. intros z Hz. apply (Permutation_in _ (id_insert_perm x l)) in Hz. destruct Hz as [<-|Hz]; [lia|auto].
Qed.
Lemma id_sort_sorted l : StronglySorted le (id_sort l).
Proof. induction l as [|x l IH]; cbn; [constructor|]. now apply id_insert_sorted. Qed.
Lemma id_sort_in l x : In x (id_sort l) <-> In x l.
Proof. split; apply Permutation_in; [|symmetry]; apply id_sort_perm. Qed.

Lemma mapM_pair {A B} (f : A -> res B) l out : mapM (fun i => let! x := f i in Ok (i, x)) l = Ok out ->
  map fst out = l /\ forall i x, In (i, x) out -> f i = Ok x.
Proof.
  intros H%mapM_Ok. induction H as [|i y l out Hy H IH]; [split; [reflexivity|intros ? ? []]|].
  destruct (f i) as [x|] eqn:E; [|discriminate]. cbn in Hy. injection Hy as <-. destruct IH as [IH1 IH2]. split.
  - cbn. congruence.
  - intros j z [[= <- <-]|Hj]; [exact E|auto].
Qed.
Lemma at_res_ok {A} (l : list A) i x : at_res l i = Ok x <-> nth_error l i = Some x.
Proof. unfold at_res. destruct (nth_error l i); split; congruence. Qed.

(* vectors *)
Lemma norm_sub_pos a b : a <> b -> 0 < norm (sub3 a b).
Proof.
  destruct a as [[x y] z], b as [[x' y'] z']. intros H. unfold Objects_model.norm, dot, sub3. apply sqrt_lt_R0.
  assert (Q : forall u u', 0 <= (u - u') * (u - u')) by (intros u u'; exact (Rle_0_sqr (u - u'))).
  assert (N : forall u u', u <> u' -> 0 < (u - u') * (u - u')) by (intros u u' N; apply (Rsqr_pos_lt (u - u')); lra).
  pose proof (Q x x'). pose proof (Q y y'). pose proof (Q z z').
  destruct (Req_dec x x') as [->|Nx]; [|pose proof (N _ _ Nx); lra]. destruct (Req_dec y y') as [->|Ny]; [|pose proof (N _ _ Ny); lra].
  destruct (Req_dec z z') as [->|Nz]; [congruence|pose proof (N _ _ Nz); lra].
Qed.

Lemma ray_point a b t : a <> b -> on_ray a b (add3 a (scale t (direction a b))).
Proof.
  intros H. pose proof (norm_sub_pos a b H) as L. unfold direction. set (l := norm (sub3 a b)) in *. clearbody l.
  exists (- t * / l). destruct a as [[x y] z], b as [[x' y'] z']. unfold add3, scale, sub3, vline.
  repeat match goal with |- (_, _) = (_, _) => apply f_equal2 end; ring.
Qed.

Lemma dot_dir n a b : dot n (direction a b) = dot n (sub3 a b) * / norm (sub3 a b).
Proof.
  unfold direction. destruct n as [[x y] z], (sub3 a b) as [[u v] w]. unfold dot, scale. ring.
Qed.
Lemma dot_comm p q : dot p q = dot q p.
Proof. destruct p as [[? ?] ?], q as [[? ?] ?]. unfold dot. ring. Qed.

Lemma norm_sq p : norm p * norm p = dot p p.
Proof. unfold Objects_model.norm. apply sqrt_sqrt. destruct p as [[x y] z]. unfold dot. nra. Qed.

Lemma cauchy p q : dot p q * dot p q <= dot p p * dot q q.
Proof.
  destruct p as [[x y] z], q as [[u v] w]. unfold dot.
  pose proof (Rle_0_sqr (x * v - y * u)). pose proof (Rle_0_sqr (x * w - z * u)). pose proof (Rle_0_sqr (y * w - z * v)).
  unfold Rsqr in *. lra.
Qed.

Lemma unit_cos n a b : a <> b -> dot n n = 1 -> 0 <= Rabs (dot n (direction a b)) <= 1.
Proof.
  intros H Hn. split; [apply Rabs_pos|]. pose proof (norm_sub_pos a b H) as L.
  assert (Hd : dot (direction a b) (direction a b) = 1).
  { rewrite dot_dir, dot_comm, dot_dir, <- norm_sq. field. lra. }
  pose proof (cauchy n (direction a b)) as C. rewrite Hn, Hd in C.
  apply Rabs_le. nra.
Qed.


Lemma acos_bounds x : 0 <= x <= 1 -> 0 <= acos x <= PI / 2.
Proof.
  intros H. pose proof (acos_bound x) as B. split; [lra|].
  destruct (Rle_lt_dec (acos x) (PI / 2)) as [|C]; [assumption|].
  assert (cos (acos x) < 0). { apply cos_lt_0; [lra|]. pose proof PI_RGT_0. lra. }
  rewrite cos_acos in H0; lra.
Qed.

Lemma angle_spec m a b f : a <> b -> dot (snd f) (snd f) = 1 ->
  angle_ok m (direction a b) f = true <-> faces_ray m a b f.
Proof.
  intros H Hn. pose proof (norm_sub_pos a b H) as L. pose proof (unit_cos _ _ _ H Hn) as U. pose proof PI_RGT_0 as Pp.
  assert (E : Rabs (dot (snd f) (sub3 a b)) = Rabs (dot (snd f) (direction a b)) * norm (sub3 a b)).
  { rewrite dot_dir, Rabs_mult, (Rabs_right (/ _)) by (left; apply Rinv_0_lt_compat; lra). field. lra. }
  unfold angle_ok, faces_ray. change vinner with dot. change vminus with sub3. destruct (Rltb_spec (180 / PI * acos (Rabs (dot (snd f) (direction a b)))) m) as [Hm|Hm].
  - split; [intros _|reflexivity]. exists (acos (Rabs (dot (snd f) (direction a b)))).
    split; [now apply acos_bounds|]. split.
    + apply Rmult_lt_compat_r with (r := PI) in Hm; [|lra]. revert Hm.
      replace (180 / PI * acos (Rabs (dot (snd f) (direction a b))) * PI) with (acos (Rabs (dot (snd f) (direction a b))) * 180) by (field; lra). auto.
    + rewrite cos_acos by lra. rewrite E. reflexivity.
  - split; [discriminate|]. intros (th & Ht & Hl & Hc). exfalso. apply Hm.
    change (sqrt (dot (sub3 a b) (sub3 a b))) with (norm (sub3 a b)) in Hc.
    assert (Ec : Rabs (dot (snd f) (direction a b)) = cos th).
    { rewrite E in Hc. apply Rmult_eq_reg_r in Hc; [exact Hc|lra]. }
    rewrite Ec, acos_cos by lra. apply Rmult_lt_reg_r with PI; [lra|].
    replace (180 / PI * th * PI) with (th * 180) by (field; lra). exact Hl.
Qed.

Lemma angle_right m d f : m <= 90 -> angle_ok m d f = true -> dot d (snd f) <> 0.
Proof.
  intros Hm H Hd. unfold angle_ok in H. rewrite dot_comm, Hd, Rabs_R0, acos_0 in H.
  destruct (Rltb_spec (180 / PI * (PI / 2)) m) as [Hl|]; [|discriminate]. pose proof PI_RGT_0.
  replace (180 / PI * (PI / 2)) with 90 in Hl by (field; lra). lra.
Qed.

Section rays.
Context {A : Type}.
Variables (poly : bool) (s : surface) (orig : list A) (find : pt -> pt -> list nat) (own : nat -> A).

Lemma cast_inv a b tol ma r : ray_cast poly s orig find own a b tol ma = Ok r ->
  exists kept, 
    (if negb (length (su_faces s) =? 0)%nat then
       exists fs, map fst fs = id_sort (find a b) /\ (forall i f, In (i, f) fs -> nth_error (su_faces s) i = Some f) /\
         kept = map (fun jf => (fst jf, on_face a (direction a b) (snd jf)))
                  (filter (fun jf => angle_ok (limit_of tol ma) (direction a b) (snd jf)) fs)
     else
       exists es, map fst es = id_sort (find a b) /\ (forall i e, In (i, e) es -> nth_error (su_lines s) i = Some e) /\
         kept = map (fun je => (fst je, on_line a (direction a b) (snd je))) es) /\
    match r with
    | None => kept = []
    | Some rows => kept <> [] /\ map fst rows = kept /\
        forall i x w, In (i, x, w) rows -> if poly then w = own i else nth_error orig i = Some w
    end.
Proof.
  unfold ray_cast. destruct (_ && _ && _)%bool; [discriminate|].
  set (d := direction a b). fold (limit_of tol ma).
  destruct (Nat.eqb_spec (length (id_sort (find a b))) 0) as [E0|E0].
  - intros [= <-]. destruct (id_sort (find a b)) eqn:E; [|discriminate].
    exists []. split; [|reflexivity]. destruct (negb _); exists []; repeat split; intros ? ? [].
  - intros H.
    assert (K : exists kept, (if negb (length (su_faces s) =? 0)%nat then
      let! fs := mapM (fun i => let! f := at_res (su_faces s) i in Ok (i, f)) (id_sort (find a b)) in
      Ok (map (fun jf => (fst jf, on_face a d (snd jf))) (filter (fun jf => angle_ok (limit_of tol ma) d (snd jf)) fs))
    else
      let! es := mapM (fun i => let! e := at_res (su_lines s) i in Ok (i, e)) (id_sort (find a b)) in
      Ok (map (fun je => (fst je, on_line a d (snd je))) es)) = Ok kept).
    { destruct (if negb _ then _ else _) as [kept|] eqn:E; [eauto|discriminate]. }
    destruct K as (kept & K). rewrite K in H. cbn [bind] in H. exists kept. split.
    + clear H. destruct (negb (length (su_faces s) =? 0)%nat).
      * destruct (mapM _ _) as [fs|] eqn:E; [|discriminate]. cbn in K. injection K as <-.
        apply mapM_pair in E as [E1 E2]. exists fs. split; [exact E1|]. split; [|reflexivity].
        intros i f Hi. apply at_res_ok. auto.
      * destruct (mapM _ _) as [fs|] eqn:E; [|discriminate]. cbn in K. injection K as <-.
        apply mapM_pair in E as [E1 E2]. exists fs. split; [exact E1|]. split; [|reflexivity].
        intros i f Hi. apply at_res_ok. auto.
    + destruct (Nat.eqb_spec (length kept) 0) as [L0|L0].
      * injection H as <-. destruct kept; [reflexivity|discriminate].
      * destruct (mapM _ kept) as [rows|] eqn:E; [|discriminate]. cbn in H. injection H as <-.
        split; [intros ->; now apply L0|]. apply mapM_Ok in E. clear K L0. induction E as [|[i x] y kept rows Hy E IH].
        -- split; [reflexivity|intros ? ? ? []].
        -- destruct IH as [IH1 IH2]. cbn [fst snd] in Hy. destruct poly.
           ++ cbn in Hy. injection Hy as <-. split; [cbn; congruence|]. intros j z w [[= <- <- <-]|Hj]; [reflexivity|eauto].
           ++ destruct (at_res orig i) as [w0|] eqn:Ew; [|discriminate]. cbn in Hy. injection Hy as <-.
              split; [cbn; congruence|]. intros j z w [[= <- <- <-]|Hj]; [now apply at_res_ok|eauto].
Qed.

Lemma in_ids_sorted {X Y} (l : list (nat * X)) (g : X -> Y) p :
  StronglySorted le (map fst l) -> StronglySorted le (map fst (map (fun jf => (fst jf, g (snd jf))) (filter p l))).
Proof.
  rewrite map_map. cbn [fst]. induction l as [|[i x] l IH]; cbn; intros H; [constructor|]. inversion H as [|? ? H1 H2]; subst.
  destruct (p (i, x)); cbn; [|auto]. constructor; [auto|]. rewrite Forall_forall in *. intros z Hz.
  apply in_map_iff in Hz as (w & <- & Hw). apply filter_In in Hw as [Hw _]. apply H2. now apply in_map.
Qed.

(* C117 *)
Lemma rays_on_faces a b tol ma rows :
  ray_cast poly s orig find own a b tol ma = Ok (Some rows) -> su_faces s <> [] -> a <> b -> limit_of tol ma <= 90 ->
  forall i ox w, In (i, ox, w) rows -> exists f x, nth_error (su_faces s) i = Some f /\ ox = Some x /\
    on_ray a b x /\ on_plane f x /\ forall y, on_ray a b y -> on_plane f y -> y = x.
Proof.
  intros H Hf Hab Hl i ox w Hi. apply cast_inv in H as (kept & Hk & _ & Hr & _).
  assert (E : negb (length (su_faces s) =? 0)%nat = true) by (destruct (su_faces s); [congruence|reflexivity]).
  rewrite E in Hk. destruct Hk as (fs & Hfs & Hat & ->).
  apply (in_map fst) in Hi. rewrite Hr in Hi. cbn [fst] in Hi. apply in_map_iff in Hi as ((j & f) & [= -> <-] & Hi).
  apply filter_In in Hi as [Hi Ha]. cbn [snd] in *. pose proof (angle_right _ _ _ Hl Ha) as Hd.
  pose proof (norm_sub_pos a b Hab) as L.
  exists f. unfold on_face, divide. destruct (Req_EM_T _ 0) as [Z|_]; [contradiction|].
  set (t := _ / _). exists (add3 a (scale t (direction a b))).
  split; [auto|]. split; [reflexivity|]. split; [now apply ray_point|].
  assert (P : on_plane f (add3 a (scale t (direction a b)))).
  { unfold on_plane. change vinner with dot. change vminus with sub3. transitivity (t * dot (direction a b) (snd f) - dot (sub3 (fst f) a) (snd f)).
    - destruct f as [[[cx cy] cz] [[nx ny] nz]], a as [[ax ay] az], (direction _ b) as [[dx dy] dz]. unfold dot, sub3, add3, scale. cbn [fst snd]. ring.
    - unfold t. field. exact Hd. }
  split; [exact P|]. intros y (u & ->) Hy. destruct (ray_point a b t Hab) as (u' & Eu). rewrite Eu in P |- *.
  assert (Hn : dot (sub3 a b) (snd f) <> 0).
  { intros Z. apply Hd. rewrite dot_comm, dot_dir, dot_comm, Z. ring. }
  assert (Euu : (u - u') * dot (sub3 a b) (snd f) = 0).
  { transitivity (dot (sub3 (lerp u' a b) (fst f)) (snd f) - dot (sub3 (lerp u a b) (fst f)) (snd f)).
    - destruct f as [[[cx cy] cz] [[nx ny] nz]], a as [[ax ay] az], b as [[bx by_] bz]. unfold dot, sub3, lerp, lerp1. cbn [fst snd]. ring.
    - unfold on_plane in *. change vinner with dot in *. change vminus with sub3 in *. change vline with lerp in *. rewrite P, Hy. ring. }
  apply Rmult_integral in Euu as [Euu|Euu]; [|contradiction]. replace u with u' by lra. reflexivity.
Qed.

(* C118 *)
Lemma rays_selected a b tol ma r :
  ray_cast poly s orig find own a b tol ma = Ok r -> su_faces s <> [] -> a <> b ->
  (forall f, In f (su_faces s) -> dot (snd f) (snd f) = 1) ->
  (forall i f, nth_error (su_faces s) i = Some f ->
     (exists rows x w, r = Some rows /\ In (i, x, w) rows) <-> In i (find a b) /\ faces_ray (limit_of tol ma) a b f) /\
  (forall rows, r = Some rows -> rows <> [] /\ StronglySorted le (map (fun row => fst (fst row)) rows) /\
     forall i x w, In (i, x, w) rows -> if poly then w = own i else nth_error orig i = Some w).
Proof.
  intros H Hf Hab Hu. apply cast_inv in H as (kept & Hk & Hr).
  assert (E : negb (length (su_faces s) =? 0)%nat = true) by (destruct (su_faces s); [congruence|reflexivity]).
  rewrite E in Hk. destruct Hk as (fs & Hfs & Hat & ->).
  split.
  - intros i f Hi. split.
    + intros (rows & x & w & -> & Hin). destruct Hr as (_ & Hr & _). apply (in_map fst) in Hin. rewrite Hr in Hin. cbn [fst] in Hin.
      apply in_map_iff in Hin as ((j & g) & [= -> <-] & Hin). apply filter_In in Hin as [Hin Ha]. cbn [snd] in Ha.
      pose proof (Hat _ _ Hin) as Hg. rewrite Hi in Hg. injection Hg as <-. split.
      * rewrite <- id_sort_in, <- Hfs. now apply (in_map fst) in Hin.
      * apply angle_spec; auto. apply Hu. now apply nth_error_In in Hi.
    + intros [Hin Ha]. rewrite <- id_sort_in, <- Hfs in Hin. apply in_map_iff in Hin as ((j & g) & [= ->] & Hin).
      pose proof (Hat _ _ Hin) as Hg. rewrite Hi in Hg. injection Hg as <-.
      assert (Hk : In (i, on_face a (direction a b) f) (map (fun jf => (fst jf, on_face a (direction a b) (snd jf)))
        (filter (fun jf => angle_ok (limit_of tol ma) (direction a b) (snd jf)) fs))).
      { apply in_map_iff. exists (i, f). split; [reflexivity|]. apply filter_In. split; [exact Hin|]. cbn [snd].
        apply angle_spec; auto. apply Hu. now apply nth_error_In in Hi. }
      destruct r as [rows|].
      * destruct Hr as (_ & Hr & _). rewrite <- Hr in Hk. apply in_map_iff in Hk as (((k & x) & w) & [= -> ->] & Hk). eauto 6.
      * rewrite Hr in Hk. destruct Hk.
  - intros rows ->. destruct Hr as (Hn & Hr & Hw). split; [intros ->; cbn in Hr; congruence|]. split; [|exact Hw].
    rewrite <- (map_map fst fst), Hr. apply in_ids_sorted. rewrite Hfs. apply id_sort_sorted.
Qed.

(* lines *)
Lemma cross_identity v d w : let c := cross v d in
  scale (dot c c) w = add3 (scale (dot w c) c) (add3 (scale (dot (cross w d) c) v) (scale (dot (cross v w) c) d)).
Proof.
  destruct v as [[a b] c], d as [[x y] z], w as [[p q] r]. unfold cross, dot, scale, add3.
  repeat match goal with |- (_, _) = (_, _) => apply f_equal2 end; ring.
Qed.

Lemma cross_zero_norm c : norm c * norm c = 0 -> c = (0, 0, 0).
Proof.
  rewrite norm_sq. destruct c as [[x y] z]. unfold dot. intros H.
  assert (x = 0) by nra. assert (y = 0) by nra. assert (z = 0) by nra. congruence.
Qed.

Lemma rays_on_lines a b tol ma rows :
  ray_cast poly s orig find own a b tol ma = Ok (Some rows) -> su_faces s = [] -> a <> b ->
  forall i ox w, In (i, ox, w) rows -> exists p q, nth_error (su_lines s) i = Some (p, q) /\
    (cross (sub3 q p) (sub3 b a) <> (0, 0, 0) -> exists x, ox = Some x /\ on_ray p q x /\
       (dot (sub3 p a) (cross (sub3 q p) (sub3 b a)) = 0 -> on_ray a b x)) /\
    (cross (sub3 q p) (sub3 b a) = (0, 0, 0) -> ox = None).
Proof.
  intros H Hf Hab i ox w Hi. apply cast_inv in H as (kept & Hk & _ & Hr & _).
  rewrite Hf in Hk. cbn [length Nat.eqb negb] in Hk. destruct Hk as (es & Hes & Hat & ->).
  apply (in_map fst) in Hi. rewrite Hr in Hi. cbn [fst] in Hi. apply in_map_iff in Hi as ((j & (p & q)) & [= -> <-] & Hi).
  cbn [snd]. exists p, q. split; [auto|]. pose proof (norm_sub_pos a b Hab) as L.
  set (lab := norm (sub3 a b)) in *.
  assert (C : forall k, cross (scale k (sub3 q p)) (direction a b) = scale (- k * / lab) (cross (sub3 q p) (sub3 b a))).
  { intros k. unfold direction. fold lab. clearbody lab. destruct p as [[? ?] ?], q as [[? ?] ?], a as [[? ?] ?], b as [[? ?] ?].
    unfold cross, scale, sub3. repeat match goal with |- (_, _) = (_, _) => apply f_equal2 end; ring. }
  unfold on_line. split.
  - intros Hc. assert (Hpq : p <> q).
    { intros ->. apply Hc. destruct q as [[? ?] ?], (sub3 b a) as [[? ?] ?]. unfold cross, sub3. repeat apply f_equal2; ring. }
    assert (Lv : 0 < norm (sub3 q p)) by (apply norm_sub_pos; congruence).
    destruct (Req_EM_T _ 0) as [Z|_]; [lra|]. set (k := / norm (sub3 q p)). set (v := scale k (sub3 q p)). set (c := cross v (direction a b)).
    assert (Hk : k <> 0) by (unfold k; apply Rinv_neq_0_compat; lra).
    assert (Hcc : norm c * norm c <> 0).
    { intros Z. apply cross_zero_norm in Z. unfold c, v in Z. rewrite C in Z. apply Hc.
      destruct (cross (sub3 q p) (sub3 b a)) as [[x y] z]. unfold scale in Z. injection Z as Z1 Z2 Z3.
      assert (Hm : - k * / lab <> 0) by (apply Rmult_integral_contrapositive; split; [lra|apply Rinv_neq_0_compat; lra]).
      repeat apply f_equal2; eapply Rmult_eq_reg_l; try exact Hm; lra. }
    unfold divide. destruct (Req_EM_T _ 0) as [Z|_]; [contradiction|].
    set (t := _ / _). eexists. split; [reflexivity|]. split.
    + exists (- t * k). unfold v. destruct p as [[? ?] ?], q as [[? ?] ?]. unfold sub3, scale, vline.
      repeat match goal with |- (_, _) = (_, _) => apply f_equal2 end; ring.
    + intros Hco.
      assert (Hw : dot (sub3 p a) c = 0).
      { unfold c, v. rewrite C. destruct (sub3 p a) as [[w1 w2] w3], (cross (sub3 q p) (sub3 b a)) as [[c1 c2] c3]. unfold dot, scale in *.
        transitivity (- k * / lab * (w1 * c1 + w2 * c2 + w3 * c3)); [ring|]. rewrite Hco. ring. }
      pose proof (cross_identity v (direction a b) (sub3 p a)) as I. cbn zeta in I. fold c in I. rewrite Hw in I.
      rewrite norm_sq in Hcc. set (cc := dot c c) in *.
      assert (T : t = dot (cross (sub3 p a) (direction a b)) c / cc) by (unfold t; rewrite norm_sq; reflexivity).
      set (be := dot (cross v (sub3 p a)) c / cc).
      assert (X : sub3 p (scale t v) = add3 a (scale be (direction a b))).
      { unfold be. rewrite T. clear T. clearbody t. set (n1 := dot (cross (sub3 p a) (direction a b)) c) in *. set (n2 := dot (cross v (sub3 p a)) c) in *.
        clearbody n1 n2 cc. clear Hw C Hk Lv Hpq Hc Hco be. clearbody c. clearbody v.
        destruct c as [[c1 c2] c3], p as [[px_ py] pz], a as [[ax ay] az], v as [[vx vy] vz], (direction _ b) as [[dx dy] dz].
        unfold sub3, scale, add3 in *. injection I as I1 I2 I3.
        repeat match goal with |- (_, _) = (_, _) => apply f_equal2 end; apply Rmult_eq_reg_l with cc; auto; field_simplify; auto; lra. }
      rewrite X. now apply ray_point.
  - intros Hc. destruct (Req_EM_T _ 0) as [_|Z]; [reflexivity|]. rewrite C, Hc. unfold divide.
    destruct (Req_EM_T _ 0) as [_|Z']; [reflexivity|]. exfalso. apply Z'. rewrite norm_sq. unfold dot, scale. ring.
Qed.
End rays.
