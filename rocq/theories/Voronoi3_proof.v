(* Tessellation of a Voronoi mesh. *)
From Coq Require Import Reals Permutation Sorted Lra.
From Verif Require Import Prelude Groups_model Groups_spec Surface_model.
From Verif Require Import Lines_spec Lines_model Lines1_proof Topo2_proof Polygon2_proof.
From Verif Require Import Voronoi_model Voronoi_spec.
Open Scope nat_scope.

(* ---- far points ---- *)
Lemma far_point_ray c r a b v : a <> b -> ray_end c r a b v (far_point c r a b v).
Proof.
  destruct a as [ax ay], b as [bx by_], c as [cx cy], v as [vx vy]. intros Hab.
  unfold ray_end, far_point, dot, minus, middle, cross, dist2. cbn [fst snd].
  set (tx := (bx - ax)%R). set (ty := (by_ - ay)%R).
  assert (Hp : (0 < tx * tx + ty * ty)%R).
  { assert (H1 := Rle_0_sqr tx). assert (H2 := Rle_0_sqr ty). unfold Rsqr in *.
    destruct (Rlt_dec 0 (tx * tx + ty * ty)); [assumption|]. exfalso. apply Hab.
    assert (tx * tx = 0)%R by lra. assert (ty * ty = 0)%R by lra.
    assert (tx = 0)%R by (destruct (Rmult_integral _ _ H); auto).
    assert (ty = 0)%R by (destruct (Rmult_integral _ _ H0); auto).
    unfold tx, ty in *. f_equal; lra. }
  set (l := sqrt (tx * tx + ty * ty)).
  assert (Hl : (0 < l)%R) by (apply sqrt_lt_R0; exact Hp).
  assert (Hll : (l * l = tx * tx + ty * ty)%R) by (apply sqrt_sqrt; lra).
  set (mx := ((ax + bx) / 2)%R). set (my := ((ay + by_) / 2)%R).
  set (nx := (- (ty / l))%R). set (ny := (tx / l)%R).
  assert (Hn : (nx * nx + ny * ny = 1)%R).
  { unfold nx, ny. replace (- (ty / l) * - (ty / l) + tx / l * (tx / l))%R with ((tx * tx + ty * ty) / (l * l))%R by (field; lra).
    rewrite Hll. field. lra. }
  assert (Ho : (nx * tx + ny * ty = 0)%R) by (unfold nx, ny; field; lra).
  set (e := ((mx - cx) * nx + (my - cy) * ny)%R).
  set (s := rsign e).
  assert (Hs : (s * s <= 1 /\ 0 <= s * e /\ (e <> 0 -> s * s = 1))%R).
  { unfold s, rsign. destruct (Rlt_dec e 0); [repeat split; lra|]. destruct (Rlt_dec 0 e); repeat split; lra. }
  destruct Hs as (Hs1 & Hs2 & Hs3).
  assert (Hd : forall k : R, (k * k * (nx * nx + ny * ny) = k * k)%R) by (intros; rewrite Hn; ring).
  assert (Hrr : (0 <= r * r)%R) by apply Rle_0_sqr.
  repeat split.
  - replace ((vx + s * nx * r - vx) * tx + (vy + s * ny * r - vy) * ty)%R with (s * r * (nx * tx + ny * ty))%R by ring.
    rewrite Ho. ring.
  - replace (r * ((vx + s * nx * r - vx) * (mx - cx) + (vy + s * ny * r - vy) * (my - cy)))%R with ((r * r) * (s * e))%R by (unfold e; ring).
    apply Rmult_le_pos; assumption.
  - replace ((vx + s * nx * r - vx) * (vx + s * nx * r - vx) + (vy + s * ny * r - vy) * (vy + s * ny * r - vy))%R
      with ((s * s) * (r * r) * (nx * nx + ny * ny))%R by ring. rewrite Hn.
    rewrite Rmult_1_r. rewrite <- (Rmult_1_l (r * r)) at 2. apply Rmult_le_compat_r; assumption.
  - intros Hc. assert (He : e <> 0%R).
    { intros E. apply Hc. assert (e * l = 0)%R by (rewrite E; ring). unfold e, nx, ny in H.
      replace (((mx - cx) * - (ty / l) + (my - cy) * (tx / l)) * l)%R with (- ((mx - cx) * ty - (my - cy) * tx))%R in H by (field; lra).
      lra. }
    replace ((vx + s * nx * r - vx) * (vx + s * nx * r - vx) + (vy + s * ny * r - vy) * (vy + s * ny * r - vy))%R
      with ((s * s) * (r * r) * (nx * nx + ny * ny))%R by ring. rewrite Hn, (Hs3 He). ring.
  - intros Hv.
    assert (X : (s * r * (nx * tx + ny * ty) = 0)%R) by (rewrite Ho; ring).
    assert (Y : ((vx - ax) * (vx - ax) + (vy - ay) * (vy - ay) - ((vx - bx) * (vx - bx) + (vy - by_) * (vy - by_)) = 0)%R) by lra.
    assert (Z : ((vx + s * nx * r - ax) * (vx + s * nx * r - ax) + (vy + s * ny * r - ay) * (vy + s * ny * r - ay) -
                 ((vx + s * nx * r - bx) * (vx + s * nx * r - bx) + (vy + s * ny * r - by_) * (vy + s * ny * r - by_)) =
                 ((vx - ax) * (vx - ax) + (vy - ay) * (vy - ay) - ((vx - bx) * (vx - bx) + (vy - by_) * (vy - by_))) +
                 2 * (s * r * (nx * tx + ny * ty)))%R) by (unfold tx, ty; ring).
    rewrite X, Y in Z. lra.
Qed.

Lemma mean2_barycenter l : l <> [] -> barycenter l (mean2 l).
Proof.
  intros H. unfold barycenter, mean2. cbn [fst snd].
  assert (N : INR (length l) <> 0%R). { apply not_0_INR. destruct l; [congruence|discriminate]. }
  assert (X : forall f : R * R -> R, fold_right (fun q acc => (f q + acc)%R) 0%R l = fold_right Rplus 0%R (map f l)).
  { intros f. clear. induction l; cbn; congruence. }
  rewrite <- (X fst), <- (X snd). split; field; exact N.
Qed.

Lemma sum_perm l m : Permutation l m -> fold_right Rplus 0%R l = fold_right Rplus 0%R m.
Proof. induction 1; cbn; try lra. Qed.

Lemma barycenter_perm l m c : Permutation l m -> barycenter l c -> barycenter m c.
Proof.
  intros P [H1 H2]. unfold barycenter. rewrite <- (Permutation_length P).
  rewrite <- (sum_perm _ _ (Permutation_map fst P)), <- (sum_perm _ _ (Permutation_map snd P)). auto.
Qed.

(* ---- ridges ---- *)
Definition ropen (x : nat * Z * Z) : list (nat * Z) :=
  let '(p2, v1, v2) := x in
  (if v1 =? -1 then [(p2, v2)] else if v2 =? -1 then [(p2, v1)] else [])%Z.

Lemma open_ridges_eq rp rv p : Forall (fun '(p1, p2) => p1 <> p2) rp ->
  concat (map (fun x => match open_ridge p x with Some y => [y] | None => [] end) (combine rp rv)) =
  concat (map ropen (ridges_of rp rv p)).
Proof.
  unfold ridges_of. revert rv. induction rp as [|[p1 p2] rp IH]; intros [|[v1 v2] rv] H; try reflexivity.
  inversion H as [|? ? Hn H']; subst. cbn [combine map concat map2]. rewrite map_app, concat_app, (IH rv H'). f_equal.
  rewrite map_app, concat_app. unfold open_ridge.
  destruct (Nat.eqb_spec p1 p) as [->|N1].
  - destruct (Nat.eqb_spec p2 p) as [->|N2]; [congruence|]. cbn [map concat app ropen]. rewrite !app_nil_r.
    destruct (v1 =? -1)%Z; [reflexivity|]. now destruct (v2 =? -1)%Z.
  - destruct (Nat.eqb_spec p2 p) as [->|N2]; cbn [map concat app ropen]; rewrite ?app_nil_r; [|reflexivity].
    destruct (v1 =? -1)%Z; [reflexivity|]. now destruct (v2 =? -1)%Z.
Qed.

Lemma ridges_of_In rp rv p x : In x (ridges_of rp rv p) -> exists p' v1 v2, x = (p', v1, v2) /\
  In (v1, v2) rv /\ (In (p, p') rp \/ In (p', p) rp).
Proof.
  unfold ridges_of. revert rv. induction rp as [|[p1 p2] rp IH]; intros [|[v1 v2] rv] H; try easy.
  cbn [map2 concat] in H. apply in_app_or in H as [H|H].
  - apply in_app_or in H as [H|H].
    + destruct (Nat.eqb_spec p1 p) as [->|]; [|easy]. destruct H as [<-|[]].
      exists p2, v1, v2. repeat split; [now left|]. left. now left.
    + destruct (Nat.eqb_spec p2 p) as [->|]; [|easy]. destruct H as [<-|[]].
      exists p1, v1, v2. repeat split; [now left|]. right. now left.
  - destruct (IH rv H) as (p' & w1 & w2 & -> & H1 & H2). exists p', w1, w2. repeat split; [now right|].
    destruct H2; [left|right]; now right.
Qed.

Section Tess.
Variable d : diagram.
Hypothesis PD : proper_diagram d.

Lemma py_at_ok {A} (l : list A) z : (0 <= z < Z.of_nat (length l))%Z ->
  exists x, py_at l z = Ok x /\ nth_error l (Z.to_nat z) = Some x.
Proof.
  intros H. unfold py_at. destruct (Z.ltb_spec z 0); [lia|]. destruct (Z.ltb_spec z 0); [lia|].
  unfold at_res. destruct (nth_error l (Z.to_nat z)) as [x|] eqn:E; [eauto|]. apply nth_error_None in E. lia.
Qed.

Lemma py_at_inv {A} (l : list A) z x : (0 <= z)%Z -> py_at l z = Ok x -> nth_error l (Z.to_nat z) = Some x.
Proof.
  intros H. unfold py_at. destruct (Z.ltb_spec z 0); [lia|]. destruct (Z.ltb_spec z 0); [lia|].
  unfold at_res. destruct (nth_error l (Z.to_nat z)) as [y|]; [|discriminate]. now intros ->%Ok_inj.
Qed.

(* a ridge of p in the sense of ridges_of *)
Definition fine_ridge (p1 : nat) (x : nat * Z * Z) : Prop :=
  let '(p2, v1, v2) := x in
  (exists a b, nth_error (d_points d) p1 = Some a /\ nth_error (d_points d) p2 = Some b /\ a <> b) /\
  (vertex_ok d v1 \/ v1 = -1)%Z /\ (vertex_ok d v2 \/ v2 = -1)%Z /\ ~ (v1 = -1 /\ v2 = -1)%Z.

Lemma ridges_fine p : Forall (fine_ridge p) (ridges_of (d_ridge_points d) (d_ridge_vertices d) p).
Proof.
  apply Forall_forall. intros x Hx. destruct (ridges_of_In _ _ _ _ Hx) as (p' & v1 & v2 & -> & Hv & Hp).
  destruct PD as (_ & _ & H1 & H2 & _ & _). rewrite Forall_forall in H1, H2.
  assert (Q := H2 _ Hv). cbn in Q. cbn. split; [|exact Q].
  assert (W : p < length (d_points d) /\ p' < length (d_points d) /\ nth_error (d_points d) p <> nth_error (d_points d) p').
  { destruct Hp as [Hp|Hp]; assert (R := H1 _ Hp); cbn in R; destruct R as (R1 & R2 & _ & R3); repeat split; auto. }
  destruct W as (W1 & W2 & W3).
  destruct (nth_error (d_points d) p) as [a|] eqn:Ea; [|apply nth_error_None in Ea; lia].
  destruct (nth_error (d_points d) p') as [b|] eqn:Eb; [|apply nth_error_None in Eb; lia].
  exists a, b. repeat split; congruence.
Qed.

Definition closing (c : pt2) (radius : R) (p1 : nat) (verts : list pt2) (x : nat * Z) (id : Z) : Prop :=
  exists a b v w, nth_error (d_points d) p1 = Some a /\ nth_error (d_points d) (fst x) = Some b /\
    nth_error (d_vertices d) (Z.to_nat (snd x)) = Some v /\
    (Z.of_nat (length (d_vertices d)) <= id)%Z /\
    nth_error verts (Z.to_nat id) = Some w /\ ray_end c radius a b v w.

Lemma closing_more c radius p1 verts ext x id : closing c radius p1 verts x id -> closing c radius p1 (verts ++ ext) x id.
Proof.
  intros (a & b & v & w & H1 & H2 & H3 & H4 & H5 & H6). exists a, b, v, w. repeat split; auto; try apply H6.
  rewrite nth_error_app1; [exact H5|]. apply nth_error_Some. congruence.
Qed.

Lemma far_loop_spec c radius p1 ridge : Forall (fine_ridge p1) ridge -> forall region verts,
  length (d_vertices d) <= length verts ->
  exists news ext, far_loop d c radius p1 ridge region verts = Ok (region ++ news, verts ++ ext) /\
    Forall (fun id => 0 <= id < Z.of_nat (length (verts ++ ext)))%Z news /\
    Forall2 (closing c radius p1 (verts ++ ext)) (concat (map ropen ridge)) news.
Proof.
  induction 1 as [|[[p2 v1] v2] ridge Hx _ IH]; intros region verts Hlen.
  - exists [], []. cbn. rewrite !app_nil_r. repeat split; constructor.
  - cbn [far_loop map concat]. destruct Hx as ((a & b & Ha & Hb & Hab) & Hv1 & Hv2 & Hn).
    assert (C : (v1 = -1 /\ vertex_ok d v2 \/ v2 = -1 /\ vertex_ok d v1 \/ vertex_ok d v1 /\ vertex_ok d v2)%Z).
    { destruct Hv1 as [Hv1| ->], Hv2 as [Hv2| ->]; auto. exfalso. auto. }
    assert (STEP : forall v, vertex_ok d v -> ropen (p2, v1, v2) = [(p2, v)] ->
      exists news ext,
      (let! b := at_res (d_points d) p2 in
       let! a := at_res (d_points d) p1 in
       let! v := py_at (d_vertices d) v in
       far_loop d c radius p1 ridge (region ++ [Z.of_nat (length verts)]) (verts ++ [far_point c radius a b v])) =
        Ok (region ++ news, verts ++ ext) /\
      Forall (fun id => 0 <= id < Z.of_nat (length (verts ++ ext)))%Z news /\
      Forall2 (closing c radius p1 (verts ++ ext)) (ropen (p2, v1, v2) ++ concat (map ropen ridge)) news).
    { intros v Hv Ro. destruct (py_at_ok (d_vertices d) v Hv) as (vv & Ev & Nv).
      unfold at_res. rewrite Ha, Hb, Ev. cbn [bind].
      destruct (IH (region ++ [Z.of_nat (length verts)]) (verts ++ [far_point c radius a b vv])) as (news & ext & E & F1 & F2).
      { rewrite app_length. cbn. lia. }
      exists (Z.of_nat (length verts) :: news), (far_point c radius a b vv :: ext).
      rewrite E. rewrite <- !app_assoc in *. cbn [app] in *. split; [reflexivity|]. split.
      - constructor; [|exact F1]. rewrite app_length. cbn [length]. lia.
      - rewrite Ro. cbn [app]. constructor; [|exact F2]. exists a, b, vv, (far_point c radius a b vv).
        cbn [fst snd]. repeat split; auto; try (apply far_point_ray; exact Hab).
        + lia.
        + rewrite Nat2Z.id, nth_error_app2, Nat.sub_diag by lia. reflexivity. }
    unfold vertex_ok in *. destruct C as [[-> C]|[[-> C]|[C1 C2]]].
    + destruct (Z.ltb_spec v2 0); [lia|]. change (0 <=? -1)%Z with false. apply STEP; [exact C|reflexivity].
    + change (-1 <? 0)%Z with true. change (0 <=? -1)%Z with false. apply STEP; [exact C|].
      cbn. destruct (Z.eqb_spec v1 (-1)); [lia|]. reflexivity.
    + destruct (Z.ltb_spec v2 0); [lia|]. destruct (Z.leb_spec 0 v1); [|lia].
      assert (Ro : ropen (p2, v1, v2) = []).
      { cbn. destruct (Z.eqb_spec v1 (-1)); [lia|]. destruct (Z.eqb_spec v2 (-1)); [lia|]. reflexivity. }
      rewrite Ro. cbn [app]. apply IH. exact Hlen.
Qed.

Lemma picks_perm {A} (l : list A) ids xs : picks l ids xs -> Permutation ids (seq 0 (length l)) -> Permutation xs l.
Proof.
  intros H P. destruct l as [|x0 l'].
  - cbn in P. apply Permutation_sym, Permutation_nil in P. subst ids. inversion H. constructor.
  - set (l := x0 :: l') in *. assert (E : xs = map (fun i => nth i l x0) ids).
    { clear P. induction H as [|i x ids xs Hi _ IH]; [reflexivity|]. cbn [map]. rewrite <- IH. f_equal.
      symmetry. apply nth_error_nth. exact Hi. }
    rewrite E. rewrite (Permutation_map _ P). rewrite map_nth_seq. reflexivity.
Qed.

Definition extendsv (verts : list pt2) : Prop := exists ext, verts = d_vertices d ++ ext.

Definition region_result (atan2 : R -> R -> R) (c : pt2) (radius : R) (p : nat) (r : list Z) (verts : list pt2) (out : list Z) : Prop :=
  same_region d atan2 c radius verts p r out /\
  Forall (fun v => 0 <= v < Z.of_nat (length verts))%Z out.

Lemma region_result_more atan2 c radius p r verts ext out :
  region_result atan2 c radius p r verts out -> region_result atan2 c radius p r (verts ++ ext) out.
Proof.
  intros [[H1 H2] H3]. split; [split; [exact H1|]|].
  - intros Hin. destruct (H2 Hin) as [(news & P & F) (qs & q & F2 & B & I)]. split.
    + exists news. split; [exact P|]. eapply Forall2_impl; [|exact F]. intros x id. apply closing_more.
    + exists qs, q. repeat split; auto; try apply B. eapply Forall2_impl; [|exact F2]. cbn. intros v x Hv.
      rewrite nth_error_app1; [exact Hv|]. apply nth_error_Some. congruence.
  - eapply Forall_impl; [|exact H3]. cbn. intros v. rewrite app_length. lia.
Qed.

Lemma one_region_spec argsort atan2 c radius p r k verts : sorts argsort ->
  extendsv verts -> (0 <= k)%Z -> nth_error (d_regions d) (Z.to_nat k) = Some r ->
  (In (-1)%Z r -> open_ridges d p <> []) ->
  exists out ext, one_region argsort atan2 d c radius p k verts = Ok (out, verts ++ ext) /\
    region_result atan2 c radius p r (verts ++ ext) out.
Proof.
  intros Hsort [ext0 Everts] Hk Hr Hopen. unfold one_region.
  assert (Hkl : (0 <= k < Z.of_nat (length (d_regions d)))%Z).
  { assert (Z.to_nat k < length (d_regions d)) by (apply nth_error_Some; congruence). lia. }
  destruct (py_at_ok _ _ Hkl) as (r' & E & Er). rewrite Hr in Er. injection Er as <-. rewrite E. cbn [bind].
  assert (Hrv : Forall (fun v => vertex_ok d v \/ v = -1)%Z r).
  { destruct PD as (_ & _ & _ & _ & H & _). rewrite Forall_forall in H. apply H. eapply nth_error_In; eauto. }
  assert (Hl0 : length (d_vertices d) <= length verts) by (rewrite Everts, app_length; lia).
  destruct (existsb (fun v => (v =? -1)%Z) r) eqn:Ex; cbn [negb].
  - apply existsb_exists in Ex as (v & Hv & Ev). apply Z.eqb_eq in Ev. subst v.
    specialize (Hopen Hv). unfold open_ridges in Hopen.
    assert (Hd : Forall (fun '(p1, p2) => p1 <> p2) (d_ridge_points d)).
    { destruct PD as (_ & _ & H & _). eapply Forall_impl; [|exact H]. intros [p1 p2]. tauto. }
    assert (Eo : open_ridges d p = concat (map ropen (ridges_of (d_ridge_points d) (d_ridge_vertices d) p))).
    { apply open_ridges_eq. exact Hd. }
    rewrite (open_ridges_eq _ _ _ Hd) in Hopen.
    assert (Fine := ridges_fine p).
    destruct (ridges_of (d_ridge_points d) (d_ridge_vertices d) p) as [|x ridge] eqn:Er; [exfalso; now apply Hopen|].
    set (fin := filter (fun v => (0 <=? v)%Z) r).
    destruct (far_loop_spec c radius p (x :: ridge) Fine fin verts Hl0) as (news & ext & -> & F1 & F2). cbn [bind].
    assert (Hfin : Forall (fun v => 0 <= v < Z.of_nat (length (verts ++ ext)))%Z (fin ++ news)).
    { apply Forall_app. split; [|exact F1]. apply Forall_forall. intros v Hv'. apply filter_In in Hv' as [Hv' Hpos].
      apply Z.leb_le in Hpos. rewrite Forall_forall in Hrv. destruct (Hrv v Hv') as [[_ H]|H]; [|lia].
      rewrite app_length. lia. }
    assert (exists cs, mapM (py_at (verts ++ ext)) (fin ++ news) = Ok cs /\
      Forall2 (fun v q => nth_error (verts ++ ext) (Z.to_nat v) = Some q) (fin ++ news) cs) as (cs & -> & Fcs).
    { induction Hfin as [|v l Hv' _ IH']; [exists []; split; [reflexivity|constructor]|].
      destruct IH' as (cs & Ecs & Fcs). destruct (py_at_ok _ _ Hv') as (q & Eq & Nq).
      exists (q :: cs). cbn [mapM]. rewrite Eq. cbn [bind]. rewrite Ecs. cbn [bind]. split; [reflexivity|]. constructor; auto. }
    cbn [bind].
    assert (Hne : cs <> []).
    { intros ->. inversion Fcs as [Efn|]. symmetry in Efn. apply app_eq_nil in Efn as [_ ->]. inversion F2 as [Eq|].
      apply Hopen. auto. }
    set (q := mean2 cs). set (ang := fun x : pt2 => atan2 (snd x - snd q)%R (fst x - fst q)%R).
    change (map (fun x : pt2 => atan2 (snd x - snd q)%R (fst x - fst q)%R) cs) with (map ang cs).
    destruct (Hsort (map ang cs)) as [Sp Si]. rewrite map_length in Sp.
    assert (Lcs := Forall2_len _ _ _ Fcs).
    assert (exists out, take (fin ++ news) (argsort (map ang cs)) = Ok out) as (out & Eout).
    { destruct (picks_exists (fin ++ news) (argsort (map ang cs))) as (out & Hout).
      - intros i Hi. apply (Permutation_in _ Sp) in Hi. apply in_seq in Hi. lia.
      - exists out. apply take_picks. exact Hout. }
    assert (Em : match cs with
                 | [] => Err IndexError
                 | _ :: _ => let! sorted := take (fin ++ news) (argsort (map ang cs)) in Ok (sorted, verts ++ ext)
                 end = Ok (out, verts ++ ext)).
    { destruct cs; [congruence|]. rewrite Eout. reflexivity. }
    exists out, ext. split; [exact Em|].
    apply take_picks in Eout.
    assert (Pout : Permutation out (fin ++ news)).
    { eapply picks_perm; [exact Eout|]. rewrite Lcs. exact Sp. }
    split; [split|].
    + intros N. now exfalso.
    + intros _. split.
      * exists news. split; [exact Pout|]. rewrite Eo. exact F2.
      * destruct (picks_exists cs (argsort (map ang cs))) as (qs & Hqs).
        { intros i Hi. apply (Permutation_in _ Sp) in Hi. apply in_seq in Hi. lia. }
        exists qs, q. split; [|split].
        -- clear - Eout Hqs Fcs. revert qs Hqs. induction Eout as [|i v ids out Hi _ IH]; intros qs Hqs; inversion Hqs as [|? y ? qs' Hy Hq']; subst; constructor; auto.
           destruct (Forall2_nth_error _ _ _ _ _ Fcs Hi) as (y' & Hy' & E). congruence.
        -- apply barycenter_perm with cs; [|apply mean2_barycenter; exact Hne].
           symmetry. eapply picks_perm; [exact Hqs|exact Sp].
        -- change (map (fun x0 : pt2 => atan2 (snd x0 - snd q)%R (fst x0 - fst q)%R) qs) with (map ang qs).
           assert (Eq : map ang qs = map (fun i => nth i (map ang cs) 0%R) (argsort (map ang cs))).
           { clear - Hqs. revert Hqs. generalize (argsort (map ang cs)). intros ids H. induction H as [|i y ids ys Hi _ IH]; [reflexivity|].
             cbn [map]. rewrite IH. f_equal. symmetry. apply nth_error_nth. rewrite nth_error_map, Hi. reflexivity. }
           rewrite Eq. exact Si.
    + eapply Permutation_Forall; [symmetry; exact Pout|exact Hfin].
  - assert (Hno : ~ In (-1)%Z r).
    { intros Hin. assert (existsb (fun v => (v =? -1)%Z) r = true); [|congruence]. apply existsb_exists. exists (-1)%Z. auto. }
    exists r, []. rewrite app_nil_r. split; [reflexivity|]. split; [split; auto; now intros|].
    rewrite Forall_forall in *. intros v Hv. destruct (Hrv v Hv) as [[? ?]| ->]; [lia|contradiction].
Qed.

Lemma region_loop_spec argsort atan2 c radius : sorts argsort -> forall prs p0 verts, extendsv verts ->
  (forall i k, nth_error prs i = Some k -> (0 <= k < Z.of_nat (length (d_regions d)))%Z) ->
  (forall i k r, nth_error prs i = Some k -> nth_error (d_regions d) (Z.to_nat k) = Some r -> In (-1)%Z r ->
     open_ridges d (p0 + i) <> []) ->
  exists outs ext, region_loop argsort atan2 d c radius p0 prs verts = Ok (outs, verts ++ ext) /\
    length outs = length prs /\
    forall i k r, nth_error prs i = Some k -> nth_error (d_regions d) (Z.to_nat k) = Some r ->
      exists out, nth_error outs i = Some out /\ region_result atan2 c radius (p0 + i) r (verts ++ ext) out.
Proof.
  intros Hsort. induction prs as [|k prs IH]; intros p0 verts Hv Hk Ho; cbn [region_loop].
  - exists [], []. rewrite app_nil_r. repeat split; auto. intros [|i] ? ? H; discriminate.
  - assert (Hk0 := Hk 0 k eq_refl).
    destruct (nth_error (d_regions d) (Z.to_nat k)) as [r|] eqn:Er.
    2:{ apply nth_error_None in Er. lia. }
    destruct (one_region_spec argsort atan2 c radius p0 r k verts Hsort Hv ltac:(lia) Er) as (out & ext & E & R).
    { intros Hin. rewrite <- (Nat.add_0_r p0). exact (Ho 0 k r eq_refl Er Hin). }
    rewrite E. cbn [bind].
    destruct (IH (S p0) (verts ++ ext)) as (outs & ext' & E' & L & H').
    + destruct Hv as [e0 ->]. exists (e0 ++ ext). now rewrite app_assoc.
    + intros i k' Hi. apply (Hk (S i) k' Hi).
    + intros i k' r' Hi Hr Hin. replace (S p0 + i) with (p0 + S i) by lia. eapply (Ho (S i)); eauto.
    + rewrite E'. cbn [bind fst snd]. exists (out :: outs), (ext ++ ext'). rewrite <- app_assoc. split; [reflexivity|].
      split; [cbn; lia|]. rewrite app_assoc. intros [|i] k' r' Hi Hr.
      * injection Hi as <-. rewrite Er in Hr. injection Hr as <-. exists out. split; [reflexivity|].
        rewrite Nat.add_0_r. apply region_result_more. exact R.
      * destruct (H' i k' r' Hi Hr) as (out' & Ho' & R'). exists out'. split; [exact Ho'|].
        replace (p0 + S i) with (S p0 + i) by lia. exact R'.
Qed.

Lemma tessellation_spec argsort atan2 infinity ptp : sorts argsort -> d_points d <> [] ->
  (forall p r, region_of d p r -> In (-1)%Z r -> open_ridges d p <> []) ->
  exists outs ext c radius,
    tessellation argsort atan2 d infinity ptp = Ok (outs, d_vertices d ++ ext) /\
    length outs = length (d_points d) /\ barycenter (d_points d) c /\
    ((infinity = Some radius /\ radius <> 0%R) \/ (infinity = None \/ infinity = Some 0%R) /\ radius = (1000 * ptp)%R) /\
    forall p r, region_of d p r -> exists out, nth_error outs p = Some out /\
      same_region d atan2 c radius (d_vertices d ++ ext) p r out /\
      Forall (fun v => 0 <= v < Z.of_nat (length (d_vertices d ++ ext)))%Z out.
Proof.
  intros Hsort Hne Ho. unfold tessellation.
  assert (Hpr : forall i k, nth_error (d_point_region d) i = Some k -> (0 <= k < Z.of_nat (length (d_regions d)))%Z).
  { intros i k Hi. destruct PD as (_ & _ & _ & _ & _ & H). rewrite Forall_forall in H. apply H. eapply nth_error_In; eauto. }
  destruct (region_loop_spec argsort atan2 (mean2 (d_points d)) (far_radius infinity ptp) Hsort (d_point_region d) 0 (d_vertices d))
    as (outs & ext & E & L & H).
  - exists []. now rewrite app_nil_r.
  - exact Hpr.
  - intros i k r Hi Hr Hin. apply (Ho i r); auto. exists k. repeat split; auto. apply (Hpr i k Hi).
  - exists outs, ext, (mean2 (d_points d)), (far_radius infinity ptp). split; [exact E|].
    split; [rewrite L; apply PD|]. split; [apply mean2_barycenter; exact Hne|]. split.
    + unfold far_radius. destruct infinity as [r|]; [|right; split; [auto|lra]].
      destruct (Req_EM_T r 0) as [->|N]; [right; split; [auto|lra]|auto].
    + intros p r (k & Hp & Hk & Hr). destruct (H p k r Hp Hr) as (out & Hout & [R1 R2]). exists out. auto.
Qed.

(* a region at infinity whose point has no ridge *)
Lemma one_region_no_ridge argsort atan2 c radius p r k verts :
  (0 <= k)%Z -> nth_error (d_regions d) (Z.to_nat k) = Some r -> In (-1)%Z r ->
  (forall p1 p2, In (p1, p2) (d_ridge_points d) -> p1 <> p /\ p2 <> p) ->
  one_region argsort atan2 d c radius p k verts = Err KeyError.
Proof.
  intros Hk Hr Hin Hno. unfold one_region.
  assert (Hkl : (0 <= k < Z.of_nat (length (d_regions d)))%Z).
  { assert (Z.to_nat k < length (d_regions d)) by (apply nth_error_Some; congruence). lia. }
  destruct (py_at_ok _ _ Hkl) as (r' & E & Er). rewrite Hr in Er. injection Er as <-. rewrite E. cbn [bind].
  replace (existsb (fun v => (v =? -1)%Z) r) with true.
  2:{ symmetry. apply existsb_exists. exists (-1)%Z. auto. }
  cbn [negb]. destruct (ridges_of (d_ridge_points d) (d_ridge_vertices d) p) as [|x l] eqn:El; [reflexivity|].
  destruct (ridges_of_In (d_ridge_points d) (d_ridge_vertices d) p x) as (p' & v1 & v2 & _ & _ & [H|H]).
  - rewrite El. now left.
  - now destruct (Hno _ _ H).
  - now destruct (Hno _ _ H).
Qed.
End Tess.
