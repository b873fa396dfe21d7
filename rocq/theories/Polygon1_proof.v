(* offset_polygon. *)
From Coq Require Import Reals Lra Psatz Lia.
From Verif Require Import Prelude Surface_model Lines_model Volume_spec Lines_spec Lines1_proof
  Polygon_model Polygon_spec.
Open Scope R_scope.

Lemma column_coord k p : column k p = coord k p.
Proof. destruct p as [[x y] z], k as [|[|k]]; reflexivity. Qed.
Lemma drop_in_plane k p : drop k p = in_plane k p.
Proof. destruct p as [[x y] z], k as [|[|k]]; reflexivity. Qed.
Lemma insert0_plane k q : in_plane k (insert0 k q) = q.
Proof. destruct q as [u v], k as [|[|k]]; reflexivity. Qed.
Lemma insert0_coord k q : coord k (insert0 k q) = 0.
Proof. destruct q as [u v], k as [|[|k]]; reflexivity. Qed.

Lemma flat_spec k p ps :
  flat k (p :: ps) = true <-> forall x y, In x (p :: ps) -> In y (p :: ps) -> coord k x = coord k y.
Proof.
  cbn [flat]. rewrite forallb_forall. split.
  - intros H.
    assert (E : forall x, In x (p :: ps) -> coord k x = coord k p).
    { intros x [<- | Hx]; [reflexivity|]. specialize (H x Hx).
      destruct (Req_EM_T (column k x) (column k p)) as [e|]; [|discriminate].
      rewrite !column_coord in e. exact e. }
    intros x y Hx Hy. rewrite (E x Hx), (E y Hy). reflexivity.
  - intros H x Hx. destruct (Req_EM_T (column k x) (column k p)) as [|n]; [reflexivity|].
    exfalso. apply n. rewrite !column_coord. apply H; [right; exact Hx | left; reflexivity].
Qed.

Lemma find_axis_spec ps k : find_axis ps = Ok k <-> ps <> [] /\ only_constant k ps.
Proof.
  destruct ps as [|p ps].
  - split; [discriminate | intros [H _]; congruence].
  - unfold find_axis.
    assert (F := fun j => flat_spec j p ps).
    unfold only_constant. set (l := p :: ps) in *. cbn [filter].
    destruct (flat 0 l) eqn:E0, (flat 1 l) eqn:E1, (flat 2 l) eqn:E2; split;
      try discriminate; intros H.
    all: try (apply Ok_inj in H; subst k; split; [subst l; discriminate|]; split; [lia|];
              intros j Hj; rewrite <- F; destruct j as [|[|[|j]]]; try lia; split; congruence).
    all: destruct H as (_ & Hk & H).
    all: assert (H0 := H 0%nat ltac:(lia)); assert (H1 := H 1%nat ltac:(lia)); assert (H2 := H 2%nat ltac:(lia));
         rewrite <- F in H0, H1, H2; rewrite ?E0, ?E1, ?E2 in *.
    all: destruct k as [|[|[|k]]]; try lia; try reflexivity.
    all: try (exfalso; destruct H0, H1, H2; intuition congruence).
Qed.

(* ---- one vertex ---- *)
Lemma npsign_sgn x : npsign x = sgn x.
Proof. reflexivity. Qed.

Lemma norm2_len v : norm2 v = len2 v.
Proof. reflexivity. Qed.

Lemma dot2_nonneg v : 0 <= dot2 v v.
Proof. unfold dot2. nra. Qed.

Lemma dot2_0 v : dot2 v v = 0 -> fst v = 0 /\ snd v = 0.
Proof. unfold dot2. intros H. split; nra. Qed.

Lemma len2_0 v : len2 v = 0 <-> fst v = 0 /\ snd v = 0.
Proof.
  unfold len2. split.
  - intros H. apply sqrt_eq_0 in H; [|apply dot2_nonneg]. apply dot2_0, H.
  - intros [H1 H2]. unfold dot2. rewrite H1, H2. replace (0*0+0*0) with 0 by ring. apply sqrt_0.
Qed.

Lemma len2_sq v : len2 v * len2 v = dot2 v v.
Proof. unfold len2. apply sqrt_sqrt, dot2_nonneg. Qed.

Lemma len2_pos v : len2 v <> 0 -> 0 < len2 v.
Proof. intros H. assert (0 <= len2 v) by apply sqrt_pos. lra. Qed.

Lemma unit2_spec v :
  (unit2 v = None /\ len2 v = 0) \/
  (exists u, unit2 v = Some u /\ 0 < len2 v /\ dot2 u u = 1 /\
             fst v = len2 v * fst u /\ snd v = len2 v * snd u).
Proof.
  unfold unit2. rewrite norm2_len. destruct (Req_EM_T (len2 v) 0) as [e|n].
  - left. split; [reflexivity | exact e].
  - right. eexists. split; [reflexivity|]. assert (P := len2_pos v n). split; [exact P|].
    cbn [fst snd]. assert (S := len2_sq v). unfold dot2 in *. cbn [fst snd].
    split; [|split; field; lra].
    replace (fst v / len2 v * (fst v / len2 v) + snd v / len2 v * (snd v / len2 v))
      with ((fst v * fst v + snd v * snd v) / (len2 v * len2 v)) by (field; lra).
    rewrite S. field. rewrite <- S. nra.
Qed.

Lemma unit_sum_0 (u v : p2) :
  dot2 u u = 1 -> dot2 v v = 1 -> (1 + dot2 u v = 0 <-> fst u + fst v = 0 /\ snd u + snd v = 0).
Proof.
  unfold dot2. intros Hu Hv. split.
  - intros H. apply (dot2_0 (fst u + fst v, snd u + snd v)). unfold dot2; cbn [fst snd]. lra.
  - intros [H1 H2]. replace (fst v) with (- fst u) by lra. replace (snd v) with (- snd u) by lra. nra.
Qed.

Lemma unit_dot_bound (u v : p2) : dot2 u u = 1 -> dot2 v v = 1 -> -1 <= dot2 u v.
Proof.
  unfold dot2. intros Hu Hv.
  assert (A := Rle_0_sqr (fst u + fst v)). assert (B := Rle_0_sqr (snd u + snd v)).
  unfold Rsqr in *. lra.
Qed.

(* closed form *)
Lemma offset_vertex_form d s vn vp (p : p2) :
  dot2 vn vn = 1 -> dot2 vp vp = 1 -> s * s = 1 -> 1 + dot2 vn vp <> 0 ->
  exists vb, unit2 (- ((fst vn + fst vp) * s), (snd vn + snd vp) * s) = Some vb /\
    d / sqrt (1 / 2 * (1 + (fst vn * fst vp + snd vn * snd vp))) * snd vb
      = d * s / (1 + dot2 vn vp) * (snd vn + snd vp) /\
    d / sqrt (1 / 2 * (1 + (fst vn * fst vp + snd vn * snd vp))) * fst vb
      = - (d * s / (1 + dot2 vn vp) * (fst vn + fst vp)).
Proof.
  intros Hn Hp Hs Hd.
  assert (B := unit_dot_bound vn vp Hn Hp).
  assert (P : 0 < 1 + dot2 vn vp) by lra.
  change (fst vn * fst vp + snd vn * snd vp) with (dot2 vn vp).
  set (D := dot2 vn vp) in *.
  set (w := (- ((fst vn + fst vp) * s), (snd vn + snd vp) * s)).
  assert (L : dot2 w w = 2 * (1 + D)).
  { unfold w, dot2; cbn [fst snd].
    replace (- ((fst vn + fst vp) * s) * - ((fst vn + fst vp) * s) + (snd vn + snd vp) * s * ((snd vn + snd vp) * s))
      with ((s * s) * ((fst vn + fst vp) * (fst vn + fst vp) + (snd vn + snd vp) * (snd vn + snd vp))) by ring.
    rewrite Hs. unfold D, dot2 in *. lra. }
  destruct (unit2_spec w) as [[_ H0] | (vb & E & Lp & _ & E1 & E2)].
  { exfalso. assert (S := len2_sq w). rewrite H0, L in S. nra. }
  exists vb. split; [exact E|].
  assert (S := len2_sq w). rewrite L in S.
  set (n := len2 w) in *.
  assert (Q : sqrt (1 / 2 * (1 + D)) * 2 = n).
  { unfold n, len2. rewrite L.
    replace (2 * (1 + D)) with ((2 * 2) * (1 / 2 * (1 + D))) by field.
    rewrite (sqrt_mult (2 * 2)) by lra. rewrite (sqrt_square 2) by lra. ring. }
  assert (Q' : sqrt (1 / 2 * (1 + D)) = n / 2) by lra. rewrite Q'.
  unfold w in E1, E2; cbn [fst snd] in E1, E2.
  assert (Hfx : fst vb = - ((fst vn + fst vp) * s) / n) by (rewrite E1; field; lra).
  assert (Hsx : snd vb = (snd vn + snd vp) * s / n) by (rewrite E2; field; lra).
  rewrite Hfx, Hsx.
  replace (1 + D) with (n * n / 2) by lra.
  split; field; lra.
Qed.

Lemma offset_vertex_spec d s a b c q :
  (s = 0 \/ s * s = 1) -> d <> 0 ->
  offset_vertex d s a b c = q ->
  (q = None <-> a = b \/ b = c \/ folds_back a b c \/ s * d = 0) /\
  (forall x, q = Some x -> right_of a b x = s * d /\ right_of b c x = s * d /\ on_bisector a b c x).
Proof.
  intros Hs Hd <-. unfold offset_vertex.
  change (fst c - fst b, snd c - snd b) with (sub2 c b).
  change (fst b - fst a, snd b - snd a) with (sub2 b a).
  destruct (unit2_spec (sub2 c b)) as [[E1 H1] | (vn & E1 & Ln & Un & N1 & N2)]; rewrite E1.
  { split; [|discriminate]. split; [|reflexivity]. intros _. right; left.
    apply len2_0 in H1. unfold sub2 in H1; cbn [fst snd] in H1.
    destruct b, c; cbn [fst snd] in *. f_equal; lra. }
  destruct (unit2_spec (sub2 b a)) as [[E2 H2] | (vp & E2 & Lp & Up & P1 & P2)]; rewrite E2.
  { split; [|discriminate]. split; [|reflexivity]. intros _. left.
    apply len2_0 in H2. unfold sub2 in H2; cbn [fst snd] in H2.
    destruct a, b; cbn [fst snd] in *. f_equal; lra. }
  assert (Nab : a <> b).
  { intros ->. assert (len2 (sub2 b b) = 0) by (apply len2_0; unfold sub2; cbn; split; ring). lra. }
  assert (Nbc : b <> c).
  { intros ->. assert (len2 (sub2 c c) = 0) by (apply len2_0; unfold sub2; cbn; split; ring). lra. }
  assert (Hfold : folds_back a b c <-> 1 + dot2 vn vp = 0).
  { unfold folds_back.
    assert (Dt : det2 (sub2 b a) (sub2 c b) = len2 (sub2 b a) * len2 (sub2 c b) * det2 vp vn).
    { unfold det2. rewrite N1, N2, P1, P2. ring. }
    assert (Dd : dot2 (sub2 b a) (sub2 c b) = len2 (sub2 b a) * len2 (sub2 c b) * dot2 vn vp).
    { unfold dot2. rewrite N1, N2, P1, P2. ring. }
    rewrite Dt, Dd. assert (PP : 0 < len2 (sub2 b a) * len2 (sub2 c b)) by nra.
    set (K := len2 (sub2 b a) * len2 (sub2 c b)) in *.
    assert (Lag : det2 vp vn * det2 vp vn + dot2 vn vp * dot2 vn vp = 1).
    { transitivity (dot2 vn vn * dot2 vp vp); [unfold det2, dot2; ring | rewrite Un, Up; ring]. }
    split.
    - intros [Hdet Hdot]. assert (D0 : det2 vp vn = 0) by nra.
      rewrite D0 in Lag. assert (dot2 vn vp < 0) by nra. nra.
    - intros H. assert (Hdot : dot2 vn vp = -1) by lra. rewrite Hdot in *.
      assert (D0 : det2 vp vn = 0) by nra. rewrite D0. split; nra. }
  destruct (Req_dec (1 + dot2 vn vp) 0) as [Hf | Hf].
  - (* folded *)
    assert (Z := proj1 (unit_sum_0 vn vp Un Up) Hf). destruct Z as [Z1 Z2].
    rewrite Z1, Z2.
    destruct (unit2_spec (- (0 * s), 0 * s)) as [[E3 _] | (u & _ & L & _)].
    + rewrite E3. split; [|discriminate]. split; [|reflexivity]. intros _. right; right; left.
      apply Hfold, Hf.
    + exfalso. assert (len2 (- (0 * s), 0 * s) = 0) by (apply len2_0; cbn; split; ring). lra.
  - destruct Hs as [-> | Hs].
    { rewrite !Rmult_0_r.
      destruct (unit2_spec (- 0, 0)) as [[E3 _] | (u & _ & L & _)].
      + rewrite E3. split; [|discriminate]. split; [|reflexivity]. intros _. right; right; right. ring.
      + exfalso. assert (len2 (- 0, 0) = 0) by (apply len2_0; cbn; split; ring). lra. }
    destruct (offset_vertex_form d s vn vp b Un Up Hs Hf) as (vb & E3 & F1 & F2).
    rewrite E3. rewrite F1, F2. split.
    + split; [discriminate|]. intros [H | [H | [H | H]]]; try contradiction.
      * apply Hfold in H. contradiction.
      * exfalso. apply Rmult_integral in H as [H | H]; [subst s; lra | contradiction].
    + intros x [= <-]. unfold right_of, on_bisector.
      set (D := dot2 vn vp) in *.
      assert (HD : fst vn * fst vp + snd vn * snd vp = D) by reflexivity.
      unfold dot2 in Un, Up.
      set (q := (fst b + d * s / (1 + D) * (snd vn + snd vp), snd b + - (d * s / (1 + D) * (fst vn + fst vp)))).
      assert (Q1 : fst (sub2 q b) = d * s / (1 + D) * (snd vn + snd vp)) by (unfold sub2, q; cbn [fst snd]; ring).
      assert (Q2 : snd (sub2 q b) = - (d * s / (1 + D) * (fst vn + fst vp))) by (unfold sub2, q; cbn [fst snd]; ring).
      assert (Q3 : fst (sub2 q a) = fst (sub2 q b) + fst (sub2 b a)) by (unfold sub2; cbn [fst snd]; ring).
      assert (Q4 : snd (sub2 q a) = snd (sub2 q b) + snd (sub2 b a)) by (unfold sub2; cbn [fst snd]; ring).
      unfold det2, dot2. rewrite Q3, Q4, Q1, Q2, P1, P2, N1, N2.
      set (lb := len2 (sub2 b a)) in *. set (lc := len2 (sub2 c b)) in *.
      split; [|split].
      * match goal with |- ?X / lb = _ => replace X with
          (lb * (d * s / (1 + D)) * ((fst vp * fst vp + snd vp * snd vp) + (fst vn * fst vp + snd vn * snd vp))) by ring end.
        rewrite Up, HD. field. split; lra.
      * match goal with |- ?X / lc = _ => replace X with
          (lc * (d * s / (1 + D)) * ((fst vn * fst vn + snd vn * snd vn) + (fst vn * fst vp + snd vn * snd vp))) by ring end.
        rewrite Un, HD. field. split; lra.
      * match goal with |- ?X / lb + ?Y / lc = _ =>
          replace X with (lb * (d * s / (1 + D) * (snd vn * fst vp - fst vn * snd vp))) by ring;
          replace Y with (lc * (d * s / (1 + D) * (snd vp * fst vn - fst vp * snd vn))) by ring end.
        field. repeat split; lra.
Qed.

(* ---- a ring ---- *)
Lemma offset_ring_nth d s ext : forall k,
  nth_error (offset_ring d s ext) k =
  match nth_error ext k, nth_error ext (S k), nth_error ext (S (S k)) with
  | Some a, Some b, Some c => Some (offset_vertex d s a b c)
  | _, _, _ => None
  end.
Proof.
  induction ext as [|a ext IH]; intros k.
  - destruct k; reflexivity.
  - destruct ext as [|b ext].
    { destruct k as [|[|k]]; reflexivity. }
    destruct ext as [|c ext].
    { destruct k as [|[|[|k]]]; reflexivity. }
    destruct k as [|k]; [reflexivity|].
    change (nth_error (offset_ring d s (a :: b :: c :: ext)) (S k))
      with (nth_error (offset_ring d s (b :: c :: ext)) k).
    rewrite IH. reflexivity.
Qed.

Lemma offset_ring_length d s ext : length (offset_ring d s ext) = (length ext - 2)%nat.
Proof.
  induction ext as [|a ext IH]; [reflexivity|].
  destruct ext as [|b ext]; [reflexivity|].
  destruct ext as [|c ext]; [reflexivity|].
  change (length (offset_ring d s (a :: b :: c :: ext)))
    with (S (length (offset_ring d s (b :: c :: ext)))).
  rewrite IH. cbn [length]. lia.
Qed.

Lemma extended_length ps : ps <> [] -> length (extended ps) = (length ps + 2)%nat.
Proof. destruct ps as [|p ps]; [congruence|]. intros _. cbn [extended length app]. rewrite app_length. cbn. lia. Qed.

Lemma last_nth_error {A} (l : list A) x : l <> [] -> nth_error l (length l - 1) = Some (last l x).
Proof.
  intros H. destruct (exists_last H) as (l' & y & ->).
  rewrite last_last, app_length. cbn [length].
  rewrite nth_error_app2 by lia. replace (length l' + 1 - 1 - length l')%nat with 0%nat by lia. reflexivity.
Qed.

Lemma extended_corner ps k a b c :
  corner ps k a b c ->
  nth_error (extended ps) k = Some a /\ nth_error (extended ps) (S k) = Some b /\
  nth_error (extended ps) (S (S k)) = Some c.
Proof.
  intros (Hb & Ha & Hc).
  assert (Hk : (k < length ps)%nat) by (apply nth_error_Some; congruence).
  destruct ps as [|p ps]; [cbn in Hk; lia|].
  set (l := p :: ps) in *. set (n := length l) in *.
  change (extended l) with (last l p :: l ++ [p]).
  assert (Hn : n = length l) by reflexivity.
  assert (Hhd : nth_error l 0 = Some p) by reflexivity.
  assert (Hnil : l <> []) by (subst l; discriminate).
  clearbody n l.
  split; [|split].
  - destruct k as [|k].
    + cbn [nth_error]. rewrite <- last_nth_error by exact Hnil.
      rewrite Nat.mod_small in Ha by lia. rewrite <- Ha. f_equal. lia.
    + change (nth_error (last l p :: l ++ [p]) (S k)) with (nth_error (l ++ [p]) k).
      rewrite nth_error_app1 by lia.
      replace (S k + n - 1)%nat with (k + 1 * n)%nat in Ha by lia.
      rewrite Nat.mod_add, Nat.mod_small in Ha by lia. exact Ha.
  - change (nth_error (last l p :: l ++ [p]) (S k)) with (nth_error (l ++ [p]) k).
    rewrite nth_error_app1 by lia. exact Hb.
  - change (nth_error (last l p :: l ++ [p]) (S (S k))) with (nth_error (l ++ [p]) (S k)).
    destruct (Nat.eq_dec (k + 1) n) as [E|E].
    + rewrite E, Nat.mod_same in Hc by lia. rewrite Hhd in Hc.
      rewrite nth_error_app2 by lia. replace (S k - length l)%nat with 0%nat by lia. exact Hc.
    + rewrite Nat.mod_small in Hc by lia. rewrite nth_error_app1 by lia.
      replace (S k) with (k + 1)%nat by lia. exact Hc.
Qed.

Lemma area_sum_pairs ps : area_sum ps = fold_right Rplus 0 (map (fun e => det2 (fst e) (snd e)) (pairs ps)).
Proof.
  induction ps as [|p ps IH]; [reflexivity|].
  destruct ps as [|q ps]; [reflexivity|].
  change (area_sum (p :: q :: ps)) with (cross2 p q + area_sum (q :: ps)).
  rewrite IH. change (pairs (p :: q :: ps)) with ((p, q) :: pairs (q :: ps)).
  cbn [map fold_right fst snd]. unfold cross2, det2. ring.
Qed.

Lemma area_sum_extended ps : ps <> [] -> area_sum (extended ps) = shoelace_twice_closed ps.
Proof.
  destruct ps as [|p ps]; [congruence|]. intros _.
  change (extended (p :: ps)) with (last (p :: ps) p :: p :: (ps ++ [p])).
  change (area_sum (last (p :: ps) p :: p :: ps ++ [p]))
    with (cross2 (last (p :: ps) p) p + area_sum (p :: ps ++ [p])).
  rewrite area_sum_pairs. unfold shoelace_twice_closed, shoelace.
  change (ring_edges (p :: ps)) with (pairs (p :: ps ++ [p])).
  unfold cross2, det2. ring.
Qed.

Lemma sgn_cases x : sgn x = 0 \/ sgn x * sgn x = 1.
Proof. unfold sgn. destruct (Rlt_dec 0 x); [right; ring|]. destruct (Rlt_dec x 0); [right; ring | left; reflexivity]. Qed.

Lemma offset_face_spec fac d ps out :
  (fac = 1 \/ fac = -1) -> d <> 0 -> offset_face fac d ps = Ok out ->
  exists k, ps <> [] /\ only_constant k ps /\
    moved_right k (sgn (shoelace_twice_closed (map (in_plane k) ps)) * (fac * d)) ps out /\
    Forall (fun q => forall x, q = Some x -> coord k x = 0) out.
Proof.
  intros Hf Hd H. unfold offset_face in H.
  destruct (find_axis ps) as [k|e] eqn:Ek; [|discriminate]. cbn [bind] in H. apply Ok_inj in H.
  apply find_axis_spec in Ek as [Hne Hk].
  assert (Em : map (drop k) ps = map (in_plane k) ps) by (apply map_ext; intros; apply drop_in_plane).
  rewrite Em in H. exists k. split; [exact Hne|]. split; [exact Hk|].
  assert (Hne' : map (in_plane k) ps <> []) by (destruct ps; [congruence | discriminate]).
  rewrite area_sum_extended in H by exact Hne'. rewrite npsign_sgn in H.
  set (w := shoelace_twice_closed (map (in_plane k) ps)) in *.
  assert (Hs : fac * sgn w = 0 \/ (fac * sgn w) * (fac * sgn w) = 1).
  { destruct (sgn_cases w) as [E|E]; [left; rewrite E; ring|right].
    replace (fac * sgn w * (fac * sgn w)) with ((fac * fac) * (sgn w * sgn w)) by ring. rewrite E.
    destruct Hf; subst fac; ring. }
  replace (sgn w * (fac * d)) with (fac * sgn w * d) by ring.
  subst out. split.
  - split.
    + rewrite map_length, offset_ring_length, extended_length by exact Hne'. rewrite map_length. lia.
    + intros i a b c Hc. apply extended_corner in Hc as (Ha & Hb & Hc).
      rewrite nth_error_map, offset_ring_nth, Ha, Hb, Hc. cbn [option_map].
      destruct (offset_vertex_spec d (fac * sgn w) a b c _ Hs Hd eq_refl) as [H1 H2].
      eexists. split; [reflexivity|]. split.
      * rewrite <- H1. destruct (offset_vertex d (fac * sgn w) a b c); cbn; split; congruence.
      * intros x Hx. destruct (offset_vertex d (fac * sgn w) a b c) as [q|]; [|discriminate].
        cbn in Hx. injection Hx as <-. rewrite insert0_plane. apply H2. reflexivity.
  - apply Forall_map, Forall_forall. intros q _ x Hx. destruct q as [q|]; [|discriminate].
    cbn in Hx. injection Hx as <-. apply insert0_coord.
Qed.

Lemma offset_face_ok fac d ps :
  (exists out, offset_face fac d ps = Ok out) <-> ps <> [] /\ exists k, only_constant k ps.
Proof.
  unfold offset_face. split.
  - intros (out & H). destruct (find_axis ps) as [k|e] eqn:Ek; [|discriminate].
    apply find_axis_spec in Ek as [H1 H2]. eauto.
  - intros (H1 & k & H2). rewrite (proj2 (find_axis_spec ps k) (conj H1 H2)). cbn [bind]. eauto.
Qed.

Lemma offset_face_err fac d ps e : offset_face fac d ps = Err e -> e = ValueError.
Proof.
  unfold offset_face, find_axis. destruct ps as [|p ps]; [cbn; congruence|].
  destruct (filter _ _) as [|k [|? ?]]; cbn [bind]; congruence.
Qed.

(* ---- all the faces ---- *)
Lemma offset_faces_spec fac d points : (fac = 1 \/ fac = -1) -> d <> 0 -> forall faces offset out ids,
  offset_faces fac d points offset faces = Ok (out, ids) ->
  concat ids = seq offset (length out) /\
  forall pre, length pre = offset ->
  Forall2 (fun f i => face_offset (fac * d) points f (pre ++ out) i) faces ids.
Proof.
  intros Hf Hd. induction faces as [|f faces IH]; intros offset out ids H.
  - cbn in H. apply Ok_inj, pair_equal_spec in H as [<- <-]. split; [reflexivity | constructor].
  - cbn [offset_faces] in H.
    destruct (take points f) as [ps|e] eqn:Et; [|discriminate]. cbn [bind] in H.
    destruct (offset_face fac d ps) as [o|e] eqn:Eo; [|discriminate]. cbn [bind] in H.
    destruct (offset_faces fac d points (offset + length o) faces) as [[out' ids']|e] eqn:Er; [|discriminate].
    cbn [bind fst snd] in H. apply Ok_inj, pair_equal_spec in H as [<- <-].
    apply IH in Er as [E1 E2]. split.
    + cbn [concat]. rewrite E1, app_length, seq_app. reflexivity.
    + intros pre Hpre. constructor.
      * apply offset_face_spec in Eo as (k & Hne & Hk & Hm & Hz); [|assumption|assumption].
        exists ps, o, k. split; [apply take_picks; exact Et|]. split; [|auto].
        rewrite <- Hpre. apply picks_seq.
      * specialize (E2 (pre ++ o)). rewrite <- app_assoc in E2. apply E2. rewrite app_length. lia.
Qed.

Lemma offset_spec points faces d out ids :
  d <> 0 -> offset_polygon points faces d = Ok (out, ids) ->
  concat ids = seq 0 (length out) /\
  Forall2 (fun f i => face_offset d points f out i) faces ids.
Proof.
  intros Hd H. unfold offset_polygon in H. destruct faces as [|f faces]; [discriminate|].
  destruct (Rlt_dec 0 d) as [P|P].
  - apply offset_faces_spec in H as [H1 H2]; [|left; reflexivity|exact Hd].
    split; [exact H1|]. specialize (H2 [] eq_refl). cbn [app] in H2.
    replace (1 * d) with d in H2 by ring. exact H2.
  - destruct (Rlt_dec d 0) as [Q|Q]; [|lra].
    apply offset_faces_spec in H as [H1 H2]; [|right; reflexivity|lra].
    split; [exact H1|]. specialize (H2 [] eq_refl). cbn [app] in H2.
    replace (-1 * - d) with d in H2 by ring. exact H2.
Qed.

Lemma offset_zero points faces : faces <> [] -> offset_polygon points faces 0 = Ok (map Some points, faces).
Proof.
  intros H. unfold offset_polygon. destruct faces as [|f faces]; [congruence|].
  destruct (Rlt_dec 0 0) as [P|P]; [lra|]. reflexivity.
Qed.

Lemma offset_faces_ok fac d points : forall faces offset,
  (exists r, offset_faces fac d points offset faces = Ok r) <->
  Forall (fun f => exists ps k, picks points f ps /\ ps <> [] /\ only_constant k ps) faces.
Proof.
  induction faces as [|f faces IH]; intros offset.
  - split; [constructor | intros _; cbn; eauto].
  - cbn [offset_faces]. split.
    + intros (r & H).
      destruct (take points f) as [ps|e] eqn:Et; [|discriminate]. cbn [bind] in H.
      destruct (offset_face fac d ps) as [o|e] eqn:Eo; [|discriminate]. cbn [bind] in H.
      destruct (offset_faces fac d points (offset + length o) faces) as [r'|e] eqn:Er; [|discriminate].
      constructor.
      * destruct (proj1 (offset_face_ok fac d ps) (ex_intro _ o Eo)) as (Hne & k & Hk).
        exists ps, k. split; [apply take_picks; exact Et | auto].
      * apply (IH (offset + length o)%nat). eauto.
    + intros H. inversion H as [|? ? (ps & k & Hp & Hne & Hk) Hr]; subst.
      apply take_picks in Hp. rewrite Hp. cbn [bind].
      destruct (proj2 (offset_face_ok fac d ps)) as (o & Ho); [eauto|]. rewrite Ho. cbn [bind].
      destruct (proj2 (IH (offset + length o)%nat) Hr) as (r & Er). rewrite Er. cbn [bind]. eauto.
Qed.

Lemma offset_ok points faces d :
  (exists r, offset_polygon points faces d = Ok r) <->
  faces <> [] /\
  (d = 0 \/ Forall (fun f => exists ps k, picks points f ps /\ ps <> [] /\ only_constant k ps) faces).
Proof.
  unfold offset_polygon. destruct faces as [|f faces].
  { split; [intros (r & H); discriminate | intros [H _]; congruence]. }
  destruct (Rlt_dec 0 d) as [P|P]; [|destruct (Rlt_dec d 0) as [Q|Q]].
  - rewrite offset_faces_ok. split; [intros H; split; [discriminate | right; exact H]|].
    intros [_ [H|H]]; [lra | exact H].
  - rewrite offset_faces_ok. split; [intros H; split; [discriminate | right; exact H]|].
    intros [_ [H|H]]; [lra | exact H].
  - split; [intros _; split; [discriminate | left; lra] | eauto].
Qed.

Lemma offset_faces_err fac d points : forall faces offset e,
  Forall (fun f => exists ps, picks points f ps) faces ->
  offset_faces fac d points offset faces = Err e -> e = ValueError.
Proof.
  induction faces as [|f faces IH]; intros offset e H; cbn [offset_faces]; [discriminate|].
  inversion H as [|? ? (ps & Hp) Hr]; subst. apply take_picks in Hp. rewrite Hp. cbn [bind].
  destruct (offset_face fac d ps) as [o|e'] eqn:Eo; cbn [bind].
  - destruct (offset_faces fac d points (offset + length o) faces) as [r|e'] eqn:Er; cbn [bind]; [discriminate|].
    intros [= <-]. eapply IH; eauto.
  - intros [= <-]. eapply offset_face_err; eauto.
Qed.

Lemma offset_err points faces d e :
  Forall (fun f => exists ps, picks points f ps) faces ->
  offset_polygon points faces d = Err e -> e = ValueError.
Proof.
  intros H. unfold offset_polygon. destruct faces as [|f faces]; [congruence|].
  destruct (Rlt_dec 0 d); [apply offset_faces_err; exact H|].
  destruct (Rlt_dec d 0); [apply offset_faces_err; exact H | discriminate].
Qed.

(* ---- direction ---- *)
Lemma offset_outward points faces d out ids :
  d <> 0 -> offset_polygon points faces d = Ok (out, ids) ->
  Forall2 (fun f i => exists ps qs k, picks points f ps /\ picks out i qs /\ only_constant k ps /\
    (sgn (shoelace_twice_closed (map (in_plane k) ps)) = sgn (shoelace (map (in_plane k) ps)) ->
     moved_right k (sgn (shoelace (map (in_plane k) ps)) * d) ps qs)) faces ids.
Proof.
  intros Hd H. apply offset_spec in H as [_ H]; [|exact Hd].
  induction H as [|f i fs is (ps & qs & k & H1 & H2 & H3 & H4 & _) _ IH]; constructor; [|exact IH].
  exists ps, qs, k. split; [exact H1|]. split; [exact H2|]. split; [exact H3|].
  intros E; rewrite <- E; exact H4.
Qed.

Lemma Forall2_diag {A} (P : A -> A -> Prop) l : (forall x, In x l -> P x x) -> Forall2 P l l.
Proof. intros H. induction l; constructor; [apply H; left; reflexivity | apply IHl; intros; apply H; right; assumption]. Qed.

Lemma offset_plane points faces d out ids :
  offset_polygon points faces d = Ok (out, ids) ->
  Forall2 (fun f i => forall ps, picks points f ps ->
    exists qs, picks out i qs /\
    ((d = 0 /\ qs = map Some ps) \/
     (d <> 0 /\ exists k, only_constant k ps /\
      forall p x, In p ps -> In (Some x) qs -> coord k p = 0 -> coord k x = coord k p))) faces ids.
Proof.
  intros H. destruct (Req_dec d 0) as [-> | Hd].
  - assert (Hf : faces <> []) by (intros ->; discriminate).
    rewrite offset_zero in H by exact Hf. apply Ok_inj, pair_equal_spec in H as [<- <-].
    apply Forall2_diag. intros f _ ps Hp. exists (map Some ps). split; [|left; auto].
    unfold picks in *. induction Hp as [|i x l m E _ IH]; cbn; constructor; auto.
    rewrite nth_error_map, E. reflexivity.
  - apply offset_spec in H as [_ H]; [|exact Hd].
    induction H as [|f i fs is (ps & qs & k & H1 & H2 & H3 & H4 & H5) _ IH]; constructor; [|exact IH].
    intros ps' H1'. assert (ps' = ps) by (eapply picks_fun; eauto). subst ps'.
    exists qs. split; [exact H2|]. right. split; [exact Hd|]. exists k. split; [exact H3|].
    intros p x Hp Hx E. rewrite E. rewrite Forall_forall in H5. exact (H5 _ Hx x eq_refl).
Qed.

(* ---- counterexamples ---- *)
Definition square10 : list pt := [(10, 0, 0); (11, 0, 0); (11, 1, 0); (10, 1, 0)].
Definition square_z1 : list pt := [(0, 0, 1); (1, 0, 1); (1, 1, 1); (0, 1, 1)].

Lemma only_constant_2 ps c :
  (forall p, In p ps -> coord 2 p = c) ->
  (exists p q, In p ps /\ In q ps /\ coord 0 p <> coord 0 q) ->
  (exists p q, In p ps /\ In q ps /\ coord 1 p <> coord 1 q) -> only_constant 2 ps.
Proof.
  intros Hc (p0 & q0 & Hp0 & Hq0 & N0) (p1 & q1 & Hp1 & Hq1 & N1). split; [lia|].
  intros j Hj. split.
  - intros -> p q Hp Hq. rewrite (Hc p Hp), (Hc q Hq). reflexivity.
  - intros H. destruct j as [|[|[|j]]]; try lia.
    + exfalso. apply N0, H; assumption.
    + exfalso. apply N1, H; assumption.
Qed.

Lemma square_constant (x z : R) ps :
  ps = [(x, 0, z); (x + 1, 0, z); (x + 1, 1, z); (x, 1, z)] -> only_constant 2 ps.
Proof.
  intros ->. apply only_constant_2 with (c := z).
  - intros p Hp. cbn [In] in Hp. repeat destruct Hp as [<- | Hp]; try reflexivity. contradiction.
  - exists (x, 0, z), (x + 1, 0, z). cbn. split; [auto|]. split; [auto|]. lra.
  - exists (x, 0, z), (x, 1, z). cbn. split; [auto|]. split; [auto 6|]. lra.
Qed.

Lemma only_constant_unique j k ps : only_constant j ps -> only_constant k ps -> j = k.
Proof.
  intros [Hj J] [Hk K]. apply K; [exact Hj|]. apply J; [exact Hj | reflexivity].
Qed.

Lemma square10_constant : only_constant 2 square10.
Proof.
  apply (square_constant 10 0). unfold square10.
  replace (10 + 1) with 11 by ring. reflexivity.
Qed.

Lemma four_picks {A} (a b c d : A) : picks [a; b; c; d] [0; 1; 2; 3]%nat [a; b; c; d].
Proof. repeat constructor. Qed.

Lemma square_offset ps d : 0 < d -> length ps = 4%nat -> only_constant 2 ps ->
  exists out, offset_polygon ps [[0; 1; 2; 3]%nat] d = Ok (out, [[0; 1; 2; 3]%nat]) /\
    moved_right 2 (sgn (shoelace_twice_closed (map (in_plane 2) ps)) * d) ps out /\
    Forall (fun q => forall x, q = Some x -> coord 2 x = 0) out.
Proof.
  intros Hd Hl Hc.
  destruct ps as [|a [|b [|c [|e [|? ?]]]]]; try discriminate. set (ps := [a; b; c; e]) in *.
  assert (Hp : picks ps [0; 1; 2; 3]%nat ps) by apply four_picks.
  assert (Hne : ps <> []) by (subst ps; discriminate).
  destruct (proj2 (offset_ok ps [[0; 1; 2; 3]%nat] d)) as ([out ids] & E).
  { split; [discriminate|]. right. constructor; [|constructor]. exists ps, 2%nat. auto. }
  destruct (offset_spec _ _ _ _ _ (Rgt_not_eq _ _ Hd) E) as [E1 E2].
  inversion E2 as [|? i ? ? Hf Hr]; subst. inversion Hr; subst.
  destruct Hf as (ps' & qs & k & H1 & H2 & H3 & H4 & H5).
  assert (ps' = ps) by (eapply picks_fun; eauto). subst ps'.
  assert (k = 2%nat) by (eapply only_constant_unique; eauto). subst k.
  cbn [concat] in E1. rewrite app_nil_r in E1.
  assert (Eq : qs = out).
  { eapply picks_fun; [exact H2|]. rewrite E1.
    assert (Q := picks_seq [] out []). cbn [length app] in Q. rewrite app_nil_r in Q. exact Q. }
  subst qs. exists out. split; [|auto].
  rewrite E. f_equal. f_equal. f_equal. rewrite E1. destruct H4 as [H4 _]. rewrite H4. reflexivity.
Qed.

Lemma offset_inward :
  exists (d : R) (out : list (option pt)) x y,
    0 < d /\ 0 < shoelace (map (in_plane 2) square10) /\
    offset_polygon square10 [[0; 1; 2; 3]%nat] d = Ok (out, [[0; 1; 2; 3]%nat]) /\
    nth_error out 0 = Some (Some (x, y, 0)) /\ 10 < x < 11 /\ 0 < y < 1.
Proof.
  destruct (square_offset square10 (1 / 4) ltac:(lra) eq_refl square10_constant) as (out & E & Hm & Hz).
  exists (1 / 4), out, (10 + 1 / 4), (1 / 4).
  split; [lra|].
  split.
  { unfold shoelace, square10. cbn. unfold det2. cbn [fst snd]. lra. }
  split; [exact E|].
  assert (W : sgn (shoelace_twice_closed (map (in_plane 2) square10)) = -1).
  { assert (H : shoelace_twice_closed (map (in_plane 2) square10) = -8).
    { unfold shoelace_twice_closed, shoelace, square10. cbn. unfold det2. cbn [fst snd]. ring. }
    rewrite H. unfold sgn. destruct (Rlt_dec 0 (-8)); [lra|]. destruct (Rlt_dec (-8) 0); [reflexivity | lra]. }
  rewrite W in Hm. destruct Hm as [Hl Hm].
  destruct (Hm 0%nat (10, 1) (10, 0) (11, 0)) as (q & Hq & Hnone & Hsome).
  { repeat split; reflexivity. }
  destruct q as [[[x y] z]|].
  - specialize (Hsome _ eq_refl) as (H1 & H2 & _).
    assert (Z : z = 0).
    { rewrite Forall_forall in Hz. exact (Hz _ (nth_error_In _ _ Hq) _ eq_refl). }
    unfold right_of, det2, sub2, len2, dot2 in H1, H2. cbn [in_plane fst snd] in H1, H2.
    replace ((10 - 10) * (10 - 10) + (0 - 1) * (0 - 1)) with 1 in H1 by ring.
    replace ((11 - 10) * (11 - 10) + (0 - 0) * (0 - 0)) with 1 in H2 by ring.
    rewrite sqrt_1 in H1, H2.
    split; [|lra]. rewrite Hq. repeat f_equal; lra.
  - exfalso. destruct (proj1 Hnone eq_refl) as [H | [H | [H | H]]].
    + injection H. lra.
    + injection H. lra.
    + destruct H as [H _]. unfold det2, sub2 in H. cbn [fst snd] in H. lra.
    + lra.
Qed.

Lemma offset_leaves_plane :
  exists (d : R) (out : list (option pt)) x,
    (forall p, In p square_z1 -> coord 2 p = 1) /\
    offset_polygon square_z1 [[0; 1; 2; 3]%nat] d = Ok (out, [[0; 1; 2; 3]%nat]) /\
    nth_error out 0 = Some (Some x) /\ coord 2 x = 0.
Proof.
  assert (C : only_constant 2 square_z1).
  { apply (square_constant 0 1). unfold square_z1. replace (0 + 1) with 1 by ring. reflexivity. }
  destruct (square_offset square_z1 1 ltac:(lra) eq_refl C) as (out & E & Hm & Hz).
  assert (W : sgn (shoelace_twice_closed (map (in_plane 2) square_z1)) = 1).
  { assert (H : shoelace_twice_closed (map (in_plane 2) square_z1) = 2).
    { unfold shoelace_twice_closed, shoelace, square_z1. cbn. unfold det2. cbn [fst snd]. ring. }
    rewrite H. unfold sgn. destruct (Rlt_dec 0 2); [reflexivity | lra]. }
  rewrite W in Hm. destruct Hm as [Hl Hm].
  destruct (Hm 0%nat (0, 1) (0, 0) (1, 0)) as (q & Hq & Hnone & Hsome).
  { repeat split; reflexivity. }
  destruct q as [x|].
  - exists 1, out, x. split.
    { intros p Hp. unfold square_z1 in Hp. cbn [In] in Hp.
      repeat destruct Hp as [<- | Hp]; try reflexivity. contradiction. }
    split; [exact E|]. split; [exact Hq|].
    rewrite Forall_forall in Hz. exact (Hz _ (nth_error_In _ _ Hq) _ eq_refl).
  - exfalso. destruct (proj1 Hnone eq_refl) as [H | [H | [H | H]]].
    + injection H. lra.
    + injection H. lra.
    + destruct H as [H _]. unfold det2, sub2 in H. cbn [fst snd] in H. lra.
    + lra.
Qed.
