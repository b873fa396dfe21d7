From Coq Require Import Reals Lra Lia Sorted.
From Verif Require Import Prelude RealAux Perc_model Perc_proof Grid Surface_model Surface_spec Surface_proof Volume_model
  Groups_model Lines_model Lines_spec Lines1_proof Voronoi_model Objects_model Objects_spec Objects1_proof Objects3_proof Objects5_proof
  Seeds_model Seeds_spec Seeds1_proof Seeds3_proof Seeds4_proof Seeds5_proof.
Open Scope R_scope.
Local Notation at_ l k := (nth k l z2).

(* core cells *)
Lemma filter_none {A} (f : A -> bool) l : (forall x, In x l -> f x = false) -> filter f l = [].
Proof. induction l as [|x l IH]; cbn; intros H; [reflexivity|]. rewrite (H x) by auto. apply IH. auto. Qed.
Lemma filter_all {A} (f : A -> bool) l : (forall x, In x l -> f x = true) -> filter f l = l.
Proof. induction l as [|x l IH]; cbn; intros H; [reflexivity|]. rewrite (H x) by auto. f_equal. apply IH. auto. Qed.
Lemma filter_flat_map {A B} (f : B -> bool) (g : A -> list B) l : filter f (flat_map g l) = flat_map (fun x => filter f (g x)) l.
Proof. induction l as [|x l IH]; cbn; [reflexivity|]. rewrite filter_app. congruence. Qed.

Lemma row_core n m cs ce j : (cs + ce <= n)%nat -> (0 < j)%nat -> (j + 1 < m)%nat ->
  filter (core n m cs ce) (map (fun i => (i, j)) (seq 0 n)) = map (fun i => (i, j)) (seq cs (n - cs - ce)).
Proof.
  intros H Hj1 Hj2.
  replace (seq 0 n) with (seq 0 cs ++ seq cs (n - cs - ce) ++ seq (n - ce) ce).
  2:{ replace (n - ce)%nat with (cs + (n - cs - ce))%nat by lia. rewrite <- seq_app. change cs with (0 + cs)%nat at 2. rewrite <- seq_app. f_equal. lia. }
  rewrite !map_app, !filter_app.
  rewrite (filter_none _ (map _ (seq 0 cs))), (filter_all _ (map _ (seq cs _))), (filter_none _ (map _ (seq (n - ce) _))), app_nil_r; [reflexivity| | |].
  all: intros ij Hij; apply in_map_iff in Hij as (i & <- & Hi); apply in_seq in Hi; unfold core; cbn [fst snd];
    destruct (Nat.leb_spec cs i), (Nat.ltb_spec (i + ce) n), (Nat.ltb_spec 0 j), (Nat.ltb_spec (j + 1) m); cbn; auto; lia.
Qed.

Lemma core_three n cs ce : (cs + ce <= n)%nat ->
  filter (core n 3 cs ce) (cell_indices n 3) = map (fun i => (i, 1%nat)) (seq cs (n - cs - ce)).
Proof.
  intros H. unfold cell_indices. cbn [seq flat_map]. rewrite !filter_app, app_nil_r.
  rewrite (row_core n 3 cs ce 1) by lia. rewrite (filter_none _ (map _ _)).
  2:{ intros ij Hij. apply in_map_iff in Hij as (i & <- & Hi). unfold core. cbn [fst snd]. rewrite andb_false_r. reflexivity. }
  rewrite (filter_none _ (map _ _)), app_nil_r; [reflexivity|].
  intros ij Hij. apply in_map_iff in Hij as (i & <- & Hi). unfold core. cbn [fst snd]. rewrite andb_false_r. reflexivity.
Qed.

(* centers *)
Definition center_at (w : R) (E N : list vec) (P : list R) (i j : nat) : vec :=
  let s := (nth j P 0 + nth (S j) P 0) / 2 - / 2 in
  ((fst (at_ E i) + fst (at_ E (S i))) / 2 + s * w * (fst (at_ N i) + fst (at_ N (S i))) / 2,
   (snd (at_ E i) + snd (at_ E (S i))) / 2 + s * w * (snd (at_ N i) + snd (at_ N (S i))) / 2).

Lemma strip_center axis w E N P i j : mean_point (strip_cell axis w E N P (i, j)) = embed axis (center_at w E N P i j).
Proof.
  unfold strip_cell, strip_node, mean_point, center_at, across.
  set (a := nth j P 0). set (b := nth (S j) P 0).
  set (e := nth i E (0, 0)). set (f := nth (S i) E (0, 0)). set (m := nth i N (0, 0)). set (n := nth (S i) N (0, 0)).
  clearbody a b e f m n. destruct e as [ex ey], f as [fx fy], m as [mx my], n as [nx ny].
  assert (L : INR (length [O; O; O; O]) = 4) by (cbn; lra).
  change (length [O; O; O; O]) with 4%nat in L.
  unfold embed. destruct axis as [|[|k]]; cbn [fst snd length]; rewrite L; cbn [total fold_right xyz];
    repeat match goal with |- (_, _) = (_, _) => apply f_equal2 end; field.
Qed.

Lemma center_half w E N P i j : nth j P 0 = 0 -> nth (S j) P 0 = 1 -> center_at w E N P i j = halfway (at_ E i) (at_ E (S i)).
Proof. intros H0 H1. unfold center_at, halfway. rewrite H0, H1. f_equal; field. Qed.

Lemma widened_01 P : widened [0; 1] P -> P = [-1; 0; 1; 2].
Proof.
  intros (L & H & M). cbn [length] in L. destruct P as [|a [|b [|c [|d [|]]]]]; cbn in L; try lia.
  pose proof (H 0%nat 0 eq_refl) as H0. pose proof (H 1%nat 1 eq_refl) as H1. cbn in H0, H1. injection H0 as ->. injection H1 as ->.
  pose proof (M 0%nat _ _ _ (or_introl eq_refl) eq_refl eq_refl eq_refl). pose proof (M 1%nat _ _ _ (or_intror eq_refl) eq_refl eq_refl eq_refl).
  repeat f_equal; lra.
Qed.

Section sites.
Variables (axis : nat) (width : R) (pref : preference) (padding : option R) (cs ce : nat) (points : list pt) (prio : Z) (group : string).
Variables it1 it2 : vitem (list pt).

Lemma sites_simple P : (2 <= length points)%nat -> widened [0; 1] P -> draws axis width pref padding cs ce P points prio group it1 it2 ->
  exists Q, drawn (padding_of width padding) pref (map (project axis) points) Q /\
    length (cells_of it1) = (length Q - 1)%nat /\
    forall k a b, nth_error Q k = Some a -> nth_error Q (S k) = Some b ->
      exists c, nth_error (cells_of it1) k = Some c /\ mean_point c = embed axis (halfway a b).
Proof.
  intros L HP%widened_01 (Q & E & N & HQ & HE & LN & _ & H1 & _). subst P. exists Q. split; [exact HQ|].
  destruct HE as (LE & HE & _). cbn [length] in H1. change (4 - 1)%nat with 3%nat in H1.
  assert (LQ : (2 <= length Q)%nat).
  { inversion HQ; subst; [rewrite map_length; lia|]. rewrite map_length in *. lia. }
  rewrite core_three in H1 by lia. rewrite map_map in H1. rewrite H1, map_length, seq_length. split; [lia|].
  intros k a b Ha Hb. assert (Hk : (S k < length Q)%nat) by (apply nth_error_Some; congruence).
  rewrite nth_error_map, nth_error_seq.
  destruct (Nat.ltb_spec k (length E - 1 - cs - ce)); [|lia]. eexists. split; [reflexivity|].
  rewrite strip_center, center_half by reflexivity.
  pose proof (nth_error_at _ _ _ (HE k a Ha)) as E1. pose proof (nth_error_at _ _ _ (HE (S k) b Hb)) as E2.
  rewrite Nat.add_succ_r in E2. rewrite E1, E2. reflexivity.
Qed.
End sites.

(* C114 *)
Lemma point_sites axis width padding cs ce points prio group it1 it2 P : (2 <= length points)%nat -> widened [0; 1] P ->
  draws axis width PrefPoint padding cs ce P points prio group it1 it2 ->
  length (cells_of it1) = (length points - 1)%nat /\
  forall k a b, nth_error points k = Some a -> nth_error points (S k) = Some b ->
    exists c, nth_error (cells_of it1) k = Some c /\ mean_point c = in_plane axis (scale (/ 2) (add3 a b)).
Proof.
  intros L HP HD. destruct (sites_simple _ _ _ _ _ _ _ _ _ _ _ P L HP HD) as (Q & HQ & LQ & H).
  inversion HQ; subst. rewrite map_length in LQ. split; [exact LQ|].
  intros k a b Ha Hb. destruct (H k (project axis a) (project axis b)) as (c & Hc & Hm).
  - rewrite nth_error_map, Ha. reflexivity.
  - rewrite nth_error_map, Hb. reflexivity.
  - exists c. split; [exact Hc|]. rewrite Hm. destruct a as [[ax ay] az], b as [[bx by_] bz].
    unfold halfway, embed, project, in_plane, scale, add3. destruct axis as [|[|n]]; cbn [fst snd];
      repeat match goal with |- (_, _) = (_, _) => apply f_equal2 end; field.
Qed.

Lemma cell_sites axis width padding cs ce points prio group it1 it2 P : (2 <= length points)%nat -> widened [0; 1] P ->
  draws axis width PrefCell padding cs ce P points prio group it1 it2 ->
  length (cells_of it1) = length points /\
  (forall k a b c, nth_error points k = Some a -> nth_error points (S k) = Some b -> nth_error points (S (S k)) = Some c ->
    exists cl, nth_error (cells_of it1) (S k) = Some cl /\
      mean_point cl = in_plane axis (scale (/ 4) (add3 (add3 a c) (scale 2 b)))) /\
  (forall a b, nth_error points 0 = Some a -> nth_error points 1 = Some b ->
    exists cl, nth_error (cells_of it1) 0 = Some cl /\
      mean_point cl = embed axis (halfway (beyond (padding_of width padding) (project axis a) (project axis b))
                                          (halfway (project axis a) (project axis b)))) /\
  (forall a b, nth_error points (length points - 2) = Some a -> nth_error points (length points - 1) = Some b ->
    exists cl, nth_error (cells_of it1) (length points - 1) = Some cl /\
      mean_point cl = embed axis (halfway (halfway (project axis a) (project axis b))
                                          (beyond (padding_of width padding) (project axis b) (project axis a)))).
Proof.
  intros L HP HD. destruct (sites_simple _ _ _ _ _ _ _ _ _ _ _ P L HP HD) as (Q & HQ & LQ & H).
  inversion HQ as [|? ? p0 p1 q0 q1 L' A0 A1 B0 B1 C0 C1 M]; subst. rewrite !map_length in *. rewrite LQ, L'.
  split; [lia|].
  assert (PJ : forall k a, nth_error points k = Some a -> nth_error (map (project axis) points) k = Some (project axis a)).
  { intros k a Ha. now rewrite nth_error_map, Ha. }
  split; [|split].
  - intros k a b c Ha Hb Hc.
    destruct (H (S k) (halfway (project axis a) (project axis b)) (halfway (project axis b) (project axis c))) as (cl & Hcl & Hm).
    + apply M; auto.
    + apply M; auto.
    + exists cl. split; [exact Hcl|]. rewrite Hm. destruct a as [[ax ay] az], b as [[bx by_] bz], c as [[cx cy] cz].
      unfold halfway, embed, project, in_plane, scale, add3. destruct axis as [|[|n]]; cbn [fst snd];
        repeat match goal with |- (_, _) = (_, _) => apply f_equal2 end; field.
  - intros a b Ha Hb. rewrite (PJ _ _ Ha) in A0. rewrite (PJ _ _ Hb) in A1. injection A0 as <-. injection A1 as <-.
    destruct (H 0%nat _ _ C0 (M 0%nat _ _ (PJ _ _ Ha) (PJ _ _ Hb))) as (cl & Hcl & Hm). eauto.
  - intros a b Ha Hb. rewrite (PJ _ _ Ha) in B1. rewrite (PJ _ _ Hb) in B0. injection B0 as <-. injection B1 as <-.
    assert (M' : nth_error Q (length points - 1) = Some (halfway (project axis a) (project axis b))).
    { replace (length points - 1)%nat with (S (length points - 2)) by lia. apply M; auto.
      replace (S (length points - 2)) with (length points - 1)%nat by lia. auto. }
    destruct (H (length points - 1)%nat _ (beyond (padding_of width padding) (project axis b) (project axis a)) M') as (cl & Hcl & Hm); [|eauto].
    replace (S (length points - 1)) with (length points) by lia. exact C1.
Qed.

(* mirror images *)
Lemma left_normal_unique a b a' b' n n' k : left_normal a b n -> left_normal a' b' n' -> 0 < k ->
  fst b' - fst a' = k * (fst b - fst a) -> snd b' - snd a' = k * (snd b - snd a) -> n' = n.
Proof.
  intros (U & O & D) (U' & O' & D') Hk E1 E2. rewrite E1, E2 in *. clear E1 E2 a' b'.
  set (x := fst b - fst a) in *. set (y := snd b - snd a) in *. clearbody x y.
  destruct n as [u v], n' as [u' v']. cbn [fst snd] in *.
  set (s := x * v - y * u) in *. set (s' := k * x * v' - k * y * u') in *.
  assert (Hs : s * s = x * x + y * y).
  { replace (x * x + y * y) with ((x * x + y * y) * (u * u + v * v)) by (rewrite U; ring).
    replace (s * s) with ((x * x + y * y) * (u * u + v * v) - (x * u + y * v) * (x * u + y * v)) by (unfold s; ring).
    rewrite O. ring. }
  assert (Hs' : s' * s' = k * k * (x * x + y * y)).
  { replace (k * k * (x * x + y * y)) with (k * k * (x * x + y * y) * (u' * u' + v' * v')) by (rewrite U'; ring).
    replace (s' * s') with (k * k * (x * x + y * y) * (u' * u' + v' * v') - (k * x * u' + k * y * v') * (k * x * u' + k * y * v')) by (unfold s'; ring).
    rewrite O'. ring. }
  assert (E : s' = k * s).
  { assert (F : (s' - k * s) * (s' + k * s) = 0) by (replace ((s' - k * s) * (s' + k * s)) with (s' * s' - k * k * (s * s)) by ring; rewrite Hs', Hs; ring).
    assert (0 < k * s) by (apply Rmult_lt_0_compat; assumption).
    apply Rmult_integral in F as [F|F]; lra. }
  assert (L : 0 < x * x + y * y) by nra.
  assert (Eu : u * (x * x + y * y) = - y * s) by (replace (u * (x * x + y * y)) with (x * (x * u + y * v) - y * s) by (unfold s; ring); rewrite O; ring).
  assert (Ev : v * (x * x + y * y) = x * s) by (replace (v * (x * x + y * y)) with (y * (x * u + y * v) + x * s) by (unfold s; ring); rewrite O; ring).
  assert (Eu' : k * u' * (x * x + y * y) = - y * s').
  { replace (k * u' * (x * x + y * y)) with (x * (k * x * u' + k * y * v') - y * s') by (unfold s'; ring). rewrite O'. ring. }
  assert (Ev' : k * v' * (x * x + y * y) = x * s').
  { replace (k * v' * (x * x + y * y)) with (y * (k * x * u' + k * y * v') + x * s') by (unfold s'; ring). rewrite O'. ring. }
  rewrite E in Eu', Ev'.
  f_equal; (apply Rmult_eq_reg_r with (x * x + y * y); [|lra]); (apply Rmult_eq_reg_l with k; [|lra]); [rewrite Eu|rewrite Ev]; lra.
Qed.

Definition dirs (E : list vec) (i k : nat) (d : vec) : Prop := forall l a b, (i <= l < k)%nat ->
    nth_error E l = Some a -> nth_error E (S l) = Some b ->
    exists c, 0 < c /\ fst b - fst a = c * fst d /\ snd b - snd a = c * snd d.

Lemma around_dir E i k d l a b : dirs E i k d -> (i <= l - 1)%nat -> (S l <= k)%nat -> (2 <= length E)%nat -> (l < length E)%nat ->
  around E l a b -> exists c, 0 < c /\ fst b - fst a = c * fst d /\ snd b - snd a = c * snd d.
Proof.
  intros H Hi Hk L Hl (Ha & Hb). destruct l as [|l].
  - cbn [Nat.sub] in *. destruct Hb as [Hb|(Hb & _)]; [|apply nth_error_None in Hb; lia]. apply (H 0%nat); auto.
  - cbn [Nat.sub] in *. rewrite Nat.sub_0_r in *.
    assert (He : nth_error E (S l) = Some (at_ E (S l))) by (apply at_nth_error; lia).
    destruct (H l _ _ ltac:(lia) Ha He) as (c1 & P1 & X1 & Y1).
    destruct Hb as [Hb|(_ & Hb)].
    + destruct (H (S l) _ _ ltac:(lia) He Hb) as (c2 & P2 & X2 & Y2). exists (c1 + c2). split; [lra|]. split; lra.
    + rewrite He in Hb. injection Hb as <-. exists c1. auto.
Qed.

Lemma around_ex (E : list vec) k : (k < length E)%nat -> exists a b, around E k a b.
Proof.
  intros H. unfold around. exists (at_ E (k - 1)).
  destruct (nth_error E (S k)) as [b|] eqn:Eb.
  - exists b. split; [apply at_nth_error; lia|auto].
  - exists (at_ E k). split; [apply at_nth_error; lia|]. right. split; [reflexivity|]. now apply at_nth_error.
Qed.

Lemma dir_ne (a b d : vec) c : d <> (0, 0) -> 0 < c -> fst b - fst a = c * fst d -> snd b - snd a = c * snd d -> a <> b.
Proof.
  intros Hd Hc E1 E2 ->. apply Hd. destruct d as [x y]. cbn in *.
  assert (c * x = 0) by lra. assert (c * y = 0) by lra.
  apply vec_eq; cbn; nra.
Qed.

Section normals.
Variables (E N : list vec).
Hypothesis HN : forall k a b, (k < length E)%nat -> around E k a b -> a <> b -> left_normal a b (at_ N k).

Lemma same_normal i k d l l' : d <> (0, 0) -> dirs E i k d -> (2 <= length E)%nat ->
  (i <= l - 1)%nat -> (S l <= k)%nat -> (l < length E)%nat ->
  (i <= l' - 1)%nat -> (S l' <= k)%nat -> (l' < length E)%nat -> at_ N l' = at_ N l.
Proof.
  intros Hd H L H1 H2 H3 H1' H2' H3'.
  destruct (around_ex E l H3) as (a & b & A). destruct (around_ex E l' H3') as (a' & b' & A').
  destruct (around_dir E i k d l a b) as (c & C1 & C2 & C3); auto.
  destruct (around_dir E i k d l' a' b') as (c' & C1' & C2' & C3'); auto.
  assert (Hi : / c * c = 1) by (apply Rinv_l; lra).
  assert (Hk : 0 < c' * / c) by (apply Rmult_lt_0_compat; [lra|apply Rinv_0_lt_compat; lra]).
  eapply left_normal_unique with (k := c' * / c).
  - apply (HN l a b); auto. exact (dir_ne a b d c Hd C1 C2 C3).
  - apply (HN l' a' b'); auto. exact (dir_ne a' b' d c' Hd C1' C2' C3').
  - exact Hk.
  - rewrite C2, C2'. replace (c' * / c * (c * fst d)) with (c' * (/ c * c) * fst d) by ring. rewrite Hi. ring.
  - rewrite C3, C3'. replace (c' * / c * (c * snd d)) with (c' * (/ c * c) * snd d) by ring. rewrite Hi. ring.
Qed.

Lemma perp_normal i k d l : d <> (0, 0) -> dirs E i k d -> (2 <= length E)%nat ->
  (i <= l - 1)%nat -> (S l <= k)%nat -> (l < length E)%nat -> fst d * fst (at_ N l) + snd d * snd (at_ N l) = 0.
Proof.
  intros Hd H L H1 H2 H3. destruct (around_ex E l H3) as (a & b & A).
  destruct (around_dir E i k d l a b) as (c & C1 & C2 & C3); auto.
  destruct (HN l a b) as (_ & O & _); auto; [exact (dir_ne a b d c Hd C1 C2 C3)|]. rewrite C2, C3 in O.
  assert (F : c * (fst d * fst (at_ N l) + snd d * snd (at_ N l)) = 0) by lra.
  apply Rmult_integral in F as [F|F]; lra.
Qed.
End normals.

Lemma dot_embed axis p q : dot (embed axis p) (embed axis q) = fst p * fst q + snd p * snd q.
Proof. destruct p, q, axis as [|[|]]; cbn; ring. Qed.
Lemma sub_embed axis p q : sub3 (embed axis p) (embed axis q) = embed axis (sub2 p q).
Proof. destruct p, q, axis as [|[|]]; unfold embed, sub3, sub2; cbn [fst snd]; repeat match goal with |- (_, _) = (_, _) => apply f_equal2 end; ring. Qed.
Lemma half_embed axis p q : scale (/ 2) (add3 (embed axis p) (embed axis q)) = embed axis (halfway p q).
Proof. destruct p, q, axis as [|[|]]; unfold embed, scale, add3, halfway; cbn [fst snd]; repeat match goal with |- (_, _) = (_, _) => apply f_equal2 end; field. Qed.
Lemma lerp_embed axis p q : lerp (/ 2) (embed axis p) (embed axis q) = embed axis (halfway p q).
Proof. destruct p, q, axis as [|[|]]; unfold embed, lerp, lerp1, halfway; cbn [fst snd]; repeat match goal with |- (_, _) = (_, _) => apply f_equal2 end; field. Qed.

Lemma mirror_embed axis (a b p q : vec) : halfway p q = halfway a b ->
  (fst q - fst p) * (fst b - fst a) + (snd q - snd p) * (snd b - snd a) = 0 ->
  mirror (embed axis a) (embed axis b) (embed axis p) (embed axis q).
Proof.
  intros H D. split.
  - rewrite !sub_embed, dot_embed. exact D.
  - exists (/ 2). rewrite half_embed, lerp_embed, H. reflexivity.
Qed.

Lemma mirror_sym a b p q : mirror a b p q -> mirror a b q p.
Proof.
  intros (D & t & H). split.
  - destruct a as [[? ?] ?], b as [[? ?] ?], p as [[? ?] ?], q as [[? ?] ?]. unfold vinner, vminus in *. lra.
  - exists t. rewrite <- H. destruct p as [[? ?] ?], q as [[? ?] ?]. unfold vtimes, vplus.
    repeat match goal with |- (_, _) = (_, _) => apply f_equal2 end; ring.
Qed.

Lemma in_indices n m i j : (i < n)%nat -> (j < m)%nat -> In (i, j) (cell_indices n m).
Proof.
  intros Hi Hj. unfold cell_indices. apply in_flat_map. exists j. split; [apply in_seq; lia|].
  apply in_map_iff. exists i. split; [reflexivity|apply in_seq; lia].
Qed.

Section mirrors.
Variables (axis : nat) (width : R) (pref : preference) (padding : option R) (cs ce : nat) (points : list pt) (prio : Z) (group : string).
Variables it1 it2 : vitem (list pt).
Variables p P : list R.

Lemma polyline_mirrors : (2 <= length points)%nat -> (2 <= length p)%nat -> widened p P ->
  draws axis width pref padding cs ce P points prio group it1 it2 ->
  exists Q E, drawn (padding_of width padding) pref (map (project axis) points) Q /\ prolonged cs ce Q E /\
  (forall i e f, (cs <= i)%nat -> (S i + ce < length E)%nat -> nth_error E i = Some e -> nth_error E (S i) = Some f ->
     straight E (i - 1) (i + 2) -> exists n, left_normal e f n /\
     forall t, nth_error p 0 = Some t \/ nth_error p (length p - 1) = Some t ->
       mirrored it1 it2 (embed axis (across width e n t)) (embed axis (across width f n t))) /\
  (forall i e, (i = cs /\ 0 < cs \/ S i = cs + length Q /\ 0 < ce)%nat -> nth_error E i = Some e ->
     straight E (i - 2) (i + 2) -> exists n, (forall a b, around E i a b -> left_normal a b n) /\
     forall j t t', nth_error p j = Some t -> nth_error p (S j) = Some t' ->
       mirrored it1 it2 (embed axis (across width e n t)) (embed axis (across width e n t'))).
Proof.
  intros L Lp (LP & WP & MP) (Q & E & N & HQ & HE & LN & HN & H1 & H2 & _). exists Q, E. split; [exact HQ|]. split; [exact HE|].
  assert (LQ : (2 <= length Q)%nat).
  { inversion HQ; subst; [rewrite map_length; lia|]. rewrite map_length in *. lia. }
  destruct HE as (LE & HEQ & HS & HF). assert (LE2 : (2 <= length E)%nat) by lia.
  assert (C1 : forall i j, (cs <= i)%nat -> (S i + ce < length E)%nat -> (0 < j)%nat -> (j + 2 < length P)%nat ->
    In (strip_cell axis width E N P (i, j)) (cells_of it1)).
  { intros i j A B C D. rewrite H1. apply in_map. apply filter_In. split; [apply in_indices; lia|].
    unfold core. cbn [fst snd]. destruct (Nat.leb_spec cs i), (Nat.ltb_spec (i + ce) (length E - 1)), (Nat.ltb_spec 0 j), (Nat.ltb_spec (j + 1) (length P - 1)); cbn; auto; lia. }
  assert (C2 : forall i j, (S i < length E)%nat -> (S j < length P)%nat ->
    (i < cs \/ length E <= S i + ce \/ j = 0 \/ j + 2 = length P)%nat ->
    In (strip_cell axis width E N P (i, j)) (cells_of it2)).
  { intros i j A B C. rewrite H2. apply in_map. apply filter_In. split; [apply in_indices; lia|].
    unfold core. cbn [fst snd]. destruct (Nat.leb_spec cs i), (Nat.ltb_spec (i + ce) (length E - 1)), (Nat.ltb_spec 0 j), (Nat.ltb_spec (j + 1) (length P - 1)); cbn; auto; lia. }
  assert (PN : forall k t, nth_error p k = Some t -> nth (S k) P 0 = t).
  { intros k t Ht. apply nth_of. apply WP. exact Ht. }
  assert (PP : forall k, (k < length P)%nat -> nth_error P k = Some (nth k P 0)) by (intros; now apply nth_error_nth').
  split.
  - intros i e f Hi1 Hi2 He Hf (_ & d & Hd & Hdir). fold (dirs E (i - 1) (i + 2) d) in Hdir.
    assert (SN : at_ N (S i) = at_ N i) by (eapply same_normal with (i := (i - 1)%nat) (k := (i + 2)%nat); eauto; lia).
    assert (PD : fst d * fst (at_ N i) + snd d * snd (at_ N i) = 0) by (eapply perp_normal with (i := (i - 1)%nat) (k := (i + 2)%nat); eauto; lia).
    assert (Ei : at_ E i = e) by (apply nth_of; auto). assert (Ef : at_ E (S i) = f) by (apply nth_of; auto).
    destruct (Hdir i e f ltac:(lia) He Hf) as (c & Cp & Cx & Cy).
    set (n := at_ N i) in *. exists n. split.
    + destruct (around_ex E i ltac:(lia)) as (a & b & A).
      destruct (around_dir E (i - 1) (i + 2) d i a b) as (c' & Cp' & Cx' & Cy'); auto; try lia.
      destruct (HN i a b) as (U & O & D); auto; [lia|exact (dir_ne a b d c' Hd Cp' Cx' Cy')|]. fold n in U, O, D. split; [exact U|].
      rewrite Cx, Cy. split; [nra|]. rewrite Cx', Cy' in D.
      assert (0 < c' * (fst d * snd n - snd d * fst n)) by lra.
      assert (0 < fst d * snd n - snd d * fst n) by (apply Rmult_lt_reg_l with c'; lra).
      replace (c * fst d * snd n - c * snd d * fst n) with (c * (fst d * snd n - snd d * fst n)) by ring. apply Rmult_lt_0_compat; lra.
    + (* common argument: node row j between the rows j - 1 and j *)
      assert (G : forall j, nth j P 0 + nth (S (S j)) P 0 = 2 * nth (S j) P 0 ->
        mirror (embed axis (across width e n (nth (S j) P 0))) (embed axis (across width f n (nth (S j) P 0)))
          (mean_point (strip_cell axis width E N P (i, j))) (mean_point (strip_cell axis width E N P (i, S j)))).
      { intros j Hj. rewrite !strip_center. unfold center_at. rewrite Ei, Ef, SN. fold n.
        apply mirror_embed.
        - unfold halfway, across. cbn [fst snd].
          set (x := nth j P 0) in *. set (y := nth (S j) P 0) in *. set (z := nth (S (S j)) P 0) in *. clearbody x y z.
          replace z with (2 * y - x) by lra. apply f_equal2; field.
        - unfold across. cbn [fst snd].
          replace (fst f) with (fst e + c * fst d) by lra. replace (snd f) with (snd e + c * snd d) by lra.
          set (x := nth j P 0) in *. set (y := nth (S j) P 0) in *. set (z := nth (S (S j)) P 0) in *. clearbody x y z.
          replace z with (2 * y - x) by lra.
          transitivity ((y - x) * width * c * (fst d * fst n + snd d * snd n)); [field|]. rewrite PD. ring. }
      assert (ND : forall j, strip_node axis width E N P i j = embed axis (across width e n (nth j P 0)) /\
        strip_node axis width E N P (S i) j = embed axis (across width f n (nth j P 0))).
      { intros j. unfold strip_node. rewrite SN, Ei, Ef. auto. }
      intros t [Ht|Ht].
      * pose proof (PN 0%nat t Ht) as E1.
        exists (strip_cell axis width E N P (i, 1%nat)), (strip_cell axis width E N P (i, 0%nat)).
        split; [apply C1; lia|]. split; [apply C2; lia|].
        unfold strip_cell at 1 2 3 4. destruct (ND 1%nat) as (-> & ->). rewrite E1.
        split; [cbn; auto|]. split; [cbn; auto|]. split; [cbn; auto|]. split; [cbn; auto|].
        apply mirror_sym. rewrite <- E1. apply G.
        eapply (MP 0%nat); [left; reflexivity| | |]; apply PP; lia.
      * pose proof (PN _ t Ht) as E1. set (q := (length p - 1)%nat) in *.
        assert (Hq : length P = S (S (S q))) by (unfold q; lia).
        exists (strip_cell axis width E N P (i, q)), (strip_cell axis width E N P (i, S q)).
        split; [apply C1; try lia|]. split; [apply C2; lia|].
        unfold strip_cell at 1 2 3 4. destruct (ND (S q)) as (-> & ->). rewrite E1.
        split; [cbn; auto|]. split; [cbn; auto|]. split; [cbn; auto|]. split; [cbn; auto|].
        rewrite <- E1. apply G.
        eapply (MP q); [right; lia| | |]; apply PP; lia.
  - intros i e Hi He (_ & d & Hd & Hdir). fold (dirs E (i - 2) (i + 2) d) in Hdir.
    assert (Hi' : (0 < i /\ S i < length E)%nat) by (destruct Hi as [(-> & ?)|(? & ?)]; lia).
    destruct Hi' as (Hi0 & HiL).
    assert (S1 : at_ N (i - 1) = at_ N i) by (eapply same_normal with (i := (i - 2)%nat) (k := (i + 2)%nat); eauto; lia).
    assert (S2 : at_ N (S i) = at_ N i) by (eapply same_normal with (i := (i - 2)%nat) (k := (i + 2)%nat); eauto; lia).
    assert (PD : fst d * fst (at_ N i) + snd d * snd (at_ N i) = 0) by (eapply perp_normal with (i := (i - 2)%nat) (k := (i + 2)%nat); eauto; lia).
    assert (Ei : at_ E i = e) by (apply nth_of; auto).
    set (n := at_ N i) in *. set (u := at_ E (i - 1)). set (v := at_ E (S i)).
    assert (Hu : nth_error E (i - 1) = Some u) by (apply at_nth_error; lia).
    assert (Hv : nth_error E (S i) = Some v) by (apply at_nth_error; lia).
    assert (MID : middle_of u e v).
    { destruct Hi as [(-> & ?)|(Hi & ?)].
      - apply (HS (cs - 1)%nat); [lia|exact Hu| |]; replace (S (cs - 1)) with cs by lia; assumption.
      - apply (HF (i - 1)%nat); [lia|exact Hu| |]; replace (S (i - 1)) with i by lia; assumption. }
    destruct (Hdir i e v ltac:(lia) He Hv) as (c & Cp & Cx & Cy).
    exists n. split.
    + intros a b A. apply HN; [lia|exact A|].
      destruct (around_dir E (i - 2) (i + 2) d i a b) as (c' & Cp' & Cx' & Cy'); auto; try lia. exact (dir_ne a b d c' Hd Cp' Cx' Cy').
    + intros j t t' Ht Ht'. pose proof (PN _ _ Ht) as Et. pose proof (PN _ _ Ht') as Et'.
      assert (Hj : (S j < length p)%nat) by (apply nth_error_Some; congruence).
      assert (G : mirror (embed axis (across width e n t)) (embed axis (across width e n t'))
         (mean_point (strip_cell axis width E N P ((i - 1)%nat, S j))) (mean_point (strip_cell axis width E N P (i, S j)))).
      { rewrite !strip_center. unfold center_at. replace (S (i - 1)) with i by lia. rewrite Ei, S1, S2, Et, Et'. fold n u v.
        destruct MID as (MX & MY). apply mirror_embed.
        - unfold halfway, across. cbn [fst snd]. replace (fst u) with (2 * fst e - fst v) by lra. replace (snd u) with (2 * snd e - snd v) by lra.
          apply f_equal2; field.
        - unfold across. cbn [fst snd].
          replace (fst u) with (fst e - c * fst d) by lra. replace (snd u) with (snd e - c * snd d) by lra.
          replace (fst v) with (fst e + c * fst d) by lra. replace (snd v) with (snd e + c * snd d) by lra.
          transitivity ((t' - t) * width * c * (fst d * fst n + snd d * snd n)); [field|]. rewrite PD. ring. }
      assert (ND : strip_node axis width E N P i (S j) = embed axis (across width e n t) /\
        strip_node axis width E N P i (S (S j)) = embed axis (across width e n t')).
      { unfold strip_node. rewrite Ei, Et, Et'. auto. }
      destruct Hi as [(Hi & ?)|(Hi & ?)].
      * exists (strip_cell axis width E N P (i, S j)), (strip_cell axis width E N P ((i - 1)%nat, S j)).
        split; [apply C1; lia|]. split; [apply C2; lia|].
        unfold strip_cell at 1 2 3 4. replace (S (i - 1)) with i by lia. destruct ND as (-> & ->).
        split; [cbn; auto|]. split; [cbn; auto|]. split; [cbn; auto|]. split; [cbn; auto|].
        apply mirror_sym. exact G.
      * exists (strip_cell axis width E N P ((i - 1)%nat, S j)), (strip_cell axis width E N P (i, S j)).
        split; [apply C1; lia|]. split; [apply C2; lia|].
        unfold strip_cell at 1 2 3 4. replace (S (i - 1)) with i by lia. destruct ND as (-> & ->).
        split; [cbn; auto|]. split; [cbn; auto|]. split; [cbn; auto|]. split; [cbn; auto|].
        exact G.
Qed.
End mirrors.
