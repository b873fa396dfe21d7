From Coq Require Import Reals Lra Lia Sorted.
From Verif Require Import Prelude RealAux Perc_model Perc_proof Grid Surface_model Surface_spec Surface_proof Volume_model
  Groups_model Lines_model Lines_spec Lines1_proof Voronoi_model Objects_model Objects_spec Objects1_proof Objects5_proof
  Seeds_model Seeds_spec Seeds1_proof Seeds3_proof.
Open Scope R_scope.
Local Notation at_ l k := (nth k l z2).

Lemma drop_project axis p : drop_axis axis p = project axis p.
Proof. destruct p as [[x y] z]. destruct axis as [|[|a]]; reflexivity. Qed.
Lemma insert_embed axis p : insert_axis axis p = embed axis p.
Proof. destruct p as [x y]. destruct axis as [|[|a]]; reflexivity. Qed.

(* 253-268 *)
Lemma middles_length l : length (middles l) = (length l - 1)%nat.
Proof. induction l as [|p [|q l] IH]; [reflexivity|reflexivity|]. cbn [middles length] in *. rewrite IH. lia. Qed.
Lemma middles_nth l k a b : nth_error l k = Some a -> nth_error l (S k) = Some b ->
  nth_error (middles l) k = Some (halfway a b).
Proof.
  revert k; induction l as [|p [|q l] IH]; intros k Ha Hb.
  - destruct k; discriminate.
  - destruct k as [|[|k]]; discriminate.
  - destruct k as [|k].
    + cbn in Ha, Hb. injection Ha as ->. injection Hb as ->. cbn. f_equal. unfold halfway, scale2, plus2. apply vec_eq; cbn; field.
    + change (nth_error (middles (p :: q :: l)) (S k)) with (nth_error (middles (q :: l)) k). apply IH; assumption.
Qed.
Lemma away_beyond d p q : away d p q = beyond d p q.
Proof.
  unfold away, beyond, plus2, scale2, sub2, norm2. cbn [fst snd]. apply vec_eq; cbn [fst snd]; unfold Rdiv; ring.
Qed.

Lemma rev_heads (l : list vec) q0 q1 r : rev l = q0 :: q1 :: r ->
  nth_error l (length l - 1) = Some q0 /\ nth_error l (length l - 2) = Some q1.
Proof.
  intros H. assert (E : l = rev r ++ [q1; q0]) by (rewrite <- (rev_involutive l), H; cbn; rewrite <- app_assoc; reflexivity).
  rewrite E, app_length. cbn [length]. set (n := length (rev r)).
  split; rewrite nth_error_app2 by (fold n; lia); fold n.
  - replace (n + 2 - 1 - n)%nat with 1%nat by lia. reflexivity.
  - replace (n + 2 - 2 - n)%nat with 0%nat by lia. reflexivity.
Qed.

Lemma axis_points_ok pref d Q : (2 <= length Q)%nat ->
  exists Q', axis_points pref d Q = Ok Q' /\ drawn d pref Q Q' /\ (2 <= length Q')%nat.
Proof.
  intros L. destruct pref; cbn [axis_points].
  - destruct Q as [|p0 [|p1 Q0]] eqn:EQ; cbn [length] in L; try lia. rewrite <- EQ in *.
    destruct (rev Q) as [|q0 [|q1 r]] eqn:Er;
      [apply (f_equal (@length _)) in Er; rewrite rev_length, EQ in Er; cbn in Er; lia
      |apply (f_equal (@length _)) in Er; rewrite rev_length, EQ in Er; cbn in Er; lia|].
    pose proof (rev_heads _ _ _ _ Er) as (R0 & R1).
    assert (LQ : (2 <= length Q)%nat) by (rewrite EQ; cbn; lia).
    eexists. split; [reflexivity|].
    assert (LL : length (away d p0 p1 :: middles Q ++ [away d q0 q1]) = S (length Q)).
    { cbn [length]. rewrite app_length, middles_length. cbn. lia. }
    split; [|lia].
    apply (drawn_cells d Q _ p0 p1 q0 q1); auto.
    + rewrite EQ. reflexivity.
    + rewrite EQ. reflexivity.
    + cbn. f_equal. apply away_beyond.
    + replace (length Q) with (S (length Q - 1)) at 1 by lia. cbn [nth_error].
      rewrite nth_error_app2; rewrite middles_length; [|lia]. rewrite Nat.sub_diag. cbn. f_equal. apply away_beyond.
    + intros k a b Ha Hb. cbn [nth_error]. assert (S k < length Q)%nat by (apply nth_error_Some; congruence).
      rewrite nth_error_app1 by (rewrite middles_length; lia). apply middles_nth; assumption.
  - exists Q. split; [reflexivity|]. split; [constructor|exact L].
Qed.

Lemma axis_points_bad pref d cs ce Q : (length Q < 2)%nat ->
  (let! ps := axis_points pref d Q in strip cs ce ps) = Err IndexError.
Proof. destruct Q as [|p [|q Q]]; cbn; intros; try lia; destruct pref; reflexivity. Qed.

(* 248 *)
Lemma ss_snoc l q y : StronglySorted Rle (l ++ [q]) -> q <= y -> StronglySorted Rle (l ++ [q; y]).
Proof.
  induction l as [|x l IH]; cbn; intros H Hy.
  - constructor; [constructor; constructor|constructor; [exact Hy|constructor]].
  - inversion H as [|? ? H1 H2]; subst. constructor; [apply IH; auto|].
    apply Forall_app in H2 as (H2 & H3). inversion H3; subst. apply Forall_app. split; [exact H2|].
    constructor; [assumption|]. constructor; [lra|constructor].
Qed.
Lemma ss_last l a b : StronglySorted Rle (l ++ [a; b]) -> a <= b.
Proof.
  induction l as [|x l IH]; cbn; intros H; inversion H as [|? ? H1 H2]; subst; [|auto]. inversion H2; assumption.
Qed.
Lemma ss_cons x p l : StronglySorted Rle (p :: l) -> x <= p -> StronglySorted Rle (x :: p :: l).
Proof.
  intros H Hx. constructor; [exact H|]. inversion H as [|? ? H1 H2]; subst. constructor; [exact Hx|].
  eapply Forall_impl; [|exact H2]. cbn. intros; lra.
Qed.
Lemma nth_error_past {A} (l m : list A) k j : length l = k -> nth_error (l ++ m) (k + j) = nth_error m j.
Proof. intros H. rewrite nth_error_app2 by lia. f_equal. lia. Qed.

Lemma nth_error_cons_S {A} (x : A) l k : nth_error (x :: l) (S k) = nth_error l k.
Proof. reflexivity. Qed.

Lemma extended_ok p : (2 <= length p)%nat -> exists P, extended_perc p = Ok P /\ widened p P /\
  (StronglySorted Rle p -> StronglySorted Rle P).
Proof.
  intros L. unfold extended_perc. destruct p as [|p0 [|p1 p']] eqn:Ep; cbn [length] in L; try lia. rewrite <- Ep in *.
  destruct (rev p) as [|q0 [|q1 r]] eqn:Er;
      [apply (f_equal (@length _)) in Er; rewrite rev_length, Ep in Er; cbn in Er; lia
      |apply (f_equal (@length _)) in Er; rewrite rev_length, Ep in Er; cbn in Er; lia|].
  assert (E2 : p = rev r ++ [q1; q0]) by (rewrite <- (rev_involutive p), Er; cbn; rewrite <- app_assoc; reflexivity).
  eexists. split; [reflexivity|].
  assert (Lp : length p = (length r + 2)%nat) by (rewrite E2, app_length, rev_length; reflexivity).
  split.
  - unfold widened. split; [cbn; rewrite app_length; cbn; lia|]. split.
    + intros k x Hx. cbn [nth_error]. rewrite nth_error_app1; [exact Hx|]. apply nth_error_Some. congruence.
    + intros k a b c [-> |Hk] Ha Hb Hc.
      * rewrite Ep in Ha, Hb, Hc. cbn in Ha, Hb, Hc. injection Ha as <-. injection Hb as <-. injection Hc as <-. ring.
      * cbn [length] in Hk. rewrite app_length in Hk. cbn [length] in Hk.
        assert (K : k = S (length r)) by lia. subst k. rewrite nth_error_cons_S in Ha, Hb, Hc.
        rewrite E2 in Ha, Hb, Hc. rewrite <- app_assoc in Ha, Hb, Hc.
        pose proof (rev_length r) as Lr.
        pose proof (nth_error_past (rev r) ([q1; q0] ++ [2 * q0 - q1]) (length r) 0 Lr) as G0.
        pose proof (nth_error_past (rev r) ([q1; q0] ++ [2 * q0 - q1]) (length r) 1 Lr) as G1.
        pose proof (nth_error_past (rev r) ([q1; q0] ++ [2 * q0 - q1]) (length r) 2 Lr) as G2.
        rewrite Nat.add_0_r in G0. rewrite Nat.add_comm in G1, G2. cbn [Nat.add] in G1, G2.
        rewrite G0 in Ha. rewrite G1 in Hb. rewrite G2 in Hc.
        cbn in Ha, Hb, Hc. injection Ha as <-. injection Hb as <-. injection Hc as <-. ring.
  - intros Hs. assert (Hq : q1 <= q0) by (rewrite E2 in Hs; eapply ss_last; eauto).
    assert (Hp : p0 <= p1) by (rewrite Ep in Hs; inversion Hs as [|? ? A B]; subst; inversion B; assumption).
    assert (H1 : StronglySorted Rle (p ++ [2 * q0 - q1])).
    { assert (E3 : p = (rev r ++ [q1]) ++ [q0]) by (rewrite <- app_assoc; exact E2).
      rewrite E3, <- app_assoc. apply ss_snoc; [rewrite <- E3; exact Hs|lra]. }
    rewrite Ep in H1 |- *. cbn [app] in *. apply ss_cons; [exact H1|lra].
Qed.

Lemma extended_bad p : (length p < 2)%nat -> extended_perc p = Err IndexError.
Proof. destruct p as [|p0 [|p1 p]]; cbn; intros; try lia; reflexivity. Qed.

Lemma perc_sorted r m p : resolution_to_perc r m = Ok p -> StronglySorted Rle p.
Proof.
  unfold resolution_to_perc. intros H.
  assert (G : forall (x : res (list R)) f, (let! q := x in Ok (np_sort (f q))) = Ok p -> StronglySorted Rle p).
  { intros [q|e] f E; cbn in E; [injection E as <-; apply np_sort_sorted|discriminate]. }
  destruct r; try discriminate; try (eapply G; exact H). injection H as <-. apply np_sort_sorted.
Qed.

Lemma sort_again p m : StronglySorted Rle p -> resolution_to_perc (ResArr p) m = Ok p.
Proof. intros H. cbn. f_equal. apply np_sort_id, H. Qed.

(* the plane of the strip *)
Definition plane_of (axis : nat) : string := (match axis with O => "yz" | S O => "xz" | _ => "xy" end)%string.

Lemma strip_surface areas axis a b P : length a = length b -> (2 <= length a)%nat -> (2 <= length P)%nat -> StronglySorted Rle P ->
  exists g, generate_surface_from_two_lines (D := unit) areas (LineArr a) (LineArr b) (plane_of axis) (ResArr P) None = Ok g /\
    surface_dims (sg_dims g) = [length a; length P] /\ length (sg_pts g) = (length a * length P)%nat /\
    (forall i j A B t, nth_error a i = Some A -> nth_error b i = Some B -> nth_error P j = Some t ->
      nth_error (sg_pts g) (i + length a * j) = Some (lerp t A B)).
Proof.
  intros L La LP S.
  assert (exists g : sgrid unit, generate_surface_from_two_lines areas (LineArr a) (LineArr b) (plane_of axis) (ResArr P) None = Ok g) as (g & Hg).
  { unfold generate_surface_from_two_lines. cbn [get_points bind]. rewrite <- L, Nat.eqb_refl. cbn [negb].
    rewrite (sort_again P None S). cbn [bind].
    assert (exists la lb, plane_axes (plane_of axis) la lb) as (la & lb & Hp).
    { unfold plane_of. destruct axis as [|[|n]]; do 2 eexists; constructor. }
    destruct (surface_points_defined _ _ _ a b P Hp) as ((dims & pts) & ->). cbn [bind]. eexists. reflexivity. }
  exists g. split; [exact Hg|]. apply surface_coords in Hg as (pa & pb & perc & ax & bx & Ha & Hb & Hl & Hr & Hpl & Hd & Hlen & Hat).
  cbn [get_points] in Ha, Hb. injection Ha as <-. injection Hb as <-. rewrite (sort_again P None S) in Hr. injection Hr as <-.
  assert (Hax : axis = 0%nat /\ ax = 1%nat /\ bx = 2%nat \/ axis = 1%nat /\ ax = 0%nat /\ bx = 2%nat \/ (2 <= axis)%nat /\ ax = 0%nat /\ bx = 1%nat).
  { unfold plane_of in Hpl. destruct axis as [|[|n]]; inversion Hpl; subst; auto. right. right. split; [lia|auto]. }
  rewrite Hd.
  assert (Ddims : surface_dims (grid_dims ax bx (length a) (length P)) = [length a; length P]).
  { unfold surface_dims, grid_dims. destruct Hax as [(_ & -> & ->)|[(_ & -> & ->)|(_ & -> & ->)]]; cbn [setc filter Nat.eqb negb];
      (destruct (Nat.eqb_spec (length a) 1); [lia|]); (destruct (Nat.eqb_spec (length P) 1); [lia|]); reflexivity. }
  split; [exact Ddims|]. split; [exact Hlen|].
  intros i j A B t HA HB Ht. rewrite <- (Hat i j A B t HA HB Ht). unfold at_coord. f_equal. rewrite Hd.
  unfold grid_dims, grid_coord. destruct Hax as [(_ & -> & ->)|[(_ & -> & ->)|(_ & -> & ->)]]; cbn [setc fidx]; lia.
Qed.
