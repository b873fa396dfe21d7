From Coq Require Import Permutation Reals Lra.
From Verif Require Import Perc_spec Perc_proof Surface_spec Surface_proof Volume_model Volume_spec
  Ring_proof UVol_proof UVol2_proof Encl_spec.
Open Scope R_scope.

Definition esum (F : nat -> nat -> R) (l : list (nat * nat)) : R := fold_right (fun '(u, v) acc => F u v + acc) 0 l.
Lemma area_esum P d f : area_along P d f = esum (fun u v => det3 (P u) (P v) d) (ring_edges f).
Proof. reflexivity. Qed.
Lemma esum_perm F l m : Permutation l m -> esum F l = esum F m.
Proof. unfold esum. induction 1 as [|[u v]|[u v] [u' v']|]; cbn [fold_right]; lra. Qed.
Lemma esum_ext F G l : (forall u v, In (u, v) l -> F u v = G u v) -> esum F l = esum G l.
Proof.
  unfold esum. induction l as [|[u v] l IH]; cbn [fold_right]; intros H; [reflexivity|].
  rewrite H, IH; [reflexivity|intros; apply H; right; auto|left; auto].
Qed.
Lemma esum_plus F G l : esum (fun u v => F u v + G u v) l = esum F l + esum G l.
Proof. unfold esum. induction l as [|[u v] l IH]; cbn [fold_right]; lra. Qed.
Lemma esum_scal k F l : esum (fun u v => k * F u v) l = k * esum F l.
Proof. unfold esum. induction l as [|[u v] l IH]; cbn [fold_right]; lra. Qed.
Lemma esum_sw F l : esum F (map sw l) = esum (fun u v => F v u) l.
Proof. unfold esum. induction l as [|[u v] l IH]; cbn [map fold_right sw fst snd]; [reflexivity|now rewrite IH]. Qed.
Lemma esum_fst g l : esum (fun u _ => g u) l = fold_right (fun u acc => g u + acc) 0 (map fst l).
Proof. unfold esum. induction l as [|[u v] l IH]; cbn [map fold_right fst]; [reflexivity|now rewrite IH]. Qed.
Lemma esum_snd g l : esum (fun _ v => g v) l = fold_right (fun u acc => g u + acc) 0 (map snd l).
Proof. unfold esum. induction l as [|[u v] l IH]; cbn [map fold_right snd]; [reflexivity|now rewrite IH]. Qed.
Lemma vsum_perm (g : nat -> R) l m : Permutation l m ->
  fold_right (fun u acc => g u + acc) 0 l = fold_right (fun u acc => g u + acc) 0 m.
Proof. induction 1; cbn [fold_right]; lra. Qed.
Lemma esum_ends g f : esum (fun u _ => g u) (ring_edges f) = esum (fun _ v => g v) (ring_edges f).
Proof. rewrite esum_fst, esum_snd, ring_edges_fst. symmetry. apply vsum_perm, ring_edges_snd_perm. Qed.

Lemma area_rev P d f : area_along P d (rev f) = - area_along P d f.
Proof.
  rewrite !area_esum, (esum_perm _ _ _ (ring_edges_rev f)), esum_sw. rewrite <- (Rmult_1_l (esum (fun u v => det3 (P u) (P v) d) _)).
  rewrite <- Ropp_mult_distr_l_reverse, <- esum_scal. apply esum_ext. intros u v _.
  destruct (P u) as [[? ?] ?], (P v) as [[? ?] ?], d as [[? ?] ?]. cbn [det3]. ring.
Qed.

(* a ring moved by T *)
Lemma area_moved P a T d k np f : (forall x, In x f -> P (x + k * np)%nat = vadd (a x) T) ->
  area_along P d (lift k np f) = area_along a d f.
Proof.
  intros H. rewrite !area_esum. unfold lift. rewrite ring_edges_map.
  transitivity (esum (fun u v => det3 (vadd (a u) T) (vadd (a v) T) d) (ring_edges f)).
  { transitivity (esum (fun u v => det3 (P (u + k * np)%nat) (P (v + k * np)%nat) d) (ring_edges f)).
    - generalize (ring_edges f) as l. unfold esum. induction l as [|[u v] l IH]; cbn [map fold_right fst snd]; [reflexivity|now rewrite IH].
    - apply esum_ext. intros u v Huv. apply ring_edges_in in Huv as [Hu Hv]. now rewrite !H. }
  transitivity (esum (fun u v => det3 (a u) (a v) d + (det3 (a u) T d + det3 T (a v) d)) (ring_edges f)).
  { apply esum_ext. intros u v _. destruct (a u) as [[? ?] ?], (a v) as [[? ?] ?], d as [[? ?] ?], T as [[? ?] ?]. cbn [det3 vadd]. ring. }
  rewrite !esum_plus. assert (E : esum (fun _ v => det3 T (a v) d) (ring_edges f) = - esum (fun u _ => det3 (a u) T d) (ring_edges f)).
  { rewrite (esum_ends (fun u => det3 (a u) T d)). rewrite <- (Rmult_1_l (esum (fun _ v => det3 (a v) T d) _)).
    rewrite <- Ropp_mult_distr_l_reverse, <- esum_scal. apply esum_ext. intros u v _.
    destruct (a v) as [[? ?] ?], d as [[? ?] ?], T as [[? ?] ?]. cbn [det3]. ring. }
  rewrite E. ring.
Qed.

(* the vector area is orthogonal to a plane ring *)
Lemma area_planar a f p q : planar_ring a f -> In p f -> In q f -> area_along a (a p) f = area_along a (a q) f.
Proof.
  intros HP Hp Hq. rewrite !area_esum.
  assert (E : esum (fun u v => det3 (a u) (a v) (a q)) (ring_edges f)
            = esum (fun u v => det3 (a u) (a v) (a p) + (det3 (a u) (a p) (vsub (a q) (a p)) + det3 (a p) (a v) (vsub (a q) (a p)))) (ring_edges f)).
  { apply esum_ext. intros u v Huv. apply ring_edges_in in Huv as [Hu Hv]. pose proof (HP p u v q Hp Hu Hv Hq) as E. revert E.
    destruct (a u) as [[? ?] ?], (a v) as [[? ?] ?], (a p) as [[? ?] ?], (a q) as [[? ?] ?]. cbn [det3 vsub]. lra. }
  rewrite E, !esum_plus.
  assert (E' : esum (fun _ v => det3 (a p) (a v) (vsub (a q) (a p))) (ring_edges f) = - esum (fun u _ => det3 (a u) (a p) (vsub (a q) (a p))) (ring_edges f)).
  { rewrite (esum_ends (fun u => det3 (a u) (a p) (vsub (a q) (a p)))). rewrite <- (Rmult_1_l (esum (fun _ v => det3 (a v) (a p) _) _)).
    rewrite <- Ropp_mult_distr_l_reverse, <- esum_scal. apply esum_ext. intros u v _.
    destruct (a v) as [[? ?] ?], (a p) as [[? ?] ?], (a q) as [[? ?] ?]. cbn [det3 vsub]. ring. }
  rewrite E'. ring.
Qed.

Lemma area_add a d e f : area_along a (vadd d e) f = area_along a d f + area_along a e f.
Proof.
  rewrite !area_esum, <- esum_plus. apply esum_ext. intros u v _.
  destruct (a u) as [[? ?] ?], (a v) as [[? ?] ?], d as [[? ?] ?], e as [[? ?] ?]. cbn [det3 vadd]. ring.
Qed.
Lemma area_scal a t d f : area_along a (scal t d) f = t * area_along a d f.
Proof.
  rewrite !area_esum, <- esum_scal. apply esum_ext. intros u v _.
  destruct (a u) as [[? ?] ?], (a v) as [[? ?] ?], d as [[? ?] ?]. cbn [det3 scal]. ring.
Qed.

Lemma hd_in (f : list nat) : f <> [] -> In (hd 0%nat f) f.
Proof. destruct f; [congruence|left; reflexivity]. Qed.

Lemma prism_enclosed (P a : nat -> vec) D np l t0 t1 ring : ring <> [] -> planar_ring a ring ->
  (forall x, In x ring -> P (x + l * np)%nat = vadd (a x) (scal t0 D)) ->
  (forall x, In x ring -> P (x + S l * np)%nat = vadd (a x) (scal t1 D)) ->
  enclosed_volume P (prism true np l ring) = - ((t1 - t0) * (area_along a D ring / 2)).
Proof.
  intros Hne HP H0 H1. unfold enclosed_volume, prism. cbn [fold_right].
  assert (Hh : hd 0%nat (lift l np ring) = (hd 0%nat ring + l * np)%nat) by (destruct ring; [congruence|reflexivity]).
  assert (Hh' : exists h, In h ring /\ hd 0%nat (rev (lift (S l) np ring)) = (h + S l * np)%nat).
  { unfold lift. rewrite <- map_rev. destruct (rev ring) as [|h r] eqn:E; [apply (f_equal (@rev nat)) in E; rewrite rev_involutive in E; contradiction|].
    exists h. split; [apply in_rev; rewrite E; left; auto|reflexivity]. }
  destruct Hh' as (h & Hin & Hh').
  unfold face_volume at 1 2. rewrite Hh, Hh', area_rev.
  rewrite (area_moved P a _ _ l np ring H0), (area_moved P a _ _ (S l) np ring H1).
  rewrite (H0 _ (hd_in _ Hne)), (H1 _ Hin), !area_add, !area_scal, (area_planar a ring h (hd 0%nat ring) HP Hin (hd_in _ Hne)).
  assert (ES : fold_right (fun f acc => face_volume P f + acc) 0
      (map (fun '(u, v) => [(u + S l * np)%nat; (v + S l * np)%nat; (v + l * np)%nat; (u + l * np)%nat]) (ring_edges ring))
      = -2 * (t1 - t0) * area_along a D ring).
  { rewrite area_esum, <- esum_scal.
    assert (K : forall es, (forall u v, In (u, v) es -> In u ring /\ In v ring) ->
      fold_right (fun f acc => face_volume P f + acc) 0
        (map (fun '(u, v) => [(u + S l * np)%nat; (v + S l * np)%nat; (v + l * np)%nat; (u + l * np)%nat]) es)
      = esum (fun u v => -2 * (t1 - t0) * det3 (a u) (a v) D) es).
    { induction es as [|[u v] es IH]; intros HE; [reflexivity|]. cbn [map fold_right]. unfold esum in *. cbn [fold_right].
      rewrite IH by (intros; apply HE; right; auto). f_equal. destruct (HE u v (or_introl eq_refl)) as [Hu Hv].
      unfold face_volume, area_along. rewrite quad_edges. cbn [hd fold_right]. rewrite (H0 u Hu), (H0 v Hv), (H1 u Hu), (H1 v Hv).
      destruct (a u) as [[? ?] ?], (a v) as [[? ?] ?], D as [[? ?] ?]. cbn [det3 vadd scal]. ring. }
    apply K. intros u v. apply ring_edges_in. }
  rewrite ES. field.
Qed.

Lemma planar_rev a f : planar_ring a f -> planar_ring a (rev f).
Proof. intros H p q r w Hp Hq Hr Hw. apply H; apply in_rev; auto. Qed.

Lemma enclosed {A} (sa sb : usurf A) r m v D c i0 i1 i2 rest perc :
  let ids := i0 :: i1 :: i2 :: rest in
  generate_volume_unstructured sa sb r m true = Ok v ->
  resolution_to_perc r m = Ok perc ->
  (forall i j x y, (i < j)%nat -> nth_error perc i = Some x -> nth_error perc j = Some y -> x < y) ->
  us_pts sb = map (fun p => vadd p D) (us_pts sa) ->
  nth_error (us_cells sa) c = Some (7%nat, ids) ->
  NoDup ids -> (forall x, In x ids -> (x < length (us_pts sa))%nat) ->
  planar_ring (at_pts (us_pts sa)) ids ->
  exists cells, decode (uv_types v) (uv_stream v) = Some cells /\
    forall l x y, nth_error perc l = Some x -> nth_error perc (S l) = Some y ->
      exists faces, nth_error cells (l * length (us_cells sa) + c) = Some (Poly faces) /\
        closed_oriented faces /\
        let volume := (y - x) * (area_along (at_pts (us_pts sa)) D ids / 2) in
        (0 <= turn (at_pts (us_pts sa)) D i0 i1 i2 -> enclosed_volume (at_pts (uv_pts v)) faces = volume) /\
        (turn (at_pts (us_pts sa)) D i0 i1 i2 < 0 -> enclosed_volume (at_pts (uv_pts v)) faces = - volume).
Proof.
  intros ids Hg Hperc Hinc Hsb Hc Hnd Hr Hpl.
  apply uvol_cells in Hg.
  destruct Hg as (perc' & cells & Hp & Hn & Hdec & _ & Hlv & Hpts & Hcells).
  assert (perc' = perc) as -> by congruence.
  exists cells; split; [auto|]. intros l t0 t1 Et0 Et1.
  assert (Hl : (l < length perc - 1)%nat) by (assert (S l < length perc)%nat by (apply nth_error_Some; congruence); lia).
  destruct (Hcells l c _ Hl Hc) as (cell & Hcell & Hext & _ & ring & _ & _ & H7).
  cbn [fst snd] in H7. destruct (H7 eq_refl) as [-> Hpf]. clear H7.
  set (np := length (us_pts sa)) in *.
  assert (forall k t x, nth_error perc k = Some t -> In x ids ->
            at_pts (uv_pts v) (x + k * np)%nat = vadd (at_pts (us_pts sa) x) (scal t D)) as HP.
  { intros k t x Ht Hx. apply Hr in Hx. unfold at_pts.
    assert (nth_error (us_pts sa) x = Some (nth x (us_pts sa) (0,0,0))) as Ha by (apply nth_error_nth'; auto).
    apply nth_error_nth. rewrite (Nat.add_comm x).
    etransitivity; [apply (Hpts k x t _ (vadd (nth x (us_pts sa) (0,0,0)) D) Ht Ha)|].
    - rewrite Hsb. exact (map_nth_error (fun p => vadd p D) x (us_pts sa) Ha).
    - f_equal. apply lerp_translate. }
  exists (prism true np l ring). split; [auto|].
  assert (Hring : ring = ids /\ turn (at_pts (us_pts sa)) D i0 i1 i2 < 0 \/ ring = rev ids /\ 0 <= turn (at_pts (us_pts sa)) D i0 i1 i2).
  { destruct (nth_error perc 0) as [z0|] eqn:E0; [|apply nth_error_None in E0; lia].
    destruct (nth_error perc 1) as [z1|] eqn:E1; [|apply nth_error_None in E1; lia].
    assert (z0 < z1) as Hz by (eapply (Hinc 0%nat 1%nat); eauto; lia).
    unfold polyhedron_faces, ids in Hpf.
    pose proof (HP 0%nat z0 i0 E0 ltac:(simpl; auto)) as P0.
    pose proof (HP 0%nat z0 i1 E0 ltac:(simpl; auto)) as P1.
    pose proof (HP 0%nat z0 i2 E0 ltac:(simpl; auto)) as P2.
    pose proof (HP 1%nat z1 i0 E1 ltac:(simpl; auto)) as P3.
    rewrite Nat.mul_0_l, Nat.add_0_r in P0, P1, P2. rewrite Nat.mul_1_l in P3.
    unfold at_pts in P0, P1, P2, P3. change (0, 0, 0) with origin in P0, P1, P2, P3.
    rewrite P0, P1, P2, P3 in Hpf.
    match type of Hpf with context [Rleb 0 ?e] =>
      assert (e = (z1 - z0) * turn (at_pts (us_pts sa)) D i0 i1 i2) as Ee end.
    { unfold turn, at_pts. change (0, 0, 0) with origin.
      destruct (nth i0 (us_pts sa) origin) as [[? ?] ?], (nth i1 (us_pts sa) origin) as [[? ?] ?],
        (nth i2 (us_pts sa) origin) as [[? ?] ?], D as [[? ?] ?].
      cbn [vadd vsub scal det3 dot cross sub3]. ring. }
    rewrite Ee in Hpf. clear Ee.
    destruct (Rleb_spec 0 ((z1 - z0) * turn (at_pts (us_pts sa)) D i0 i1 i2)) as [Hle|Hle];
      unfold bind in Hpf; apply Ok_inj in Hpf; injection Hpf as <- _.
    - right; split; auto. nra.
    - left; split; auto. nra. }
  assert (R : NoDup ring /\ (3 <= length ring)%nat /\ (forall x, In x ring -> In x ids) /\ planar_ring (at_pts (us_pts sa)) ring).
  { assert (3 <= length ids)%nat by (unfold ids; cbn; lia). destruct Hring as [[-> _]|[-> _]]; [auto|].
    split; [apply NoDup_rev; auto|]. split; [rewrite rev_length; auto|]. split; [intros; apply in_rev; auto|now apply planar_rev]. }
  destruct R as (R1 & R2 & R3 & R4).
  split; [apply prism_closed_oriented; auto|]. cbv zeta.
  assert (Hne : ring <> []) by (intros ->; cbn in R2; lia).
  rewrite (prism_enclosed (at_pts (uv_pts v)) (at_pts (us_pts sa)) D np l t0 t1 ring Hne R4); [|intros; apply HP; auto|intros; apply HP; auto].
  destruct Hring as [[-> HT]|[-> HT]]; rewrite ?area_rev; split; intros; lra.
Qed.
