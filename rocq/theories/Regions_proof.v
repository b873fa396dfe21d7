(* Regions at infinity without ridges. *)
From Coq Require Import Reals Lra.
From Verif Require Import Prelude Groups_model Surface_model Lines_model Voronoi_model Voronoi_spec Voronoi3_proof Voronoi4_proof.
Open Scope nat_scope.

Section Loop.
Variables (argsort : list R -> list nat) (atan2 : R -> R -> R) (d : diagram) (c : pt2) (radius : R).
Lemma region_loop_fails prs p0 p k r verts :
  nth_error prs p = Some k -> (0 <= k)%Z -> nth_error (d_regions d) (Z.to_nat k) = Some r -> In (-1)%Z r ->
  (forall p1 p2, In (p1, p2) (d_ridge_points d) -> p1 <> p0 + p /\ p2 <> p0 + p) ->
  (forall x, region_loop argsort atan2 d c radius p0 prs verts <> Ok x) /\
  ((forall q k', q < p -> nth_error prs q = Some k' -> (0 <= k')%Z /\ exists r', nth_error (d_regions d) (Z.to_nat k') = Some r' /\ ~ In (-1)%Z r') ->
   region_loop argsort atan2 d c radius p0 prs verts = Err KeyError).
Proof.
  revert p0 p verts. induction prs as [|k0 prs IH]; intros p0 p verts Hp Hk Hr Hin Hno; [destruct p; discriminate|].
  cbn [region_loop]. destruct p as [|p]; cbn in Hp.
  - injection Hp as ->. rewrite (one_region_no_ridge d argsort atan2 c radius p0 r k verts Hk Hr Hin) by (intros; rewrite <- (Nat.add_0_r p0); eauto).
    cbn [bind]. split; [discriminate|reflexivity].
  - assert (IH' : forall v, _) by (intros v; apply (IH (S p0) p v Hp Hk Hr Hin); intros p1 p2 H; rewrite <- Nat.add_succ_comm in Hno; auto).
    split.
    + intros x. destruct (one_region _ _ _ _ _ _ _ _) as [[reg v]|]; cbn [bind]; [|discriminate].
      destruct (IH' v) as [N _]. destruct (region_loop _ _ _ _ _ _ _ _) as [y|]; cbn [bind]; [destruct (N y); auto|discriminate].
    + intros Hq. destruct (Hq 0 k0 ltac:(lia) eq_refl) as (H0 & r' & Hr' & Hfin).
      unfold one_region.
      assert (Hkl : (0 <= k0 < Z.of_nat (length (d_regions d)))%Z).
      { assert (Z.to_nat k0 < length (d_regions d)) by (apply nth_error_Some; congruence). lia. }
      destruct (py_at_ok _ _ Hkl) as (r2 & E & Er). rewrite Hr' in Er. injection Er as <-. rewrite E. cbn [bind].
      replace (existsb (fun v => (v =? -1)%Z) r') with false.
      2:{ symmetry. apply not_true_iff_false. intros H. apply existsb_exists in H as (v & Hv & Ev). apply Z.eqb_eq in Ev. subst v. auto. }
      cbn [negb bind]. destruct (IH' verts) as [_ ->]; [reflexivity|]. intros q k' Hlt. apply (Hq (S q) k'). lia.
Qed.
End Loop.

Lemma tessellation_fails argsort atan2 d infinity ptp p r :
  region_of d p r -> In (-1)%Z r -> (forall p1 p2, In (p1, p2) (d_ridge_points d) -> p1 <> p /\ p2 <> p) ->
  (forall x, tessellation argsort atan2 d infinity ptp <> Ok x) /\
  ((forall q, q < p -> exists r', region_of d q r' /\ ~ In (-1)%Z r') -> tessellation argsort atan2 d infinity ptp = Err KeyError).
Proof.
  intros (k & Hp & Hk & Hr) Hin Hno. unfold tessellation.
  destruct (region_loop_fails argsort atan2 d (mean2 (d_points d)) (far_radius infinity ptp) (d_point_region d) 0 p k r (d_vertices d) Hp Hk Hr Hin Hno)
    as [A B]. split; [exact A|]. intros H. apply B. intros q k' Hq Hk'. destruct (H q Hq) as (r' & (k2 & E & H0 & H1) & H2).
  rewrite Hk' in E. injection E as <-. eauto.
Qed.

Lemma orient_first3 a b c l :
  (0 < (fst a * snd b - fst b * snd a + (fst b * snd c - fst c * snd b)) * twice_area (a :: b :: c :: l))%R ->
  (0 < twice_area (orient "CCW" (a :: b :: c :: l)) /\ twice_area (orient "CW" (a :: b :: c :: l)) < 0)%R.
Proof. intros H. apply orient_agree. cbn [firstn open_shoelace]. rewrite Rplus_0_r. exact H. Qed.
