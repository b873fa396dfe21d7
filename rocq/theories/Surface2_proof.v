From Verif Require Import Grid Perc_model Perc_spec Perc_proof Surface_model Surface_spec Surface2_spec Surface_proof Gen_proof.
Open Scope R_scope.

Lemma get_points_traversed {D} (l : line_arg D) ps : get_points l = Ok ps <-> traversed l ps.
Proof.
  destruct l as [pts|l]; cbn.
  - split; [intros H; apply Ok_inj in H; auto|now intros ->].
  - split.
    + intros H. apply mapM_Ok in H. induction H as [|i p ids ps E H IH]; constructor; auto.
      destruct (nth_error (ln_pts l) i); [now apply Ok_inj in E as ->|discriminate].
    + intros H. induction H as [|i p ids ps E H IH]; cbn; auto. rewrite E, IH. reflexivity.
Qed.

Lemma plane_cells plane ax bx n m : plane_axes plane ax bx -> (2 <= n)%nat -> (2 <= m)%nat ->
  n_cells (grid_dims ax bx n m) = ((n - 1) * (m - 1))%nat.
Proof. intros H Hn Hm. destruct H; unfold n_cells, grid_dims, setc, cell_shape, size3; nia. Qed.

Lemma surface_defined {D} areas (la lb : line_arg D) plane r m pa pb perc ax bx :
  traversed la pa -> traversed lb pb -> length pa = length pb -> fits la (length pa) ->
  resolution_to_perc r m = Ok perc -> plane_axes plane ax bx -> (2 <= length pa)%nat -> (2 <= length perc)%nat ->
  exists g, generate_surface_from_two_lines areas la lb plane r m = Ok g.
Proof.
  intros Ta Tb Hl Hf Hp Hpl Hn Hm. apply get_points_traversed in Ta, Tb.
  unfold generate_surface_from_two_lines. rewrite Ta, Tb. cbn [bind]. rewrite Hl, Nat.eqb_refl, Hp. cbn [negb bind].
  destruct (surface_points_defined plane ax bx pa pb perc Hpl) as [[dims pts] Hs]. rewrite Hs. cbn [bind].
  apply surface_points_spec in Hs as (ax' & bx' & Hpl' & Hd & Lp & _).
  assert (ax' = ax /\ bx' = bx) as [-> ->] by (destruct Hpl; inversion Hpl'; auto).
  assert (Hc : n_cells dims = ((length pa - 1) * (length perc - 1))%nat)
    by (rewrite Hd; apply (plane_cells plane); auto).
  destruct la as [pts'|l]; cbn [bind]; [eauto|]. destruct Hf as (F1 & F2 & F3).
  edestruct (mapM_defined (fun kv : string * list D => assign_data (length pts) (fst kv, tile (snd kv) (length perc)))
    (ln_pd l)) as [pd Hpd].
  { intros [k v] Hv. unfold assign_data. cbn [fst snd]. rewrite tile_length, (F1 k v Hv), Lp.
    rewrite (Nat.mul_comm (length perc)), Nat.eqb_refl. eauto. }
  edestruct (mapM_defined (fun kv : string * list D => assign_data (n_cells dims) (fst kv, tile (snd kv) (length perc - 1)))
    (ln_cd l)) as [cd Hcd].
  { intros [k v] Hv. unfold assign_data. cbn [fst snd]. rewrite tile_length, (F2 k v Hv), Hc.
    rewrite (Nat.mul_comm (length perc - 1)), Nat.eqb_refl. eauto. }
  rewrite Hpd. cbn [bind]. rewrite Hcd. cbn [bind].
  destruct (ln_ghost l) as [gh|]; cbn [bind]; [|eauto].
  rewrite tile_length, (F3 gh eq_refl), Hc, (Nat.mul_comm (length perc - 1)), Nat.eqb_refl. cbn [bind]. eauto.
Qed.

Lemma surface_coords_t {D} areas (la lb : line_arg D) plane r m g :
  generate_surface_from_two_lines areas la lb plane r m = Ok g ->
  exists pa pb perc ax bx,
    traversed la pa /\ traversed lb pb /\ length pa = length pb /\
    resolution_to_perc r m = Ok perc /\ plane_axes plane ax bx /\
    sg_dims g = grid_dims ax bx (length pa) (length perc) /\
    length (sg_pts g) = (length pa * length perc)%nat /\
    forall i j p q t, nth_error pa i = Some p -> nth_error pb i = Some q ->
      nth_error perc j = Some t ->
      at_coord (sg_dims g) (sg_pts g) (grid_coord ax bx i j) =
      Some (let '(x, y, z) := p in let '(x', y', z') := q in
            (x + t * (x' - x), y + t * (y' - y), z + t * (z' - z))).
Proof.
  intros H. apply surface_coords in H as (pa & pb & perc & ax & bx & Ha & Hb & H).
  apply get_points_traversed in Ha, Hb. exists pa, pb, perc, ax, bx. split; [exact Ha|]. split; [exact Hb|]. exact H.
Qed.

Lemma surface_mismatch_t {D} areas (la lb : line_arg D) plane r m pa pb :
  traversed la pa -> traversed lb pb -> length pa <> length pb ->
  generate_surface_from_two_lines areas la lb plane r m = Err ValueError.
Proof. intros Ha Hb. apply get_points_traversed in Ha, Hb. eapply surface_mismatch; eauto. Qed.

Lemma surface_plane_rejected {D} areas (la lb : line_arg D) plane r m pa pb perc :
  traversed la pa -> traversed lb pb -> length pa = length pb -> resolution_to_perc r m = Ok perc ->
  ~ In plane ["xy"; "yx"; "xz"; "zx"; "yz"; "zy"]%string ->
  generate_surface_from_two_lines areas la lb plane r m = Err ValueError.
Proof.
  intros Ha Hb Hl Hp Hn. apply get_points_traversed in Ha, Hb.
  unfold generate_surface_from_two_lines. rewrite Ha, Hb. cbn [bind]. rewrite Hl, Nat.eqb_refl, Hp. cbn [negb bind].
  unfold surface_points.
  repeat match goal with
  | |- context [String.eqb plane ?s] =>
      destruct (String.eqb_spec plane s) as [->|]; [exfalso; apply Hn; cbn; tauto|]
  end. reflexivity.
Qed.

Lemma stored_lt plane ax bx n m i j : plane_axes plane ax bx -> (i < n)%nat -> (j < m)%nat ->
  fidx (grid_dims ax bx n m) (grid_coord ax bx i j) = stored ax bx n m i j /\ (stored ax bx n m i j < m * n)%nat.
Proof.
  intros H Hi Hj. destruct H; unfold fidx, grid_dims, grid_coord, setc, stored; cbn -[Nat.mul Nat.add]; nia.
Qed.

Lemma stored_cell plane ax bx n m i j : plane_axes plane ax bx -> (i < n - 1)%nat -> (j < m - 1)%nat ->
  fidx (cell_shape (grid_dims ax bx n m)) (grid_coord ax bx i j) = stored ax bx (n - 1) (m - 1) i j /\
  (stored ax bx (n - 1) (m - 1) i j < (m - 1) * (n - 1))%nat.
Proof.
  intros H Hi Hj.
  destruct H; unfold fidx, grid_dims, cell_shape, grid_coord, setc, stored; cbn -[Nat.mul Nat.add Nat.sub Nat.max]; nia.
Qed.

Lemma tile_mod {A} (v : list A) k p : (p < k * length v)%nat -> nth_error (tile v k) p = nth_error v (p mod length v).
Proof.
  intros H. destruct v as [|x v']; [cbn in H; lia|]. set (w := x :: v') in *. assert (length w <> 0)%nat by discriminate.
  rewrite (Nat.div_mod p (length w)) at 1 by auto. rewrite Nat.mul_comm.
  apply tile_nth_error; [|apply Nat.mod_upper_bound; auto].
  apply Nat.div_lt_upper_bound; [auto|]. lia.
Qed.

Lemma any_points {D} areas (l : line D) lb plane r m g k v :
  generate_surface_from_two_lines areas (LinePoly l) lb plane r m = Ok g -> In (k, v) (ln_pd l) ->
  exists w perc ax bx,
    In (k, w) (sg_pd g) /\ resolution_to_perc r m = Ok perc /\ plane_axes plane ax bx /\
    forall i j, (i < length (ln_ids l))%nat -> (j < length perc)%nat ->
      at_coord (sg_dims g) w (grid_coord ax bx i j) =
      nth_error v (stored ax bx (length (ln_ids l)) (length perc) i j mod length (ln_ids l)).
Proof.
  intros H Hk.
  pose proof (surface_coords _ _ _ _ _ _ _ H) as
    (pa & pb & perc & ax & bx & Ha & Hb & Hl & Hp & Hpl & Hdims & Hlen & _).
  pose proof (surface_data_inv _ _ _ _ _ _ _ H) as (perc' & Hp' & Hpd & _ & Hsz & _).
  rewrite Hp in Hp'; injection Hp' as <-.
  exists (tile v (length perc)), perc, ax, bx.
  split; [rewrite Hpd; apply in_map_iff; exists (k, v); auto|].
  split; auto. split; auto. intros i j Hi Hj.
  specialize (Hsz k v Hk). rewrite tile_length, Hlen in Hsz.
  apply get_points_length in Ha. rewrite <- Ha in Hi |- *.
  assert (Lv : length v = length pa) by nia.
  unfold at_coord. rewrite Hdims. destruct (stored_lt plane ax bx (length pa) (length perc) i j) as [-> Hlt]; auto.
  rewrite <- Lv in Hlt |- *. apply tile_mod; lia.
Qed.

Lemma any_cells {D} areas (l : line D) lb plane r m g k v :
  generate_surface_from_two_lines areas (LinePoly l) lb plane r m = Ok g -> In (k, v) (ln_cd l) ->
  exists w perc ax bx,
    In (k, w) (sg_cd g) /\ resolution_to_perc r m = Ok perc /\ plane_axes plane ax bx /\
    forall i j, (i < length (ln_ids l) - 1)%nat -> (j < length perc - 1)%nat ->
      at_coord (cell_shape (sg_dims g)) w (grid_coord ax bx i j) =
      nth_error v (stored ax bx (length (ln_ids l) - 1) (length perc - 1) i j mod (length (ln_ids l) - 1)).
Proof.
  intros H Hk.
  pose proof (surface_coords _ _ _ _ _ _ _ H) as
    (pa & pb & perc & ax & bx & Ha & Hb & Hl & Hp & Hpl & Hdims & Hlen & _).
  pose proof (surface_data_inv _ _ _ _ _ _ _ H) as (perc' & Hp' & _ & Hcd & _ & Hsz).
  rewrite Hp in Hp'; injection Hp' as <-.
  exists (tile v (length perc - 1)), perc, ax, bx.
  split; [rewrite Hcd; apply in_map_iff; exists (k, v); auto|].
  split; auto. split; auto. intros i j Hi Hj.
  specialize (Hsz k v Hk). rewrite tile_length, Hdims, (plane_cells plane) in Hsz by (auto; apply get_points_length in Ha; lia).
  apply get_points_length in Ha. rewrite <- Ha in Hi |- *.
  assert (Lv : length v = (length pa - 1)%nat) by nia.
  unfold at_coord. rewrite Hdims. destruct (stored_cell plane ax bx (length pa) (length perc) i j) as [-> Hlt]; auto.
  rewrite <- Lv in Hlt |- *. apply tile_mod; lia.
Qed.

Lemma any_ghost {D} areas (l : line D) lb plane r m g gh :
  generate_surface_from_two_lines areas (LinePoly l) lb plane r m = Ok g -> ln_ghost l = Some gh ->
  length gh = (length (ln_ids l) - 1)%nat ->
  length (areas (sg_dims g) (sg_pts g)) = n_cells (sg_dims g) ->
  exists perc ax bx, resolution_to_perc r m = Ok perc /\ plane_axes plane ax bx /\
    forall i j x, (i < length (ln_ids l) - 1)%nat -> (j < length perc - 1)%nat ->
      at_coord (cell_shape (sg_dims g)) (areas (sg_dims g) (sg_pts g)) (grid_coord ax bx i j) = Some x ->
      at_coord (cell_shape (sg_dims g)) (sg_ghost g) (grid_coord ax bx i j) =
      if Reqb x 0 then Some 32%nat
      else nth_error gh (stored ax bx (length (ln_ids l) - 1) (length perc - 1) i j mod (length (ln_ids l) - 1)).
Proof.
  intros H Hg Lg Ha.
  pose proof (surface_coords _ _ _ _ _ _ _ H) as
    (pa & pb & perc & ax & bx & Hpa & Hb & Hl & Hp & Hpl & Hdims & Hlen & _).
  destruct (surface_ghost _ _ _ _ _ _ _ H Ha) as [_ HG].
  exists perc, ax, bx. split; auto. split; auto. intros i j x Hi Hj Hx.
  destruct (HG _ _ Hx) as (G1 & G2 & _). unfold at_coord in *.
  destruct (Reqb_spec x 0) as [E|E]; [auto|].
  rewrite (G2 E l gh perc eq_refl Hg Hp). rewrite Hdims. apply get_points_length in Hpa.
  destruct (stored_cell plane ax bx (length pa) (length perc) i j) as [E' Hlt]; auto; [lia|].
  rewrite E'. rewrite <- Hpa in *. rewrite <- Lg in Hlt |- *. apply tile_mod; lia.
Qed.
