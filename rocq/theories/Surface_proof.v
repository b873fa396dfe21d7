From Verif Require Import Perc_spec Perc_proof Surface_model Surface_spec.
Open Scope R_scope.

Lemma surface_points_spec plane a b perc dims pts :
  surface_points plane a b perc = Ok (dims, pts) ->
  exists la lb, plane_axes plane la lb /\
    dims = grid_dims la lb (length a) (length perc) /\
    length pts = (length a * length perc)%nat /\
    forall i j, (i < length a)%nat -> (j < length perc)%nat ->
      at_coord dims pts (grid_coord la lb i j) =
      Some (lerp (nth j perc 0) (nth i a origin) (nth i b origin)).
Proof.
  unfold surface_points, at_coord.
  repeat match goal with
  | |- context [String.eqb plane ?s] =>
      destruct (String.eqb_spec plane s) as [->|]; cbv beta iota
  end; try discriminate; intros H%Ok_inj; injection H as <- <-.
  all: (do 2 eexists; split; [constructor|]; split; [reflexivity|]; split;
    [rewrite ravelF_length; lia|]; intros i j Hi Hj;
    unfold grid_coord, setc; rewrite ravelF_fidx by (unfold in_shape; lia); reflexivity).
Qed.

Lemma surface_points_defined plane la lb a b perc :
  plane_axes plane la lb -> exists d, surface_points plane a b perc = Ok d.
Proof. destruct 1; eexists; reflexivity. Qed.

Lemma surface_inv {D} areas (la lb : line_arg D) plane r m g :
  generate_surface_from_two_lines areas la lb plane r m = Ok g ->
  exists pa pb perc,
    get_points la = Ok pa /\ get_points lb = Ok pb /\ length pa = length pb /\
    resolution_to_perc r m = Ok perc /\
    surface_points plane pa pb perc = Ok (sg_dims g, sg_pts g).
Proof.
  unfold generate_surface_from_two_lines, bind.
  destruct (get_points la) as [pa|] eqn:Ha; [|discriminate].
  destruct (get_points lb) as [pb|] eqn:Hb; [|discriminate].
  destruct (Nat.eqb_spec (length pa) (length pb)) as [Hl|]; [|discriminate]. simpl negb; cbv iota.
  destruct (resolution_to_perc r m) as [perc|] eqn:Hp; [|discriminate].
  destruct (surface_points plane pa pb perc) as [[dims pts]|] eqn:Hs; [|discriminate].
  intros H. exists pa, pb, perc. repeat split; auto.
  rewrite Hs. do 2 f_equal; revert H;
  (destruct la as [?|l];
   [|destruct (mapM _ (ln_pd l)) as [pd|]; [|discriminate];
     destruct (mapM _ (ln_cd l)) as [cd|]; [|discriminate];
     destruct (ln_ghost l) as [gh|]; [destruct (_ =? _)%nat; [|discriminate]|]]);
  intros [= <-]; reflexivity.
Qed.

Lemma surface_coords {D} areas (la lb : line_arg D) plane r m g :
  generate_surface_from_two_lines areas la lb plane r m = Ok g ->
  exists pa pb perc ax bx,
    get_points la = Ok pa /\ get_points lb = Ok pb /\ length pa = length pb /\
    resolution_to_perc r m = Ok perc /\ plane_axes plane ax bx /\
    sg_dims g = grid_dims ax bx (length pa) (length perc) /\
    length (sg_pts g) = (length pa * length perc)%nat /\
    forall i j p q t, nth_error pa i = Some p -> nth_error pb i = Some q ->
      nth_error perc j = Some t ->
      at_coord (sg_dims g) (sg_pts g) (grid_coord ax bx i j) = Some (lerp t p q).
Proof.
  intros H. apply surface_inv in H.
  destruct H as (pa & pb & perc & Ha & Hb & Hl & Hp & Hs).
  apply surface_points_spec in Hs. destruct Hs as (ax & bx & Hpl & Hd & Hlen & Hat).
  exists pa, pb, perc, ax, bx. repeat split; auto.
  intros i j p q t Hi Hq Hj.
  rewrite Hat; [|apply nth_error_Some; congruence|apply nth_error_Some; congruence].
  rewrite (nth_error_nth _ _ origin Hi), (nth_error_nth _ _ origin Hq), (nth_error_nth _ _ 0 Hj); auto.
Qed.

Lemma surface_mismatch {D} areas (la lb : line_arg D) plane r m pa pb :
  get_points la = Ok pa -> get_points lb = Ok pb -> length pa <> length pb ->
  generate_surface_from_two_lines areas la lb plane r m = Err ValueError.
Proof.
  intros Ha Hb Hl; unfold generate_surface_from_two_lines, bind; rewrite Ha, Hb.
  destruct (Nat.eqb_spec (length pa) (length pb)); [contradiction|reflexivity].
Qed.

Lemma surface_bad_plane {D} areas (la lb : line_arg D) plane r m g :
  generate_surface_from_two_lines areas la lb plane r m = Ok g ->
  exists ax bx, plane_axes plane ax bx.
Proof.
  intros H; apply surface_coords in H.
  destruct H as (? & ? & ? & ax & bx & _ & _ & _ & _ & H & _); eauto.
Qed.

(* C07 *)
Lemma get_points_length {D} (l : line D) pa :
  get_points (LinePoly l) = Ok pa -> length pa = length (ln_ids l).
Proof. simpl; intros H; apply mapM_Ok in H; symmetry; eapply Forall2_len; eauto. Qed.

Lemma mapM_assoc {A B} (f : A -> list B) n l r :
  mapM (fun kv : string * A => assign_data n (fst kv, f (snd kv))) l = Ok r ->
  r = map (fun kv => (fst kv, f (snd kv))) l /\
  forall k v, In (k, v) l -> length (f v) = n.
Proof.
  intros H; apply mapM_Ok in H; induction H as [|x y l r Hx H IH]; [split; [auto|intros ? ? []]|].
  unfold assign_data in Hx; simpl in Hx.
  destruct (Nat.eqb_spec (length (f (snd x))) n) as [E|]; [|discriminate]. injection Hx as <-.
  destruct IH as [-> IH]. split; auto.
  intros k v [->|Hk]; eauto.
Qed.

Lemma surface_data_inv {D} areas (l : line D) (lb : line_arg D) plane r m g :
  generate_surface_from_two_lines areas (LinePoly l) lb plane r m = Ok g ->
  exists perc, resolution_to_perc r m = Ok perc /\
    sg_pd g = map (fun kv => (fst kv, tile (snd kv) (length perc))) (ln_pd l) /\
    sg_cd g = map (fun kv => (fst kv, tile (snd kv) (length perc - 1))) (ln_cd l) /\
    (forall k v, In (k, v) (ln_pd l) -> length (tile v (length perc)) = length (sg_pts g)) /\
    (forall k v, In (k, v) (ln_cd l) ->
       length (tile v (length perc - 1)) = n_cells (sg_dims g)).
Proof.
  unfold generate_surface_from_two_lines, bind.
  destruct (get_points (LinePoly l)) as [pa|] eqn:Ha; [|discriminate].
  destruct (get_points lb) as [pb|] eqn:Hb; [|discriminate].
  destruct (negb _); [discriminate|].
  destruct (resolution_to_perc r m) as [perc|] eqn:Hp; [|discriminate].
  destruct (surface_points plane pa pb perc) as [[dims pts]|] eqn:Hs; [|discriminate].
  destruct (mapM _ (ln_pd l)) as [pd|] eqn:Hpd; [|discriminate].
  destruct (mapM _ (ln_cd l)) as [cd|] eqn:Hcd; [|discriminate].
  apply (mapM_assoc (fun v => tile v (length perc))) in Hpd.
  apply (mapM_assoc (fun v => tile v (length perc - 1)%nat)) in Hcd.
  destruct Hpd as [-> Hpd], Hcd as [-> Hcd].
  intros H; exists perc; split; auto; revert H.
  destruct (ln_ghost l) as [gh|]; [destruct (_ =? _)%nat; [|discriminate]|];
    intros [= <-]; simpl; auto.
Qed.

Lemma direct_points {D} areas (l : line D) lb plane r m g k v :
  generate_surface_from_two_lines areas (LinePoly l) lb plane r m = Ok g ->
  direct_plane plane -> ln_ids l = seq 0 (length (ln_pts l)) -> (0 < length (ln_ids l))%nat ->
  In (k, v) (ln_pd l) ->
  exists w perc ax bx,
    In (k, w) (sg_pd g) /\ resolution_to_perc r m = Ok perc /\ plane_axes plane ax bx /\
    forall i j id, nth_error (ln_ids l) i = Some id -> (j < length perc)%nat ->
      at_coord (sg_dims g) w (grid_coord ax bx i j) = nth_error v id.
Proof.
  intros H Hd Hids Hn Hk.
  pose proof (surface_coords _ _ _ _ _ _ _ H) as
    (pa & pb & perc & ax & bx & Ha & Hb & Hl & Hp & Hpl & Hdims & Hlen & _).
  pose proof (surface_data_inv _ _ _ _ _ _ _ H) as (perc' & Hp' & Hpd & _ & Hsz & _).
  rewrite Hp in Hp'; injection Hp' as <-.
  exists (tile v (length perc)), perc, ax, bx.
  split; [rewrite Hpd; apply in_map_iff; exists (k, v); auto|].
  split; auto. split; auto.
  intros i j id Hi Hj.
  assert (id = i /\ (i < length (ln_ids l))%nat) as [-> Hil].
  { split; [|apply nth_error_Some; congruence].
    rewrite Hids, nth_error_seq in Hi. destruct (i <? _)%nat; [|discriminate]. injection Hi as <-; auto. }
  specialize (Hsz k v Hk). rewrite tile_length, Hlen in Hsz.
  apply get_points_length in Ha.
  assert (length v = length pa) by nia.
  unfold at_coord. rewrite Hdims.
  assert (fidx (grid_dims ax bx (length pa) (length perc)) (grid_coord ax bx i j)
          = (j * length v + i)%nat) as ->.
  { destruct Hd; inversion Hpl; subst; unfold fidx, grid_dims, grid_coord, setc; nia. }
  apply tile_nth_error; lia.
Qed.

Lemma direct_cells {D} areas (l : line D) lb plane r m g k v :
  generate_surface_from_two_lines areas (LinePoly l) lb plane r m = Ok g ->
  direct_plane plane -> (2 <= length (ln_ids l))%nat ->
  In (k, v) (ln_cd l) ->
  exists w perc ax bx,
    In (k, w) (sg_cd g) /\ resolution_to_perc r m = Ok perc /\ plane_axes plane ax bx /\
    forall i j, (i < length (ln_ids l) - 1)%nat -> (j < length perc - 1)%nat ->
      at_coord (cell_shape (sg_dims g)) w (grid_coord ax bx i j) = nth_error v i.
Proof.
  intros H Hd Hn Hk.
  pose proof (surface_coords _ _ _ _ _ _ _ H) as
    (pa & pb & perc & ax & bx & Ha & Hb & Hl & Hp & Hpl & Hdims & Hlen & _).
  pose proof (surface_data_inv _ _ _ _ _ _ _ H) as (perc' & Hp' & _ & Hcd & _ & Hsz).
  rewrite Hp in Hp'; injection Hp' as <-.
  exists (tile v (length perc - 1)), perc, ax, bx.
  split; [rewrite Hcd; apply in_map_iff; exists (k, v); auto|].
  split; auto. split; auto.
  intros i j Hi Hj.
  specialize (Hsz k v Hk). rewrite tile_length, Hdims in Hsz.
  apply get_points_length in Ha.
  assert (length v = length pa - 1)%nat as Hv.
  { unfold n_cells in Hsz.
    destruct Hd; inversion Hpl; subst; cbn [grid_dims setc cell_shape size3] in Hsz; nia. }
  unfold at_coord. rewrite Hdims.
  assert (fidx (cell_shape (grid_dims ax bx (length pa) (length perc))) (grid_coord ax bx i j)
          = (j * length v + i)%nat) as ->.
  { rewrite Hv. destruct Hd; inversion Hpl; subst; cbn [fidx grid_dims grid_coord setc cell_shape].
    all: try rewrite !Nat.max_r by lia; try nia. }
  apply tile_nth_error; lia.
Qed.

(* C08 *)
Lemma surface_ghost {D} areas (la lb : line_arg D) plane r m g :
  generate_surface_from_two_lines areas la lb plane r m = Ok g ->
  length (areas (sg_dims g) (sg_pts g)) = n_cells (sg_dims g) ->
  length (sg_ghost g) = n_cells (sg_dims g) /\
  forall c x, nth_error (areas (sg_dims g) (sg_pts g)) c = Some x ->
    (x = 0 -> nth_error (sg_ghost g) c = Some 32%nat) /\
    (x <> 0 -> forall l gh perc, la = LinePoly l -> ln_ghost l = Some gh ->
       resolution_to_perc r m = Ok perc ->
       nth_error (sg_ghost g) c = nth_error (tile gh (length perc - 1)) c) /\
    (x <> 0 -> (forall l, la = LinePoly l -> ln_ghost l = None) ->
       nth_error (sg_ghost g) c = Some 0%nat).
Proof.
  unfold generate_surface_from_two_lines, bind.
  destruct (get_points la) as [pa|] eqn:Ha; [|discriminate].
  destruct (get_points lb) as [pb|] eqn:Hb; [|discriminate].
  destruct (negb _); [discriminate|].
  destruct (resolution_to_perc r m) as [perc|] eqn:Hp; [|discriminate].
  destruct (surface_points plane pa pb perc) as [[dims pts]|] eqn:Hs; [|discriminate].
  intros H Hlen.
  assert (exists base, length base = n_cells (sg_dims g) /\
    sg_ghost g = mask_set 32%nat (map (fun x => Reqb (Rabs x) 0) (areas (sg_dims g) (sg_pts g))) base /\
    (forall l gh, la = LinePoly l -> ln_ghost l = Some gh -> base = tile gh (length perc - 1)) /\
    ((forall l, la = LinePoly l -> ln_ghost l = None) -> base = repeat 0%nat (n_cells (sg_dims g))))
    as (base & Hbl & Hg & Hb1 & Hb2).
  { revert H Hlen.
    destruct la as [?|l].
    - intros [= <-] _; simpl. eexists; split; [apply repeat_length|].
      repeat split; auto; intros; discriminate.
    - destruct (mapM _ (ln_pd l)) as [pd|]; [|discriminate].
      destruct (mapM _ (ln_cd l)) as [cd|]; [|discriminate].
      destruct (ln_ghost l) as [gh|] eqn:Hgh.
      + destruct (Nat.eqb_spec (length (tile gh (length perc - 1))) (n_cells dims)) as [E|]; [|discriminate].
        intros [= <-] _; simpl. eexists; split; [apply E|]. split; [reflexivity|].
        split; [intros l' gh' [= <-] Hg'; congruence|].
        intros Hno; specialize (Hno l eq_refl); congruence.
      + intros [= <-] _; simpl. eexists; split; [apply repeat_length|].
        split; [reflexivity|]. split; auto. intros l' gh' [= <-] Hg'; congruence. }
  assert (length (map (fun x => Reqb (Rabs x) 0) (areas (sg_dims g) (sg_pts g))) = length base)
    as Hml by (rewrite map_length; congruence).
  split; [rewrite Hg, mask_set_length; auto|].
  intros c x Hx.
  assert (nth_error (sg_ghost g) c = if Reqb (Rabs x) 0 then Some 32%nat else nth_error base c) as E.
  { rewrite Hg, mask_set_nth_error by auto. rewrite nth_error_map, Hx. simpl.
    destruct (Reqb (Rabs x) 0); auto. }
  rewrite E. split; [|split].
  - intros ->. rewrite Rabs_R0. destruct (Reqb_spec 0 0); [auto|congruence].
  - intros Hx0 l gh perc' Hl Hgh Hp'. destruct (Reqb_spec (Rabs x) 0) as [Hz|_].
    + exfalso; apply Hx0. destruct (Req_dec x 0); auto. apply Rabs_no_R0 in H0; contradiction.
    + injection Hp' as <-. erewrite <- Hb1; eauto.
  - intros Hx0 Hno. destruct (Reqb_spec (Rabs x) 0) as [Hz|_].
    + exfalso; apply Hx0. destruct (Req_dec x 0); auto. apply Rabs_no_R0 in H0; contradiction.
    + rewrite (Hb2 Hno). apply repeat_nth_error.
      rewrite <- Hlen. apply nth_error_Some; congruence.
Qed.

(* ---- refutations of C07 ---- *)
Definition ex_line (ids : list nat) : line nat :=
  mkLine [(0,0,0); (1,0,0)] ids [("v"%string, [7; 8]%nat)] [] None.
Definition ex_top : line_arg nat := LineArr [(0,1,0); (1,1,0)].
Definition no_areas : shape3 -> list pt -> list R := fun d _ => repeat 1 (n_cells d).

Lemma ex_surface plane ids pa :
  get_points (LinePoly (ex_line ids)) = Ok pa -> length pa = 2%nat ->
  (exists a b, plane_axes plane a b) ->
  exists g, generate_surface_from_two_lines no_areas (LinePoly (ex_line ids)) ex_top plane ResNone None = Ok g
    /\ sg_pd g = [("v"%string, [7; 8; 7; 8]%nat)].
Proof.
  intros Hids Hpa (a & b & Hpl). unfold generate_surface_from_two_lines.
  rewrite Hids. unfold bind at 1.
  cbn [ex_top get_points]. unfold bind at 1. rewrite Hpa. cbn [length Nat.eqb negb].
  rewrite perc_none, (to_perc_closed 1 None Constant) by constructor.
  unfold bind at 1. change (Z.to_nat (Z.max 1 1)) with 1%nat.
  set (perc := map (pfun Constant 1) (seq 0 2)).
  assert (length perc = 2%nat) as Hpc by reflexivity.
  destruct (surface_points_defined plane a b pa [(0,1,0); (1,1,0)] perc Hpl) as ((dims & pts) & Hs).
  rewrite Hs. pose proof (surface_points_spec _ _ _ _ _ _ Hs) as (la & lb & _ & _ & Hlen & _).
  rewrite Hpa, Hpc in Hlen. cbn [bind].
  cbn [ln_pd mapM fst snd tile app]. rewrite Hlen, Hpc.
  cbn. eexists; split; reflexivity.
Qed.

Lemma surface_data_transposed_wrong :
  exists (l : line nat) lb plane g w ax bx,
    generate_surface_from_two_lines no_areas (LinePoly l) lb plane ResNone None = Ok g /\
    plane_axes plane ax bx /\ ln_ids l = seq 0 (length (ln_pts l)) /\
    ln_pd l = [("v"%string, [7; 8]%nat)] /\ sg_pd g = [("v"%string, w)] /\
    (* grid point (line index 0, level 1) does not carry the value of line point 0 *)
    at_coord (sg_dims g) w (grid_coord ax bx 0 1) = Some 8%nat.
Proof.
  destruct (ex_surface "yx" [0; 1]%nat [(0,0,0); (1,0,0)]) as (g & Hg & Hd).
  { reflexivity. } { reflexivity. } { exists 1%nat, 0%nat; constructor. }
  exists (ex_line [0; 1]%nat), ex_top, "yx"%string, g, [7; 8; 7; 8]%nat, 1%nat, 0%nat.
  split; [exact Hg|]. split; [constructor|]. do 3 (split; [auto|]).
  apply surface_coords in Hg. destruct Hg as (pa & pb & perc & ax & bx & Ha & _ & _ & Hp & Hpl & Hdims & _).
  assert (length pa = 2%nat) as Hpa by (apply get_points_length in Ha; auto).
  rewrite perc_none, (to_perc_closed 1 None Constant) in Hp by constructor.
  apply Ok_inj in Hp.
  assert (length perc = 2%nat) as Hpc by (rewrite <- Hp; reflexivity).
  inversion Hpl; subst ax bx. rewrite Hdims, Hpa, Hpc. reflexivity.
Qed.

Lemma surface_data_reordered_wrong :
  exists (l : line nat) lb plane g w ax bx,
    generate_surface_from_two_lines no_areas (LinePoly l) lb plane ResNone None = Ok g /\
    plane_axes plane ax bx /\ direct_plane plane /\
    ln_pd l = [("v"%string, [7; 8]%nat)] /\ sg_pd g = [("v"%string, w)] /\
    (* the first point of the line is stored point 1, but the grid carries the value of point 0 *)
    nth_error (ln_ids l) 0 = Some 1%nat /\
    at_coord (sg_dims g) w (grid_coord ax bx 0 0) = Some 7%nat.
Proof.
  destruct (ex_surface "xy" [1; 0]%nat [(1,0,0); (0,0,0)]) as (g & Hg & Hd).
  { reflexivity. } { reflexivity. } { exists 0%nat, 1%nat; constructor. }
  exists (ex_line [1; 0]%nat), ex_top, "xy"%string, g, [7; 8; 7; 8]%nat, 0%nat, 1%nat.
  split; [exact Hg|]. split; [constructor|]. split; [constructor|]. do 3 (split; [auto|]).
  apply surface_coords in Hg. destruct Hg as (pa & pb & perc & ax & bx & Ha & _ & _ & Hp & Hpl & Hdims & _).
  inversion Hpl; subst ax bx. rewrite Hdims. unfold at_coord, fidx, grid_dims, grid_coord, setc.
  rewrite !Nat.mul_0_r. reflexivity.
Qed.
