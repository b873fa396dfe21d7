(* Cell centers: rows, versions, ghost array. *)
From Coq Require Import Reals Lra Ascii Permutation Psatz.
From Verif Require Import Center_model Volume_spec Topo_spec Topo2_proof Center_spec Center_proof.
Open Scope nat_scope.

(* ---- put_rows ---- *)
Definition ntrue (mask : list bool) : nat := length (filter (fun b => b) mask).

Lemma put_rows_Ok {A} mask (vals rows r : list A) : length mask = length rows -> put_rows mask vals rows = Ok r ->
  length r = length rows /\ length vals = ntrue mask /\
  forall i b, nth_error mask i = Some b ->
    nth_error r i = if b then nth_error vals (ntrue (firstn i mask)) else nth_error rows i.
Proof.
  revert vals rows r; induction mask as [|b mask IH]; intros vals [|x rows] r Hl H; try discriminate; simpl in H.
  - destruct vals; [|discriminate]. apply Ok_inj in H; subst. repeat split; auto. intros [|i] b; discriminate.
  - destruct b.
    + destruct vals as [|v vals]; [discriminate|].
      destruct (put_rows mask vals rows) as [t|] eqn:E; [|discriminate]. apply Ok_inj in H; subst.
      simpl in Hl; injection Hl as Hl. destruct (IH _ _ _ Hl E) as (A1 & A2 & A3). split; [simpl; lia|]. split; [unfold ntrue in *; simpl; lia|].
      intros [|i] b Hb; simpl in *; [injection Hb as <-; auto|]. apply A3 in Hb. exact Hb.
    + destruct (put_rows mask vals rows) as [t|] eqn:E; [|discriminate]. apply Ok_inj in H; subst.
      simpl in Hl; injection Hl as Hl. destruct (IH _ _ _ Hl E) as (A1 & A2 & A3). split; [simpl; lia|]. split; [unfold ntrue in *; simpl; lia|].
      intros [|i] b Hb; simpl in *; [injection Hb as <-; auto|]. apply A3 in Hb. exact Hb.
Qed.

Lemma put_rows_def {A} mask (vals rows : list A) : length mask = length rows -> length vals = ntrue mask ->
  exists r, put_rows mask vals rows = Ok r.
Proof.
  revert vals rows; induction mask as [|b mask IH]; intros vals [|x rows] Hl H; try discriminate; simpl.
  - destruct vals; [eauto|discriminate].
  - unfold ntrue in H. destruct b; simpl in H.
    + destruct vals as [|v vals]; [discriminate|]. destruct (IH vals rows) as [r ->]; simpl in *; [lia|unfold ntrue; lia|]. cbn [bind]; eauto.
    + destruct (IH vals rows) as [r ->]; simpl in *; [lia|unfold ntrue; lia|]. cbn [bind]; eauto.
Qed.

Lemma mask_get_nth {A} mask (l : list A) i : nth_error mask i = Some true -> length mask = length l ->
  nth_error (mask_get mask l) (ntrue (firstn i mask)) = nth_error l i.
Proof.
  revert l i; induction mask as [|b mask IH]; intros [|x l] [|i] H Hl; try discriminate; simpl in *.
  - injection H as ->; auto.
  - unfold ntrue in *. destruct b; simpl; apply IH; auto.
Qed.

(* ---- rows of VTK ---- *)
Lemma vtk_rows_spec vtk m points rows : vtk_rows vtk (UGrid m points) = Ok rows ->
  exists cs, vtk = Ok cs /\ length rows = length (v_types m) /\
    forall i t, nth_error (v_types m) i = Some t ->
      (t = 0 /\ nth_error rows i = Some None) \/
      (t <> 0 /\ exists c, vtk_center (v_types m) cs i c /\ nth_error rows i = Some (Some c)).
Proof.
  unfold vtk_rows. destruct vtk as [cs|]; [|discriminate]; cbn [bind]. intros H. exists cs; split; auto.
  apply put_rows_Ok in H; [|rewrite map_length, repeat_length; auto]. destruct H as (H1 & H2 & H3).
  rewrite repeat_length in H1. split; auto. intros i t Ht.
  specialize (H3 i (negb (t =? 0))). rewrite nth_error_map, Ht in H3. specialize (H3 eq_refl).
  assert (Hi : i < length (v_types m)) by (apply nth_error_Some; congruence).
  destruct (Nat.eqb_spec t 0) as [E|E]; simpl in H3.
  - left. split; auto. rewrite H3. rewrite repeat_nth_error; auto.
  - right. split; auto. unfold vtk_center, rank.
    assert (Er : ntrue (firstn i (map (fun t => negb (t =? 0)) (v_types m))) =
                 length (filter (fun t => negb (t =? 0)) (firstn i (v_types m)))).
    { rewrite firstn_map. unfold ntrue. clear. induction (firstn i (v_types m)) as [|x l IH]; auto.
      simpl. destruct (negb (x =? 0)); simpl; auto. }
    rewrite Er in H3. rewrite nth_error_map in H3.
    destruct (nth_error cs _) as [c|] eqn:Ec; [exists c; auto|].
    exfalso. simpl in H3. apply nth_error_None in H3. lia.
Qed.

(* ---- formulas ---- *)
Lemma fold_map3 (f : R -> R -> R) k ps p : k < 3 ->
  coord k (fold_left (map3 f) ps p) = fold_left f (map (coord k) ps) (coord k p).
Proof.
  intros Hk. revert p; induction ps as [|q ps IH]; intros p; auto. simpl. rewrite IH. f_equal.
  destruct p as [[? ?] ?], q as [[? ?] ?], k as [|[|]]; reflexivity.
Qed.

Lemma fold_min l x : (In (fold_left Rmin l x) (x :: l) /\ forall y, In y (x :: l) -> fold_left Rmin l x <= y)%R.
Proof.
  revert x; induction l as [|z l IH]; intros x; simpl.
  - split; auto. intros y [<-|[]]; lra.
  - destruct (IH (Rmin x z)) as [A B]. split.
    + destruct A as [A|A]; auto. rewrite <- A. unfold Rmin. destruct (Rle_dec x z); auto.
    + intros y Hy. assert (Hm : (fold_left Rmin l (Rmin x z) <= Rmin x z)%R) by (apply B; simpl; auto).
      pose proof (Rmin_l x z). pose proof (Rmin_r x z). destruct Hy as [<-|[<-|Hy]]; [lra|lra|apply B; simpl; auto].
Qed.

Lemma fold_max l x : (In (fold_left Rmax l x) (x :: l) /\ forall y, In y (x :: l) -> y <= fold_left Rmax l x)%R.
Proof.
  revert x; induction l as [|z l IH]; intros x; simpl.
  - split; auto. intros y [<-|[]]; lra.
  - destruct (IH (Rmax x z)) as [A B]. split.
    + destruct A as [A|A]; auto. rewrite <- A. unfold Rmax. destruct (Rle_dec x z); auto.
    + intros y Hy. assert (Hm : (Rmax x z <= fold_left Rmax l (Rmax x z))%R) by (apply B; simpl; auto).
      pose proof (Rmax_l x z). pose proof (Rmax_r x z). destruct Hy as [<-|[<-|Hy]]; [lra|lra|apply B; simpl; auto].
Qed.

Lemma box_spec ps c : box_center ps = Ok c -> mid_of_bounds ps c.
Proof.
  destruct ps as [|p ps]; [discriminate|]. unfold box_center. intros H%Ok_inj; subst c. intros k Hk.
  destruct (fold_min (map (coord k) ps) (coord k p)) as [A1 A2].
  destruct (fold_max (map (coord k) ps) (coord k p)) as [B1 B2].
  change (coord k p :: map (coord k) ps) with (map (coord k) (p :: ps)) in *.
  apply in_map_iff in A1 as (lo & Elo & Hlo). apply in_map_iff in B1 as (hi & Ehi & Hhi).
  exists lo, hi. split; auto. split; auto. split.
  - intros q Hq. rewrite Elo, Ehi. split; [apply A2|apply B2]; apply in_map; auto.
  - rewrite coord_scale3.
    assert (E : forall p q, coord k (map3 Rplus p q) = (coord k p + coord k q)%R).
    { intros [[? ?] ?] [[? ?] ?]. destruct k as [|[|]]; reflexivity. }
    rewrite E, !fold_map3 by auto. rewrite Elo, Ehi. lra.
Qed.

Lemma geometric_spec ps : (ps = [] /\ geometric_center ps = None) \/ exists d, geometric_center ps = Some d /\ mean_of ps d.
Proof.
  destruct ps as [|p ps]; [left; auto|right]. unfold geometric_center. eexists; split; [reflexivity|].
  split; [discriminate|]. intros k Hk. rewrite coord_scale3, coord_sum3 by auto. field.
  apply not_0_INR. simpl; lia.
Qed.

Lemma points_Ok points ids ps : mapM (point_at points) ids = Ok ps <-> cell_points points ids ps.
Proof.
  rewrite mapM_Ok. unfold cell_points. split; intros H; induction H; constructor; auto; apply point_at_Ok; auto.
Qed.

Lemma tetra_spec points ids faces c : tetra_center points ids faces = Ok c ->
  exists i0 rest a, ids = i0 :: rest /\ nth_error points i0 = Some a /\ tet_centroid (at_pts points) a faces c.
Proof.
  intros H. assert (H' := H). unfold tetra_center in H'. rewrite fans_are in H'.
  destruct (triangles faces) as [|t0 tris] eqn:Et; [discriminate|].
  destruct ids as [|i0 rest]; [discriminate|].
  destruct (point_at points i0) as [a|] eqn:Ea; [|discriminate]; cbn [bind] in H'.
  destruct (mapM _ (t0 :: tris)) as [tets|] eqn:Em in H'; [|discriminate]. clear H'.
  apply point_at_Ok in Ea. exists i0, rest, a. split; auto. split; auto.
  destruct (tetra_center_eq points i0 rest a faces tets) as [A B]; auto; [congruence|rewrite Et; exact Em|].
  destruct (Req_EM_T (rsum (map (vol6 (at_pts points) a) (triangles faces))) 0) as [E|E].
  - rewrite A in H by auto; discriminate.
  - destruct (B E) as (d & Hd & Hc). rewrite Hd in H. apply Ok_inj in H; subst d. split; auto.
Qed.

(* ---- rows of polyhedra ---- *)
Definition gate (version method : string) : bool :=
  if String.eqb method "box" then use_box version
  else if String.eqb method "geometric" then use_geometric version
  else if String.eqb method "tetra" then use_tetra version else false.

Lemma mapM_nth {A B} (f : A -> res B) l r i y : mapM f l = Ok r -> nth_error r i = Some y ->
  exists x, nth_error l i = Some x /\ f x = Ok y.
Proof.
  intros H Hy. apply mapM_Ok in H. revert i Hy; induction H as [|x z l r Hx H IH]; intros [|i] Hy; try discriminate; simpl in *; eauto.
  injection Hy as <-; eauto.
Qed.

Lemma mask_poly types i t : nth_error types i = Some t -> nth_error (map (Nat.eqb 42) types) i = Some (42 =? t).
Proof. intros H; rewrite nth_error_map, H; auto. Qed.

Lemma tetra_rows_Ok points all : forall cells locs mask rows r, length cells = length rows -> length mask = length rows ->
  length locs = length rows ->
  tetra_rows points all cells locs mask rows = Ok r ->
  length r = length rows /\
  forall i, (nth_error mask i = Some false -> nth_error r i = nth_error rows i) /\
    (nth_error mask i = Some true -> exists ids loc faces c, nth_error cells i = Some ids /\ nth_error locs i = Some loc /\
       Forall2 (fun l f => nth_error all l = Some f) loc faces /\ tetra_center points ids faces = Ok c /\
       nth_error r i = Some (Some c)).
Proof.
  induction cells as [|ids cells IH]; intros [|loc locs] [|m mask] [|row rows] r L1 L2 L3 H; try discriminate; cbn [tetra_rows] in H.
  - apply Ok_inj in H; subst. split; auto. intros [|i]; split; discriminate.
  - destruct (if m then _ else _) as [row'|] eqn:Er; [|discriminate]; cbn [bind] in H.
    destruct (tetra_rows points all cells locs mask rows) as [rest|] eqn:E; [|discriminate]; cbn [bind] in H.
    apply Ok_inj in H; subst r. destruct (IH locs mask rows rest) as [A B]; simpl in *; auto; try lia.
    split; [lia|]. intros [|i]; [|apply B]. cbn [nth_error]. split; intros [= ->].
    + apply Ok_inj in Er; subst; auto.
    + destruct (pick_faces all loc) as [faces|] eqn:Ef; [|discriminate]; cbn [bind] in Er.
      destruct (tetra_center points ids faces) as [c|] eqn:Ec; [|discriminate]; cbn [bind] in Er.
      apply Ok_inj in Er; subst row'. exists ids, loc, faces, c. repeat split; auto. apply pick_faces_Ok; auto.
Qed.

Lemma polyhedron_rows_spec version method points m rows r : wf_mesh m -> length rows = length (v_types m) ->
  length (v_locs m) = length (v_types m) ->
  polyhedron_rows version (Some method) points m rows = Ok r ->
  length r = length rows /\
  forall i t, nth_error (v_types m) i = Some t ->
    if (t =? 42) && gate version method
    then exists c, nth_error r i = Some c /\ method_center method points m i c
    else nth_error r i = nth_error rows i.
Proof.
  intros [W1 W2] Hr HL H. unfold polyhedron_rows in H. set (mask := map (Nat.eqb 42) (v_types m)) in *.
  assert (Hml : length mask = length (v_types m)) by (unfold mask; rewrite map_length; auto).
  assert (Hmask : forall i t, nth_error (v_types m) i = Some t -> nth_error mask i = Some (t =? 42)).
  { intros i t Ht. rewrite Nat.eqb_sym. apply mask_poly; auto. }
  destruct (existsb (fun b => b) mask) eqn:Eany; cbn [negb] in H.
  2:{ apply Ok_inj in H; subst r. split; auto. intros i t Ht.
      destruct (t =? 42) eqn:E42; cbn [andb]; auto. exfalso.
      assert (existsb (fun b => b) mask = true); [|congruence]. apply existsb_exists. exists true; split; auto.
      apply Hmask in Ht. rewrite E42 in Ht. exact (nth_error_In _ _ Ht). }
  unfold gate.
  destruct (String.eqb_spec method "box") as [->|Nb].
  - cbn [andb] in H. change (String.eqb "box" "geometric") with false in *. change (String.eqb "box" "tetra") with false in *. cbn [andb] in H.
    destruct (use_box version); [|apply Ok_inj in H; subst; split; auto; intros i t _; rewrite andb_false_r; auto].
    destruct (mapM (mapM (point_at points)) _) as [pts|] eqn:Ep; [|discriminate]; cbn [bind] in H.
    destruct (mapM box_center pts) as [cs|] eqn:Ec; [|discriminate]; cbn [bind] in H.
    apply put_rows_Ok in H; [|lia]. destruct H as (H1 & H2 & H3). split; auto. intros i t Ht.
    pose proof (H3 i _ (Hmask _ _ Ht)) as H. destruct (t =? 42) eqn:E42; cbn [andb]; auto.
    rewrite nth_error_map in H.
    assert (Hi : i < length (v_types m)) by (apply nth_error_Some; congruence).
    destruct (nth_error cs (ntrue (firstn i mask))) as [c|] eqn:Ecs.
    2:{ simpl in H. apply nth_error_None in H. lia. }
    destruct (mapM_nth _ _ _ _ _ Ec Ecs) as (ps & Hps & Hbox).
    destruct (mapM_nth _ _ _ _ _ Ep Hps) as (ids & Hids & Hpts).
    rewrite mask_get_nth in Hids by (try lia; rewrite (Hmask _ _ Ht), E42; auto).
    exists (Some c); split; auto. exists ids; split; auto. left; split; auto. exists ps, c. split; [apply points_Ok; auto|].
    split; auto. apply box_spec; auto.
  - destruct (String.eqb_spec method "geometric") as [->|Ng].
    + cbn [andb] in H. change (String.eqb "geometric" "tetra") with false in H. cbn [andb] in H.
      destruct (use_geometric version); [|apply Ok_inj in H; subst; split; auto; intros i t _; rewrite andb_false_r; auto].
      destruct (mapM (mapM (point_at points)) _) as [pts|] eqn:Ep; [|discriminate]; cbn [bind] in H.
      apply put_rows_Ok in H; [|lia]. destruct H as (H1 & H2 & H3). split; auto. intros i t Ht.
      pose proof (H3 i _ (Hmask _ _ Ht)) as H. destruct (t =? 42) eqn:E42; cbn [andb]; auto.
      rewrite nth_error_map in H.
      assert (Hi : i < length (v_types m)) by (apply nth_error_Some; congruence).
      destruct (nth_error pts (ntrue (firstn i mask))) as [ps|] eqn:Ecs.
      2:{ simpl in H. apply nth_error_None in H. lia. }
      destruct (mapM_nth _ _ _ _ _ Ep Ecs) as (ids & Hids & Hpts).
      rewrite mask_get_nth in Hids by (try lia; rewrite (Hmask _ _ Ht), E42; auto).
      exists (geometric_center ps); split; auto. exists ids; split; auto. right; left; split; auto.
      exists ps. split; [apply points_Ok; auto|]. apply geometric_spec.
    + cbn [andb] in H.
      destruct (String.eqb_spec method "tetra") as [->|Nt]; cbn [andb] in H.
      2:{ apply Ok_inj in H; subst; split; auto. intros i t _; rewrite andb_false_r; auto. }
      destruct (use_tetra version); [|apply Ok_inj in H; subst; split; auto; intros i t _; rewrite andb_false_r; auto].
      apply tetra_rows_Ok in H; [|lia..]. destruct H as [H1 H2]. split; auto. intros i t Ht.
      destruct (H2 i) as [Hf Hg]. rewrite (Hmask _ _ Ht) in Hf, Hg. destruct (t =? 42); cbn [andb]; auto.
      destruct (Hg eq_refl) as (ids & loc & faces & c & A & B & C & D & E).
      exists (Some c); split; auto. exists ids; split; auto. right; right; split; auto.
      destruct (tetra_spec _ _ _ _ D) as (i0 & rest & a & -> & Ha & Hc).
      exists i0, rest, a, faces, c. repeat split; auto; try apply Hc. exists loc; auto.
Qed.

Theorem centers_spec vtk version method points m ghosts rows after : wf_mesh m ->
  length (v_locs m) = length (v_types m) ->
  get_cell_centers vtk version (Some method) (UGrid m points) ghosts = (Ok rows, after) ->
  exists cs, vtk = Ok cs /\ length rows = length (v_types m) /\
    forall i t, nth_error (v_types m) i = Some t ->
      if (t =? 42) && gate version method
      then exists c, nth_error rows i = Some c /\ method_center method points m i c
      else (t = 0 /\ nth_error rows i = Some None) \/
           (t <> 0 /\ exists c, vtk_center (v_types m) cs i c /\ nth_error rows i = Some (Some c)).
Proof.
  intros W HL H. unfold get_cell_centers in H.
  destruct (vtk_rows vtk (UGrid m points)) as [rows0|] eqn:E0; [|discriminate]; cbn [bind] in H.
  destruct (polyhedron_rows version (Some method) points m rows0) as [r|] eqn:E1; [|discriminate].
  apply pair_equal_spec in H as [H _]. apply Ok_inj in H; subst r.
  destruct (vtk_rows_spec _ _ _ _ E0) as (cs & -> & Hl & Hrow).
  exists cs; split; auto.
  destruct (polyhedron_rows_spec _ _ _ _ _ _ W Hl HL E1) as [A B]. split; [lia|].
  intros i t Ht. specialize (B i t Ht). destruct ((t =? 42) && gate version method); auto.
  rewrite B. apply Hrow; auto.
Qed.

Theorem ghosts_kept vtk version method g ghosts rows after :
  get_cell_centers vtk version method g ghosts = (Ok rows, after) -> after = ghosts.
Proof.
  unfold get_cell_centers. destruct (bind _ _); intros H; apply pair_equal_spec in H as [H1 H2]; congruence.
Qed.

(* ---- versions ---- *)
Lemma value_acc s : forall acc n, value acc s = Some n -> acc <= n.
Proof.
  induction s as [|c s IH]; intros acc n H; simpl in H; [injection H as <-; auto|].
  destruct (digit c) as [d|]; [|discriminate]. apply IH in H. lia.
Qed.

Lemma digit_spec c d : digit c = Some d -> nat_of_ascii c = 48 + d /\ d < 10.
Proof.
  unfold digit. destruct (48 <=? nat_of_ascii c) eqn:E1, (nat_of_ascii c <=? 57) eqn:E2; simpl; try discriminate.
  apply Nat.leb_le in E1, E2. intros [= <-]. lia.
Qed.

(* a numeral below ten has one digit *)
Lemma numeral_small s n : numeral s n -> n < 10 -> exists c, s = String c EmptyString /\ nat_of_ascii c = 48 + n.
Proof.
  intros (Hne & Hv & Hz) Hn. destruct s as [|c s]; [congruence|]. simpl in Hv.
  destruct (digit c) as [d|] eqn:Ed; [|discriminate]. destruct (digit_spec _ _ Ed) as [Hc Hd].
  destruct s as [|c2 s]; [simpl in Hv; exists c; split; auto; injection Hv as Hv; lia|].
  exfalso. destruct d as [|d].
  - assert (c = "0"%char). { rewrite <- (ascii_nat_embedding c), Hc. reflexivity. }
    subst c. specialize (Hz _ eq_refl). discriminate.
  - simpl in Hv. destruct (digit c2) as [d2|]; [|discriminate]. apply value_acc in Hv. lia.
Qed.

(* first character of a numeral *)
Lemma numeral_head s n : numeral s n -> exists c s', s = String c s' /\ 48 <= nat_of_ascii c <= 57 /\
  (nat_of_ascii c = 48 <-> n = 0) /\ (n = 0 -> s' = EmptyString).
Proof.
  intros (Hne & Hv & Hz). destruct s as [|c s]; [congruence|]. exists c, s. split; auto. simpl in Hv.
  destruct (digit c) as [d|] eqn:Ed; [|discriminate]. destruct (digit_spec _ _ Ed) as [Hc Hd].
  assert (H0 : d = 0 -> s = EmptyString).
  { intros ->. apply Hz. f_equal. rewrite <- (ascii_nat_embedding c), Hc. reflexivity. }
  assert (Hn : d = 0 <-> n = 0).
  { split; [intros E|intros ->].
    - rewrite (H0 E) in Hv. simpl in Hv. injection Hv as Hv. lia.
    - apply value_acc in Hv. lia. }
  split; [lia|]. split; [|intros E; apply H0, Hn; auto]. rewrite <- Hn. lia.
Qed.

Lemma str_leb_cons x a y b : str_leb (String x a) (String y b) =
  if nat_of_ascii x <? nat_of_ascii y then true else if nat_of_ascii y <? nat_of_ascii x then false else str_leb a b.
Proof. reflexivity. Qed.

Ltac cmp := repeat match goal with |- context [?x <? ?y] => destruct (Nat.ltb_spec x y) end.

Lemma gates s a b c : version_of s (a, b, c) -> a < 10 -> b < 10 ->
  (use_box s = true <-> ver_le (9, 5, 0) (a, b, c)) /\
  (use_geometric s = true <-> (a, b, c) <> (9, 5, 0)) /\
  (use_tetra s = true <-> ver_le (a, b, c) (9, 5, 0)).
Proof.
  intros (sa & sb & sc & Ha & Hb & Hc & ->) La Lb.
  destruct (numeral_small _ _ Ha La) as (ca & -> & Ea). destruct (numeral_small _ _ Hb Lb) as (cb & -> & Eb).
  destruct (numeral_head _ _ Hc) as (cc & rest & -> & Ec & E0 & Er).
  unfold use_box, use_geometric, use_tetra, ver_le. cbn [append]. rewrite !str_leb_cons.
  change (nat_of_ascii "9"%char) with 57. change (nat_of_ascii "5"%char) with 53. change (nat_of_ascii "0"%char) with 48.
  change (nat_of_ascii "."%char) with 46. rewrite Ea, Eb. change (46 <? 46) with false. cbv iota.
  split; [|split].
  - cmp; split; intros H'; try reflexivity; try lia; try discriminate; exfalso; lia.
  - rewrite negb_true_iff, String.eqb_neq.
    assert (Hdig : forall x n, nat_of_ascii x = 48 + n -> forall d, x = ascii_of_nat (48 + d) -> n < 10 -> d < 10 -> n = d).
    { intros x n H1 d -> Hn Hd. rewrite nat_ascii_embedding in H1; lia. }
    split.
    + intros H [= -> -> ->]. apply H.
      assert (ca = "9"%char) by (rewrite <- (ascii_nat_embedding ca), Ea; reflexivity).
      assert (cb = "5"%char) by (rewrite <- (ascii_nat_embedding cb), Eb; reflexivity).
      assert (cc = "0"%char) by (rewrite <- (ascii_nat_embedding cc), (proj2 E0 eq_refl); reflexivity).
      subst. rewrite Er; auto.
    + intros H [= -> -> -> ->]. apply H. f_equal; [f_equal|].
      * change (nat_of_ascii "9"%char) with 57 in Ea; lia.
      * change (nat_of_ascii "5"%char) with 53 in Eb; lia.
      * apply E0; reflexivity.
  - cmp; try (split; intros H'; try reflexivity; try lia; try discriminate; exfalso; lia).
    assert (nat_of_ascii cc = 48) as E48 by lia. assert (c = 0) by (apply E0; auto).
    rewrite Er by auto. cbn [str_leb]. split; auto. intros _. lia.
Qed.
