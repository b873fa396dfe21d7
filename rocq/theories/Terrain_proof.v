From Verif Require Import RealAux Perc_model Perc_spec Perc_proof Surface_model Surface_spec Surface_proof
  Volume_model Volume_spec Volume_proof SMerge_model SMerge_spec Groups_model Groups_spec
  Stack_model Stack_spec Stack3_proof Stack6_proof Final_model Final_spec Final4_proof Settle_spec Settle_proof
  Objects_model Pile_model Pile_spec Pile_proof Terrain_model Terrain_spec.
From Coq Require Import Lra.
Open Scope nat_scope.

Lemma map2_map_fst_2 {A B C} (f : A -> C) (g : A -> B -> A) : (forall a b, f (g a b) = f a) -> forall l m, length l = length m ->
  map f (map2 g l m) = map f l.
Proof.
  intros H. induction l as [|a l IH]; intros [|b m] L; cbn in L |- *; try discriminate; [reflexivity|]. rewrite H, IH by lia. reflexivity.
Qed.

Lemma flat_map_ext_in2 {A B} (f g : A -> list B) l : (forall x, In x l -> f x = g x) -> flat_map f l = flat_map g l.
Proof. induction l as [|a l IH]; intros H; [reflexivity|]. cbn. rewrite H, IH; auto with datatypes. Qed.

Lemma nth_NoDup {A} (l : list A) : (forall i j x, nth_error l i = Some x -> nth_error l j = Some x -> i = j) -> NoDup l.
Proof.
  intros H. apply NoDup_nth_error. intros i j Hi E. destruct (nth_error l i) as [x|] eqn:Ei; [|now apply nth_error_Some in Hi].
  exact (H i j x Ei (eq_sym E)).
Qed.

Section Terrain.
Context {D : Type} (num : Z -> D) (int : D -> Z) (Hint : forall z, int (num z) = z) (real : D -> R).
Context (volumes : shape3 -> list pt -> list R) (Hvol : forall dims pts, length (volumes dims pts) = n_cells dims).
Context (other : list R -> list R -> list R -> list R)
  (linear : list (R * R) -> list R -> list (R * R) -> res (list (option R))) (Hlin : reproduces linear)
  (nearest : list (R * R) -> list R -> R * R -> R).
Context (nx ny nz : nat) (ox oy oz sx sy sz : R) (scal : list D).
Context (Hx : 901 <= nx) (Hy : 801 <= ny) (Hz : 1 <= nz) (Hs : length scal = nx * ny * nz) (Hsx : (0 < sx)%R) (Hsy : (0 < sy)%R).

Let im := mkImage (nx, ny, nz) (ox, oy, oz) (sx, sy, sz) scal.
Let sub := extract_subset (num 0%Z) im 500 900 400 800 10 10.
Let base := cast_to_structured "scalar1of1" sub.
Let F i j := (ox + INR (500 + 10 * i) * sx, oy + INR (400 + 10 * j) * sy, oz)%R : pt.
Let S0 i j := nth (fidx (nx, ny, nz) (500 + 10 * i, 400 + 10 * j, 0)) scal (num 0%Z).

Lemma sub_dims : im_dims sub = (41, 41, 1).
Proof. reflexivity. Qed.

Lemma sub_scal : im_scal sub = ravelF 41 41 1 (fun i j _ => S0 i j).
Proof. reflexivity. Qed.

Lemma ravelF_ext {A} a b c (f g : nat -> nat -> nat -> A) : (forall i j k, i < a -> j < b -> k < c -> f i j k = g i j k) ->
  ravelF a b c f = ravelF a b c g.
Proof.
  intros H. unfold ravelF. apply flat_map_ext_in2. intros k Hk. apply in_seq in Hk.
  apply flat_map_ext_in2. intros j Hj. apply in_seq in Hj. apply map_ext_in. intros i Hi. apply in_seq in Hi. apply H; lia.
Qed.

Lemma base_points : ss_pts (sb_surf base) = ravelF 41 41 1 (fun i j _ => F i j).
Proof.
  change (ravelF 41 41 1 (fun i j k => (ox + INR 500 * sx + INR i * (INR 10 * sx), oy + INR 400 * sy + INR j * (INR 10 * sy), oz + INR k * sz)%R)
    = ravelF 41 41 1 (fun i j _ => F i j)).
  apply ravelF_ext. intros i j k _ _ Hk. assert (k = 0) as -> by lia. unfold F.
  rewrite !plus_INR, !mult_INR. change (INR 0) with 0%R.
  apply injective_projections; [apply injective_projections|]; cbn [fst snd]; ring.
Qed.

Let P := ss_pts (sb_surf base).
Let H0 := map real (im_scal sub).
Let W := warp_by_scalar P H0.

Lemma P_len : length P = 41 * 41 * 1.
Proof. unfold P. rewrite base_points. apply ravelF_length. Qed.
Lemma H_len : length H0 = 41 * 41 * 1.
Proof. unfold H0. rewrite map_length, sub_scal. apply ravelF_length. Qed.

Lemma P_nth i j : i < 41 -> j < 41 -> nth_error P (fidx (41, 41, 1) (i, j, 0)) = Some (F i j).
Proof. intros Hi Hj. unfold P. rewrite base_points. rewrite ravelF_fidx; [reflexivity|]. unfold in_shape. lia. Qed.
Lemma H_nth i j : i < 41 -> j < 41 -> nth_error H0 (fidx (41, 41, 1) (i, j, 0)) = Some (real (S0 i j)).
Proof. intros Hi Hj. unfold H0. rewrite nth_error_map, sub_scal, ravelF_fidx; [reflexivity|]. unfold in_shape. lia. Qed.

Lemma W_len : length W = length P.
Proof. unfold W, warp_by_scalar. rewrite map2_length, P_len, H_len. reflexivity. Qed.

Lemma W_coord k : k <> 2 -> k <= 2 -> map (coord k) W = map (coord k) P.
Proof.
  intros H1 H2. unfold W, warp_by_scalar. apply map2_map_fst_2; [|rewrite P_len, H_len; reflexivity].
  intros [[x y] z] b. destruct k as [|[|[|]]]; try lia; reflexivity.
Qed.

Lemma W_nth i j : i < 41 -> j < 41 ->
  nth_error W (fidx (41, 41, 1) (i, j, 0)) = Some (fst (F i j), (oz + real (S0 i j))%R).
Proof. intros Hi Hj. unfold W, warp_by_scalar. rewrite map2_nth_error, P_nth, H_nth by assumption. reflexivity. Qed.

Lemma INR_neq a b : a <> b -> INR a <> INR b.
Proof. intros H E. apply H. now apply INR_eq. Qed.

Lemma varies_in l x y : In x l -> In y l -> x <> y -> varies l = true.
Proof.
  intros H1 H2 H. destruct l as [|a l]; [destruct H1|]. cbn [varies].
  assert (forall z, In z (a :: l) -> z <> a -> existsb (fun y => negb (Reqb a y)) l = true) as HE.
  { intros z [->|Hin] Hn; [congruence|]. apply existsb_exists. exists z. split; [exact Hin|].
    destruct (Reqb_spec a z); [congruence|reflexivity]. }
  destruct (Req_dec x a) as [->|Hx']; [|now apply (HE x)]. apply (HE y); auto.
Qed.

Lemma P_in i j : i < 41 -> j < 41 -> In (F i j) P.
Proof. intros Hi Hj. eapply nth_error_In. now apply P_nth. Qed.

Lemma W_axes : other_axes 2 W = [0; 1].
Proof.
  unfold other_axes. cbn [filter Nat.eqb negb andb].
  rewrite (W_coord 0), (W_coord 1) by lia.
  rewrite (varies_in (map (coord 0) P) (coord 0 (F 0 0)) (coord 0 (F 1 0))); [|apply in_map, P_in; lia|apply in_map, P_in; lia|].
  rewrite (varies_in (map (coord 1) P) (coord 1 (F 0 0)) (coord 1 (F 0 1))); [|apply in_map, P_in; lia|apply in_map, P_in; lia|].
  - reflexivity.
  - unfold F, coord. rewrite !plus_INR, !mult_INR. cbn -[INR]. rewrite Rmult_0_r, Rmult_1_r. intros E.
    assert (INR 10 * sy = 0)%R as E' by lra. apply Rmult_integral in E' as [E'|E']; [|lra]. cbn in E'. lra.
  - unfold F, coord. rewrite !plus_INR, !mult_INR. cbn -[INR]. rewrite Rmult_0_r, Rmult_1_r. intros E.
    assert (INR 10 * sx = 0)%R as E' by lra. apply Rmult_integral in E' as [E'|E']; [|lra]. cbn in E'. lra.
Qed.

Let two (p : pt) : R * R := (coord 0 p, coord 1 p).

Lemma W_two : map two W = map two P.
Proof.
  unfold W, warp_by_scalar. apply map2_map_fst_2; [|rewrite P_len, H_len; reflexivity]. intros [[x y] z] b. reflexivity.
Qed.

Lemma P_at m p : nth_error P m = Some p -> exists i j, i < 41 /\ j < 41 /\ m = fidx (41, 41, 1) (i, j, 0) /\ p = F i j.
Proof.
  intros E. assert (Hm : m < 41 * 41 * 1) by (rewrite <- P_len; apply nth_error_Some; congruence).
  destruct (fidx_surj (41, 41, 1) m Hm) as ([[i j] k] & (Hi & Hj & Hk) & <-). assert (k = 0) as -> by lia.
  exists i, j. rewrite P_nth in E by assumption. injection E as <-. auto.
Qed.

Lemma scale_inj o s a b : (s > 0)%R -> (o + INR a * s = o + INR b * s)%R -> a = b.
Proof.
  intros Hp E. apply INR_eq. assert ((INR a - INR b) * s = 0)%R as E' by lra. apply Rmult_integral in E' as [E'|E']; lra.
Qed.

Lemma two_NoDup : NoDup (map two P).
Proof.
  apply nth_NoDup. intros m m' q E E'. rewrite nth_error_map in E, E'.
  destruct (nth_error P m) as [p|] eqn:Ep; [|discriminate]. destruct (nth_error P m') as [p'|] eqn:Ep'; [|discriminate].
  cbn [option_map] in E, E'. injection E as Eq. injection E' as Eq'. rewrite <- Eq' in Eq. clear Eq'.
  apply P_at in Ep as (i & j & Hi & Hj & -> & ->). apply P_at in Ep' as (i' & j' & Hi' & Hj' & -> & ->).
  pose proof (f_equal fst Eq) as E1. pose proof (f_equal snd Eq) as E2. clear Eq.
  unfold two, F, coord in E1, E2. cbn -[INR Nat.add Nat.mul] in E1, E2.
  apply scale_inj in E1; [|exact Hsx]. apply scale_inj in E2; [|exact Hsy].
  assert (i = i') as -> by lia. assert (j = j') as -> by lia. reflexivity.
Qed.

Lemma two_free : not_aligned (map two P).
Proof.
  exists (two (F 0 0)), (two (F 1 0)), (two (F 0 1)).
  split; [apply in_map, P_in; lia|]. split; [apply in_map, P_in; lia|]. split; [apply in_map, P_in; lia|].
  unfold two, F, coord. cbn [fst snd]. rewrite !plus_INR, !mult_INR.
  change (INR 0) with 0%R. change (INR 1) with 1%R. intros E.
  assert (INR 10 * INR 10 * (sx * sy) = 0)%R as E' by (ring_simplify in E; ring_simplify; lra).
  assert (INR 10 = 10)%R as E10 by (cbn; lra). rewrite E10 in E'.
  assert (sx * sy = 0)%R as E2 by lra. apply Rmult_integral in E2 as [E2|E2]; lra.
Qed.

Lemma interp_terrain : interpolate other linear nearest 2 W P None = Ok (map (coord 2) W).
Proof.
  unfold interpolate. rewrite W_axes. change (fun p => (coord 0 p, coord 1 p)) with two. rewrite W_two.
  rewrite (Hlin (map two P) (map (coord 2) W) two_NoDup two_free) by (rewrite !map_length; apply W_len).
  cbn [bind]. generalize (map (coord 2) W). intros zs.
  assert (existsb (fun o => match o with None => true | _ => false end) (map Some zs) = false) as ->.
  { induction zs; [reflexivity|]. exact IHzs. }
  rewrite map_map, map_id. reflexivity.
Qed.

Lemma base_wf : wf_base (41, 41, 1) base.
Proof.
  split; [reflexivity|]. split; [exact P_len|]. split; [cbn; constructor|].
  split; [|split; [|split]]; idtac.
  - change (forall k v, In (k, v) [("scalar1of1"%string, im_scal sub)] -> length v = 41 * 41 * 1).
    intros k v [E|[]]. pose proof (f_equal snd E) as Ev. cbn [snd] in Ev. rewrite <- Ev, sub_scal. apply ravelF_length.
  - intros k v [].
  - discriminate.
  - discriminate.
Qed.

Lemma base_unit : unit_along 2 (41, 41, 1).
Proof. split; [reflexivity|]. intros [|[|[|]]] H1 H2; cbn; lia. Qed.

Let interp := fun points base => interpolate other linear nearest 2 points base None.
Let calls := [mkStCall (ArgScalar 0) (mkAdd ResNone None 0%Z 0 GNone);
  mkStCall (ArgMesh W) (mkAdd (ResInt 10) (Some "log_r"%string) 0%Z 0 GNone)].

Lemma terrain_run : load_topographic_terrain num int real volumes other linear nearest im =
  stack3d_program num int volumes interp (mk_options "" []) 2 true base calls.
Proof. reflexivity. Qed.

Lemma terrain_accepted : Forall (accepted interp (ss_pts (sb_surf base))) calls.
Proof.
  constructor; [exact I|]. constructor; [|constructor]. exists (map (coord 2) W). split; [exact interp_terrain|]. rewrite map_length. exact W_len.
Qed.

Lemma terrain_perc : resolution_to_perc (ResInt 10) (Some "log_r"%string) = Ok (map log_r (seq 0 11)).
Proof.
  rewrite (to_perc_closed 10%Z (Some "log_r"%string) LogR) by constructor. change (Z.to_nat (Z.max 1 10)) with 10. f_equal.
  apply map_ext. intros k. unfold pfun, log_r, log10. replace (INR 10) with 10%R by (cbn; lra). reflexivity.
Qed.

Lemma log_r_ends : log_r 0 = 0%R /\ log_r 10 = 1%R.
Proof.
  unfold log_r. split.
  - replace (1 + 9 * INR 0 / 10)%R with 1%R by (cbn; lra). rewrite ln_1. unfold Rdiv. apply Rmult_0_l.
  - replace (1 + 9 * INR 10 / 10)%R with 10%R by (cbn; lra). apply Rinv_r. intros E. assert (ln 1 < ln 10)%R by (apply ln_increasing; lra). rewrite ln_1 in *. lra.
Qed.

Lemma terrain_regular : Forall regular_call (tl calls).
Proof.
  constructor; [|constructor]. split; [|left; reflexivity]. exists (map log_r (seq 0 11)). split; [exact terrain_perc|].
  rewrite map_length, seq_length. split; [lia|]. destruct log_r_ends as [E0 E1]. split.
  - cbn [seq map nth_error]. now rewrite E0.
  - rewrite nth_error_map. cbn [Nat.sub seq nth_error option_map]. now rewrite E1.
Qed.

Lemma terrain_layers ns : call_layers (tl calls) ns -> ns = [10].
Proof.
  intros H. inversion H as [|? n1 ? l1 H1 H']; subst. inversion H'; subst.
  destruct H1 as (p & E & ->). cbn [sc_opts ao_res ao_method] in E. rewrite terrain_perc in E.
  apply Ok_inj in E. subst p. rewrite map_length, seq_length. reflexivity.
Qed.

Lemma terrain_nodes : exists g labels, load_topographic_terrain num int real volumes other linear nearest im = Ok (g, labels) /\
  sg_dims g = (41, 41, 11) /\ length (sg_pts g) = 41 * 41 * 11 /\
  forall i j k s, i <= 40 -> j <= 40 -> k <= 10 ->
    nth_error scal (fidx (nx, ny, nz) (500 + 10 * i, 400 + 10 * j, 0)) = Some s ->
    at_coord (41, 41, 11) (sg_pts g) (i, j, k) =
      Some (ox + INR (500 + 10 * i) * sx, oy + INR (400 + 10 * j) * sy, Rmin 0 (oz + real s) + log_r k * ((oz + real s) - Rmin 0 (oz + real s)))%R.
Proof.
  destruct (pile_made num interp 2 true base calls terrain_accepted) as (its & HM & HS).
  assert (L2 : 2 <= length calls) by (cbn; lia).
  destruct (pile_run num int Hint volumes interp (mk_options "" []) 2 (41, 41, 1) (le_n 2) base_unit true base base_wf calls L2 terrain_accepted terrain_regular its HM HS)
    as (g & labels & js & E & EP).
  destruct (pile_nodes num int volumes interp (mk_options "" []) 2 (41, 41, 1) (le_n 2) base_unit true base base_wf calls L2 terrain_accepted terrain_regular its g labels js HM E)
    as (ns & HL & Hd & Hlen & HN).
  rewrite (terrain_layers _ HL) in *. clear HL ns. change (setc 2 (S (list_sum [10])) (41, 41, 1)) with (41, 41, 11) in Hd. rewrite Hd in *.
  exists g, labels. split; [exact EP|]. split; [exact Hd|]. split; [exact Hlen|].
  intros i j k s Hi Hj Hk Hsc.
  assert (Hc : in_shape (41, 41, 1) (i, j, 0)) by (unfold in_shape; lia).
  destruct (HN (i, j, 0) (F i j) Hc (P_nth i j ltac:(lia) ltac:(lia))) as (ls & out & HH & HO & _ & HP).
  assert (ES : S0 i j = s) by (unfold S0; now apply nth_error_nth).
  inversion HH as [|? ? z0 ? l0 R0 G0]; subst. inversion G0 as [|? ? z1 ? l1 R1 G1]; subst. inversion G1; subst.
  inversion R0; subst. inversion R1 as [| | |? pts zs z' Hzs Hn|]; subst.
  assert (EZ : zs = map (coord 2) W) by (apply Ok_inj; rewrite <- Hzs; exact interp_terrain). subst zs.
  rewrite nth_error_map, (W_nth i j) in Hn by lia. cbn [option_map] in Hn. injection Hn as Ez.
  assert (EZ1 : z1 = (oz + real (S0 i j))%R) by (rewrite <- Ez; reflexivity). clear Ez. subst z1.
  cbn [settles sc_opts ao_prio ao_thick] in HO. inversion HO as [|? ? ? ? ? ? ? o1 Lt SS|? ? ? ? ? ? ? o1 Le SS]; subst; [lia|]. inversion SS; subst.
  assert (Hperc : nth_error (map log_r (seq 0 11)) k = Some (log_r k)).
  { rewrite nth_error_map, nth_error_seq. destruct (Nat.ltb_spec k 11); [reflexivity|lia]. }
  refine (eq_trans (HP 0 _ _ k _ _ _ eq_refl terrain_perc Hperc (or_introl eq_refl) eq_refl eq_refl) _).
  unfold at_height, F. rewrite Rminus_0_r. reflexivity.
Qed.

Lemma terrain_groups g labels : load_topographic_terrain num int real volumes other linear nearest im = Ok (g, labels) ->
  exists cg names, In ("CellGroup"%string, cg) (sg_cd g) /\ get_cell_group (Some (map int cg)) (Some labels) = Ok (Some (inl names)) /\
    length names = 40 * 40 * 10 /\ (forall k, In k names -> k = "default"%string) /\ (forall k, In k (map fst labels) <-> k = "default"%string).
Proof.
  intros E0.
  destruct (pile_made num interp 2 true base calls terrain_accepted) as (its & HM & HS).
  assert (L2 : 2 <= length calls) by (cbn; lia).
  destruct (pile_run num int Hint volumes interp (mk_options "" []) 2 (41, 41, 1) (le_n 2) base_unit true base base_wf calls L2 terrain_accepted terrain_regular its HM HS)
    as (g' & labels' & js & E & EP).
  rewrite terrain_run in E0. change 2%Z with (Z.of_nat 2) in E0. rewrite EP in E0. apply Ok_inj in E0. injection E0 as -> ->.
  destruct (pile_nodes num int volumes interp (mk_options "" []) 2 (41, 41, 1) (le_n 2) base_unit true base base_wf calls L2 terrain_accepted terrain_regular its g labels js HM E)
    as (ns & HL & Hd & _).
  rewrite (terrain_layers _ HL) in *. clear HL ns. change (setc 2 (S (list_sum [10])) (41, 41, 1)) with (41, 41, 11) in Hd.
  destruct (pile_groups num int Hint volumes Hvol interp (mk_options "" []) 2 (41, 41, 1) (le_n 2) base_unit true base base_wf calls L2 terrain_accepted terrain_regular its g labels js HM E)
    as (ns & cg & names & HL & H1 & H2 & H3 & H4 & H5).
  rewrite (terrain_layers _ HL) in *. clear HL ns. rewrite Hd in *.
  change (cell_shape (41, 41, 11)) with (40, 40, 10) in *. change (n_cells (41, 41, 11)) with (40 * 40 * 10) in *.
  assert (HD : forall k, In k names -> k = "default"%string).
  { intros k Hk. apply In_nth_error in Hk as [m Hm].
    assert (Lm : m < size3 (40, 40, 10)) by (cbn [size3]; rewrite <- H3; apply nth_error_Some; congruence).
    destruct (fidx_surj (40, 40, 10) m Lm) as (c & Hc & <-).
    destruct (H5 c Hc) as (j & call & k' & Hj & Hcall & Hk' & Hn). unfold at_coord in Hk'. rewrite Hm in Hk'. injection Hk' as <-.
    destruct j as [|j]; [|cbn in Hcall; destruct j; discriminate]. injection Hcall as <-. cbn [sc_opts ao_group item_name] in Hn.
    inversion Hn as [? ? ? El|]; subst; [discriminate|reflexivity]. }
  exists cg, names. repeat (split; [assumption|]). intros k. split; [intros Hk; apply HD; now apply H4|]. intros ->. apply H4.
  destruct names as [|n names]; [discriminate|]. left. apply HD. now left.
Qed.
End Terrain.
