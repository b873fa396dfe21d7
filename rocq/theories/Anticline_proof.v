From Verif Require Import RealAux Perc_model Perc_spec Perc_proof Surface_model Surface_spec
  Volume_model Volume_spec SMerge_model SMerge_spec Groups_model Groups_spec
  Stack_model Stack_spec Stack_proof Stack3_proof Stack6_proof Stack7_proof Final_model Final_spec Line_spec Line3_proof Settle_spec Settle_proof
  Anticline_model Anticline_spec.
From Coq Require Import Lra.
Open Scope R_scope.

Lemma map2_same {X A B C} (f : A -> B -> C) (g : X -> A) (h : X -> B) l :
  map2 f (map g l) (map h l) = map (fun x => f (g x) (h x)) l.
Proof. induction l; cbn; congruence. Qed.

Section Anticline.
Context {D : Type} (num : Z -> D) (int : D -> Z) (Hint : forall z, int (num z) = z).
Context (areas : shape3 -> list pt -> list R) (Har : forall dims pts, length (areas dims pts) = n_cells dims).
Context (interpolate : list pt -> list pt -> res (list R)) (arrays : list (string * list D)).
Context (Harr : forall k v, In (k, v) arrays -> length v = 42%nat).
Context (xs : list R) (Hxs : length xs = 42%nat).

(* the line at some elevation *)
Definition lay (h : R -> R) : lbase D :=
  mkLbase (mkLine (map (fun x => (x, 0, h x)) xs) (seq 0 42) arrays [] None) 41 None None.

Lemma lay_ext h h' : (forall x, h x = h' x) -> lay h = lay h'.
Proof. intros E. unfold lay. do 2 f_equal. apply map_ext. intros x. now rewrite E. Qed.

Definition layer_item (h : R -> R) (n : Z) (name : string) : item (lbase D) := mkItem (lay h) (ResInt n) None 0%Z 0 (GStr name) false.
Definition layer_items : list (item (lbase D)) :=
  [mkItem (lay (fun _ => 0)) ResNone None 0%Z 0 GNone false;
   layer_item (fun x => cos x + 1) 4 "Layer 1"; layer_item (fun x => 3 / 2 + cos x) 2 "Layer 2";
   layer_item (fun x => 2 + cos x) 2 "Layer 3"; layer_item (fun x => 5 / 2 + cos x) 2 "Layer 4"; layer_item (fun _ => 34 / 10) 4 "Layer 5"].

Lemma place_lay h h' (f : pt -> R) : (forall x, f (x, 0, h' x) = h x) ->
  setp (lops num) (map2 (fun v p => pset 2 v p) (map f (getp (lops num) (lay h'))) (getp (lops num) (lay h'))) (lay h') = lay h.
Proof.
  intros E. unfold lay at 3 4. cbn [setp lops lb_line ln_ids ln_pd ln_cd ln_ghost lb_nc lb_cg lb_labels getp ln_pts lay].
  unfold lay. do 2 f_equal. rewrite map_map, map2_same. apply map_ext. intros x. cbn [pset]. now rewrite E.
Qed.

Lemma stack_items : exists st, anticline_stack num interpolate (lay (fun _ => 0)) = Ok st /\ st_items st = layer_items.
Proof.
  unfold anticline_stack, add_layer, stack_add.
  cbn [st_base st_items rev app bind ao_res ao_method ao_prio ao_thick ao_group st_flag it_mesh].
  rewrite (place_lay (fun _ => 0) (fun _ => 0)) by reflexivity.
  rewrite (place_lay (fun x => cos x + 1) (fun _ => 0)) by reflexivity.
  rewrite (place_lay (fun x => 3 / 2 + cos x) (fun x => cos x + 1)) by (intros; cbn [pget]; rewrite Rabs_right; lra).
  cbn [it_mesh].
  rewrite (place_lay (fun x => 2 + cos x) (fun x => 3 / 2 + cos x)) by (intros; cbn [pget]; rewrite Rabs_right; lra).
  cbn [it_mesh].
  rewrite (place_lay (fun x => 5 / 2 + cos x) (fun x => 2 + cos x)) by (intros; cbn [pget]; rewrite Rabs_right; lra).
  rewrite (place_lay (fun _ => 34 / 10) (fun _ => 0)) by reflexivity.
  eexists. split; reflexivity.
Qed.

Lemma lay_wf h : wf_line 41 (lay h).
Proof.
  split; [lia|]. split; [reflexivity|]. unfold lay. cbn [lb_line ln_pts ln_ids ln_pd ln_cd ln_ghost lb_cg].
  split; [now rewrite map_length, Hxs|]. split; [reflexivity|]. split; [intros v Hv; apply in_seq in Hv; lia|].
  split; [constructor|]. split; [exact Harr|]. split; [intros ? ? []|]. split; discriminate.
Qed.

Lemma items_wf : Forall (fun i => wf_line 41 (it_mesh i)) layer_items.
Proof. repeat (constructor; [apply lay_wf|]). constructor. Qed.
Lemma items_plain : Forall (fun it => it_trans it = false) (tl layer_items).
Proof. repeat constructor. Qed.
Lemma items_span : Forall (fun it => it_trans it = false /\ positions_span it /\ group_by_name it) (tl layer_items).
Proof.
  repeat (constructor; [split; [reflexivity|]; split; [apply (int_spans _ Constant); [right; eexists; reflexivity|constructor]|right; eexists; reflexivity]|]).
  constructor.
Qed.

(* ---- the surfaces after the cut ---- *)
Definition raw (x : R) (j : nat) : R :=
  nth j [0; cos x + 1; 3 / 2 + cos x; 2 + cos x; 5 / 2 + cos x; 34 / 10] 0.

Lemma item_point j a i x : nth_error layer_items j = Some a -> nth_error xs i = Some x ->
  nth_error (points (lops num) a) i = Some (x, 0, raw x j).
Proof.
  intros Ha Hx.
  destruct j as [|[|[|[|[|[|j]]]]]]; try (injection Ha as <-; unfold points; cbn [lops getp it_mesh layer_item lay lb_line ln_pts];
    rewrite nth_error_map, Hx; reflexivity).
  destruct j; discriminate.
Qed.

Lemma settled_points g labels js : stack2d_mesh num int areas (mk_options "" []) 2 true layer_items = Ok (g, labels, js) ->
  forall j a' i x, nth_error js j = Some a' -> nth_error xs i = Some x ->
    line_point (it_mesh a') i (x, 0, horizon x j).
Proof.
  intros H j a' i x Ha' Hx.
  unfold stack2d_mesh in H. destruct (stack2d num areas (mk_options "" []) 2 true layer_items) as [[[[g0 groups] n] js']|] eqn:Es; [|discriminate].
  cbn [bind] in H. destruct (finish num int g0 groups) as [[g1 l1]|]; [|discriminate]. cbn [bind] in H. injection H as -> -> ->.
  unfold stack2d in Es.
  destruct (stack_levels (lops num) (lops_lawful num) _ 2 true _ _ _ _ _ _ _ _ (le_n 2) items_plain Es) as [HM _].
  pose proof (stack_equal (lops num) (lops_lawful num) _ 2 _ _ _ _ _ _ _ _ 0%Z (le_n 2) items_plain
                ltac:(repeat constructor) Es) as HE.
  assert (exists a, nth_error layer_items j = Some a /\ moved_along (lops num) 2 a a') as (a & Ha & [HO HC]).
  { clear - HM Ha'. revert j Ha'. induction HM as [|u v l l' Huv _ IH]; intros [|j] E; cbn in E; try discriminate.
    - injection E as <-. exists u. auto.
    - exact (IH j E). }
  pose proof (item_point j a i x Ha Hx) as Hp.
  assert (Hz : elevation (lops num) 2 i a (raw x j)) by (exists (x, 0, raw x j); split; [exact Hp|reflexivity]).
  destruct (HE j a a' i (raw x j) Ha Ha' Hz) as [HL HN].
  assert (He : elevation (lops num) 2 i a' (horizon x j)).
  { destruct (nth_error layer_items (S j)) as [b|] eqn:Hb.
    - destruct (HN b eq_refl) as (z' & (q & Hq & Ez) & He). rewrite (item_point (S j) b i x Hb Hx) in Hq.
      injection Hq as <-. cbn [coord snd] in Ez. subst z'.
      assert (Tb : it_thick b = 0).
      { destruct j as [|[|[|[|[|j]]]]]; try (injection Hb as <-; reflexivity). destruct j; discriminate. }
      rewrite Tb in He. replace (horizon x j) with (Rmin (raw x j) (raw x (S j) - 0)); [exact He|].
      pose proof (COS_bound x) as Hc.
      destruct j as [|[|[|[|[|j]]]]]; cbn [raw horizon nth]; try (unfold Rmin; repeat destruct (Rle_dec _ _); lra).
      destruct j; discriminate.
    - replace (horizon x j) with (raw x j); [exact (HL eq_refl)|].
      destruct j as [|[|[|[|[|[|j]]]]]]; try discriminate; [reflexivity|]. destruct j; discriminate. }
  destruct He as (p & Ep & Ez).
  assert (p = (x, 0, horizon x j)) as ->.
  { assert (same_column 2 (x, 0, raw x j) p) as Hcol.
    { clear - HC Hp Ep. revert i Hp Ep. induction HC as [|u v l l' Huv _ IH]; intros [|i] E1 E2; cbn in E1, E2; try discriminate.
      - injection E1 as ->. injection E2 as ->. exact Huv.
      - exact (IH i E1 E2). }
    destruct p as [[px py] pz]. pose proof (Hcol 0%nat ltac:(lia) ltac:(lia)) as C0.
    pose proof (Hcol 1%nat ltac:(lia) ltac:(lia)) as C1. cbn in C0, C1, Ez. subst. reflexivity. }
  exists i. split; [|exact Ep].
  assert (Hi : (i < 42)%nat) by (rewrite <- Hxs; apply nth_error_Some; congruence).
  destruct HO as (Em & _). rewrite Em.
  assert (Eids : ln_ids (lb_line (setp (lops num) (points (lops num) a') (it_mesh a))) = seq 0 42).
  { destruct j as [|[|[|[|[|[|j]]]]]]; try (injection Ha as <-; reflexivity). destruct j; discriminate. }
  rewrite Eids. rewrite (nth_error_nth' _ 0%nat) by (rewrite seq_length; exact Hi). now rewrite seq_nth.
Qed.

Lemma layer_perc z : resolution_to_perc (ResInt z) None = Ok (map (pfun Constant (Z.to_nat (Z.max 1 z))) (seq 0 (S (Z.to_nat (Z.max 1 z))))).
Proof. apply to_perc_closed. constructor. Qed.

Lemma layer_resolution j b : nth_error layer_items (S j) = Some b ->
  exists n, nth_error sublayers j = Some n /\ (1 <= n)%nat /\
    resolution_to_perc (it_res b) (it_method b) = Ok (map (pfun Constant n) (seq 0 (S n))).
Proof.
  intros E. destruct j as [|[|[|[|[|j]]]]]; [| | | | |destruct j; discriminate]; injection E as <-;
    (eexists; split; [reflexivity|]; split; [lia|]); cbn [it_res it_method layer_item]; apply layer_perc.
Qed.

Lemma layer_numbers ns : layer_counts (tl layer_items) ns -> ns = sublayers.
Proof.
  intros [L HC]. apply nth_error_ext. intros j.
  destruct (nth_error (tl layer_items) j) as [b|] eqn:Eb.
  - destruct (HC j b Eb) as (m & Em & p & Hp & ->). rewrite Em.
    destruct (layer_resolution j b Eb) as (n & En & _ & Hn). rewrite En. rewrite Hn in Hp. apply Ok_inj in Hp. rewrite <- Hp.
    rewrite map_length, seq_length. f_equal. lia.
  - apply nth_error_None in Eb. cbn in L. rewrite (proj2 (nth_error_None ns j)), (proj2 (nth_error_None sublayers j)); auto; cbn in *; lia.
Qed.

Lemma pfun_nth n k : (k <= n)%nat -> nth_error (map (pfun Constant n) (seq 0 (S n))) k = Some (INR k / INR n).
Proof.
  intros H. rewrite nth_error_map, (nth_error_nth' _ 0%nat) by (rewrite seq_length; lia). rewrite seq_nth by lia. reflexivity.
Qed.

Definition anticline_point (x : R) (j n k : nat) : pt :=
  (x, 0, horizon x j + INR k / INR n * (horizon x (S j) - horizon x j)).

Lemma on_way_between x j n k : on_way (INR k / INR n) (x, 0, horizon x j) (x, 0, horizon x (S j)) = anticline_point x j n k.
Proof. unfold on_way, anticline_point. apply injective_projections; [apply injective_projections|]; cbn [fst snd]; ring. Qed.

Lemma js_some js : Forall2 (only_points (lops num)) layer_items js -> forall j, (j < 6)%nat ->
  exists a b, nth_error layer_items j = Some a /\ nth_error js j = Some b /\ only_points (lops num) a b.
Proof.
  intros HF j Hj. destruct (nth_error layer_items j) as [a|] eqn:Ea; [|apply nth_error_None in Ea; cbn in Ea; lia].
  destruct (Forall2_nth_l _ _ _ HF j a Ea) as (b & Eb & Hb). exists a, b. auto.
Qed.

Lemma anticline_nodes g labels js : stack2d_mesh num int areas (mk_options "" []) 2 true layer_items = Ok (g, labels, js) ->
  sg_dims g = (42, 1, 15)%nat /\ length (sg_pts g) = (42 * 15)%nat /\
  forall i x j n k, nth_error xs i = Some x -> nth_error sublayers j = Some n -> (k <= n)%nat ->
    at_coord (42, 1, 15)%nat (sg_pts g) (i, 0, list_sum (firstn j sublayers) + k)%nat = Some (anticline_point x j n k).
Proof.
  intros H. pose proof (settled_points g labels js H) as HP.
  destruct (line_final num int Hint areas Har 2 (le_n 2) 41 _ true layer_items g labels js items_wf items_plain H)
    as (HF & ns & HL & (Hd & Hlen & HN) & _).
  rewrite (layer_numbers ns HL) in *. cbn in Hd. split; [exact Hd|]. split; [exact Hlen|].
  assert (HK : forall i x j n k, nth_error xs i = Some x -> nth_error sublayers j = Some n -> (k <= n)%nat ->
    (j = 0%nat \/ (0 < k)%nat) ->
    at_coord (42, 1, 15)%nat (sg_pts g) (i, 0, list_sum (firstn j sublayers) + k)%nat = Some (anticline_point x j n k)).
  { intros i x j n k Hx Hn Hk Hjk.
    assert (Hj : (j < 5)%nat) by (change 5%nat with (length sublayers); apply nth_error_Some; congruence).
    destruct (js_some js HF j ltac:(lia)) as (a & a' & Ha & Ha' & _).
    destruct (js_some js HF (S j) ltac:(lia)) as (b & b' & Hb & Hb' & (_ & Er & Em & _)).
    destruct (layer_resolution j b Hb) as (n' & En' & Hn1 & Hperc). rewrite Hn in En'. injection En' as <-.
    destruct (HN j a' b' _ i k (INR k / INR n) _ _ Ha' Hb' ltac:(rewrite Er, Em; exact Hperc) (pfun_nth n k Hk)
                (HP j a' i x Ha' Hx) (HP (S j) b' i x Hb' Hx)) as (r & Hr & _ & Heq).
    rewrite Hd in Hr. rewrite (Heq Hjk), on_way_between in Hr. exact Hr. }
  intros i x j n k Hx Hn Hk. destruct (Nat.eq_dec k 0) as [->|Hk0]; [|apply HK; auto; lia].
  destruct j as [|j]; [apply HK; auto|].
  assert (exists n', nth_error sublayers j = Some n') as [n' Hn'].
  { destruct (nth_error sublayers j) eqn:E; eauto. apply nth_error_None in E.
    assert (S j < length sublayers)%nat by (apply nth_error_Some; congruence). lia. }
  assert (Hn1 : (1 <= n')%nat).
  { destruct j as [|[|[|[|[|j]]]]]; cbn in Hn'; try (injection Hn' as <-; lia). destruct j; discriminate. }
  assert (1 <= INR n') by (apply (le_INR 1 n'); lia).
  pose proof (HK i x j n' n' Hx Hn' (le_n _) ltac:(right; lia)) as HH.
  replace (list_sum (firstn (S j) sublayers) + 0)%nat with (list_sum (firstn j sublayers) + n')%nat.
  - rewrite HH. f_equal. unfold anticline_point. apply injective_projections; [reflexivity|]. cbn [snd].
    change (INR 0) with 0. unfold Rdiv at 2. rewrite Rmult_0_l, Rmult_0_l. unfold Rdiv. rewrite Rinv_r by lra. ring.
  - destruct j as [|[|[|[|[|j]]]]]; cbn in Hn'; try (injection Hn' as <-; reflexivity). destruct j; discriminate.
Qed.

Lemma layer_in_same l j j' : layer_in sublayers l j -> layer_in sublayers l j' -> (l < 14)%nat -> j = j' /\ (j < 5)%nat.
Proof.
  unfold layer_in. intros H H' Hl.
  assert (Hj : (j < 5)%nat).
  { destruct (le_lt_dec 5 j) as [G|G]; [|exact G]. rewrite !firstn_all2 in H by (cbn; lia). cbn in H. lia. }
  assert (Hj' : (j' < 5)%nat).
  { destruct (le_lt_dec 5 j') as [G|G]; [|exact G]. rewrite !firstn_all2 in H' by (cbn; lia). cbn in H'. lia. }
  split; [|exact Hj].
  destruct j as [|[|[|[|[|]]]]]; try lia; destruct j' as [|[|[|[|[|]]]]]; try lia; cbn in H, H'; lia.
Qed.

Lemma anticline_names g labels js : stack2d_mesh num int areas (mk_options "" []) 2 true layer_items = Ok (g, labels, js) ->
  exists cg names, In ("CellGroup"%string, cg) (sg_cd g) /\
    get_cell_group (Some (map int cg)) (Some labels) = Ok (Some (inl names)) /\ length names = (41 * 14)%nat /\
    (forall k, In k (map fst labels) <-> In k names) /\
    forall i l j, (i < 41)%nat -> layer_in sublayers l j -> (l < 14)%nat ->
      at_coord (41, 1, 14)%nat names (i, 0, l)%nat = nth_error layer_names j.
Proof.
  intros H. destruct (anticline_nodes g labels js H) as [Hd _].
  destruct (line_final num int Hint areas Har 2 (le_n 2) 41 _ true layer_items g labels js items_wf items_plain H)
    as (HF & ns & HL & _ & (_ & _ & cg & names & H1 & H2 & H3 & H4 & H5) & _).
  rewrite (layer_numbers ns HL) in *. rewrite Hd in *. exists cg, names. split; [exact H1|]. split; [exact H2|].
  split; [exact H3|]. split; [exact H4|].
  intros i l j Hi Hlj Hl. destruct (H5 i l Hi ltac:(cbn; lia)) as (j' & n & a & b & k & Hj' & _ & _ & Hb & Hk & Hname).
  destruct (layer_in_same l j j' Hlj Hj' Hl) as [<- Hj5].
  change (at_coord (41, 1, 14)%nat names (i, 0, l)%nat = Some k) in Hk. rewrite Hk.
  assert (HG : exists s, it_group b = GStr s /\ nth_error layer_names j = Some s /\ s <> ""%string /\ plain s).
  { destruct j as [|[|[|[|[|]]]]]; try lia; injection Hb as <-;
      (eexists; split; [reflexivity|]; split; [reflexivity|]; split; [discriminate|]; cbn; try split; discriminate). }
  destruct HG as (s & Es & -> & Hs & Hps). rewrite Es in Hname. cbn in Hname. destruct Hname as (_ & _ & Hname). now rewrite (Hname Hs Hps).
Qed.

Definition thickness (x : R) (j : nat) : R := horizon x (S j) - horizon x j.

Lemma flat_strip x x' z0 z0' z1 z1' : x < x' ->
  (flat_triangle (x, 0, z0) (x', 0, z0') (x', 0, z1') /\ flat_triangle (x, 0, z0) (x', 0, z1') (x, 0, z1)) <-> (z1 = z0 /\ z1' = z0').
Proof.
  intros Hx. unfold flat_triangle. split.
  - intros [(_ & E1 & _) (_ & E2 & _)]. split.
    + apply (Rmult_eq_reg_l (x' - x)); [|lra]. lra.
    + apply (Rmult_eq_reg_l (x' - x)); [|lra]. lra.
  - intros [-> ->]. repeat split; ring.
Qed.

Lemma anticline_ghosts g labels js : stack2d_mesh num int areas (mk_options "" []) 2 true layer_items = Ok (g, labels, js) ->
  measures_flat areas ->
  forall i l j x x', nth_error xs i = Some x -> nth_error xs (i + 1) = Some x' -> x < x' -> layer_in sublayers l j -> (l < 14)%nat ->
    (thickness x j = 0 /\ thickness x' j = 0 -> flag_at (41, 1, 14)%nat (sg_ghost g) (i, 0, l)%nat = 32%nat) /\
    (~ (thickness x j = 0 /\ thickness x' j = 0) -> flag_at (41, 1, 14)%nat (sg_ghost g) (i, 0, l)%nat = 0%nat).
Proof.
  intros H Hflat i l j x x' Hx Hx' Hlt Hlj Hl. destruct (anticline_nodes g labels js H) as [Hd _].
  pose proof (settled_points g labels js H) as HP.
  destruct (line_final num int Hint areas Har 2 (le_n 2) 41 _ true layer_items g labels js items_wf items_plain H)
    as (HF & ns & HL & _ & _ & (_ & HG) & _).
  rewrite (layer_numbers ns HL) in *. rewrite Hd in *.
  assert (Hi : (i + 1 < 42)%nat) by (rewrite <- Hxs; apply nth_error_Some; congruence).
  destruct (HG i l ltac:(lia) ltac:(cbn; lia)) as (j' & n & a & b & perc & pts & w & Hj' & Hn & Ha & Hb & Hperc & [_ HS] & Hw & H0 & H1).
  destruct (layer_in_same l j j' Hlj Hj' Hl) as [<- Hj5].
  destruct (js_some js HF (S j) ltac:(lia)) as (b0 & b' & Hb0 & Hb' & (_ & Er & Em & _)).
  rewrite Hb' in Hb. injection Hb as <-.
  destruct (js_some js HF j ltac:(lia)) as (a0 & a' & Ha0 & Ha' & (Ema & _)). rewrite Ha' in Ha. injection Ha as <-.
  destruct (layer_resolution j b0 Hb0) as (n' & En' & Hn1 & Hperc'). rewrite Hn in En'. injection En' as <-.
  rewrite Er, Em, Hperc' in Hperc. apply Ok_inj in Hperc. subst perc.
  set (k := (l - list_sum (firstn j sublayers))%nat) in *.
  assert (Hk : (k < n)%nat).
  { clear - Hlj Hn Hj5. unfold layer_in in Hlj.
    destruct j as [|[|[|[|[|]]]]]; try lia; cbn in Hlj, Hn; injection Hn as <-; unfold k; cbn; lia. }
  rewrite map_length, seq_length in *.
  change (grid_dims (across 2) 2 42 (S n)) with (42, 1, S n)%nat in *.
  assert (HC : forall m y, nth_error xs m = Some y -> forall q, (q <= n)%nat ->
            at_coord (42, 1, S n)%nat pts (m, 0, q)%nat = Some (anticline_point y j n q)).
  { intros m y Hy q Hq. rewrite <- on_way_between. apply (HS m q _ _ _ (pfun_nth n q Hq)); apply HP; auto. }
  assert (Hw' := Hflat 42%nat (S n) pts i k _ _ _ _ ltac:(lia) ltac:(lia) (HC i x Hx k ltac:(lia)) (HC (i + 1)%nat x' Hx' k ltac:(lia))
           (HC (i + 1)%nat x' Hx' (k + 1)%nat ltac:(lia)) (HC i x Hx (k + 1)%nat ltac:(lia)) w Hw).
  unfold anticline_point in Hw'. rewrite flat_strip in Hw' by exact Hlt.
  assert (HN : 1 <= INR n) by (apply (le_INR 1 n); lia).
  assert (HT : forall y, (horizon y j + INR (k + 1) / INR n * (horizon y (S j) - horizon y j) =
                 horizon y j + INR k / INR n * (horizon y (S j) - horizon y j)) <-> thickness y j = 0).
  { intros y. unfold thickness. rewrite plus_INR. change (INR 1) with 1. split.
    - intros E. apply (Rmult_eq_reg_l (/ INR n)); [|apply Rinv_neq_0_compat; lra]. unfold Rdiv in E. lra.
    - intros ->. ring. }
  change (flag_at (cell_shape (42, 1, 15)%nat) (sg_ghost g) (seg_at 2 i l)) with (flag_at (41, 1, 14)%nat (sg_ghost g) (i, 0, l)%nat) in H0, H1.
  rewrite !HT in Hw'. split.
  - intros HH. apply H0, Hw', HH.
  - intros HH. rewrite H1 by (intros E; apply HH, Hw', E). rewrite Ema.
    assert (Egh : ln_ghost (lb_line (setp (lops num) (points (lops num) a') (it_mesh a0))) = None).
    { destruct j as [|[|[|[|[|]]]]]; try lia; injection Ha0 as <-; reflexivity. }
    rewrite Egh. reflexivity.
Qed.
End Anticline.

(* ---- the stations ---- *)
Lemma station_nth i : (i < 42)%nat -> nth_error (linspace (-314 / 100) (314 / 100) 42) i = Some (station i).
Proof.
  intros H. unfold linspace, station. rewrite nth_error_map, (nth_error_nth' _ 0%nat) by (rewrite seq_length; lia).
  rewrite seq_nth by lia. cbn [option_map]. f_equal. change (0 + i)%nat with i. f_equal. f_equal.
  replace (INR (42 - 1)) with 41 by (cbn; lra). lra.
Qed.
Lemma station_len : length (linspace (-314 / 100) (314 / 100) 42) = 42%nat.
Proof. unfold linspace. now rewrite map_length, seq_length. Qed.
Lemma station_step i : station i < station (i + 1).
Proof. unfold station. rewrite plus_INR. change (INR 1) with 1. lra. Qed.

(* bounds of the cosine *)
Lemma cos_above y : - (39 / 100) <= y <= 39 / 100 -> 9 / 10 < cos y.
Proof.
  intros H. destruct (cos_bound y 0) as [HL _]; try (pose proof PI2_3_2; pose proof PI_RGT_0; lra).
  unfold cos_approx, cos_term in HL. cbn in HL. 
  assert (y * y <= 39 / 100 * (39 / 100)) by nra. lra.
Qed.

Lemma cos_below y : 53 / 100 <= y <= 314 / 100 -> cos y < 9 / 10.
Proof.
  intros H. pose proof PI2_3_2. pose proof PI_RGT_0. pose proof PI_4.
  destruct (Rle_lt_dec y (PI / 2)) as [Hy|Hy].
  - assert (Hc : cos (53 / 100) < 9 / 10).
    { destruct (cos_bound (53 / 100) 0) as [_ HU]; try lra. unfold cos_approx, cos_term in HU. cbn in HU. lra. }
    destruct (Req_dec y (53 / 100)) as [->|]; [exact Hc|].
    pose proof (cos_decreasing_1 (53 / 100) y ltac:(lra) ltac:(lra) ltac:(lra) ltac:(lra) ltac:(lra)). lra.
  - pose proof (cos_le_0 y ltac:(lra) ltac:(lra)). lra.
Qed.
Lemma cos_not_minus_one y : -3 <= y <= 3 -> -1 < cos y.
Proof.
  intros H. pose proof PI2_3_2. assert (HP : forall z, 0 <= z <= 3 -> -1 < cos z).
  { intros z Hz. rewrite <- cos_PI. apply cos_decreasing_1; lra. }
  destruct (Rle_lt_dec 0 y); [apply HP; lra|]. rewrite <- cos_neg. apply HP; lra.
Qed.

(* the crest is above the top at the stations 18 to 23 *)
Lemma crest i : (i < 42)%nat -> (thickness (station i) 4 = 0 <-> (18 <= i <= 23)%nat).
Proof.
  intros Hi. unfold thickness. cbn [horizon nth]. 
  assert (HE : 34 / 10 - Rmin (5 / 2 + cos (station i)) (34 / 10) = 0 <-> 9 / 10 <= cos (station i)).
  { unfold Rmin. destruct (Rle_dec _ _); lra. }
  rewrite HE. clear HE. unfold station. split.
  - intros Hc. destruct (le_lt_dec 18 i) as [G|G]; [destruct (le_lt_dec i 23) as [G'|G']; [lia|]|].
    + exfalso. assert (24 <= INR i) by (replace 24 with (INR 24) by (cbn; lra); apply le_INR; lia).
      assert (INR i <= 41) by (replace 41 with (INR 41) by (cbn; lra); apply le_INR; lia).
      pose proof (cos_below (-314 / 100 + INR i * (628 / 4100)) ltac:(lra)). lra.
    + exfalso. assert (INR i <= 17) by (replace 17 with (INR 17) by (cbn; lra); apply le_INR; lia).
      pose proof (pos_INR i).
      pose proof (cos_below (- (-314 / 100 + INR i * (628 / 4100))) ltac:(lra)) as HB. rewrite cos_neg in HB. lra.
  - intros [G G']. apply (le_INR 18) in G. apply (le_INR _ 23) in G'.
    replace (INR 18) with 18 in G by (cbn; lra). replace (INR 23) with 23 in G' by (cbn; lra).
    left. apply cos_above. lra.
Qed.
Lemma others i j : (i + 1 < 42)%nat -> (j < 4)%nat -> ~ (thickness (station i) j = 0 /\ thickness (station (i + 1)) j = 0).
Proof.
  intros Hi Hj [H1 H2]. unfold thickness in *. pose proof (COS_bound (station i)). pose proof (COS_bound (station (i + 1))).
  destruct j as [|[|[|[|]]]]; try lia; cbn [horizon nth] in H1, H2; try lra.
  - assert (HS : -3 <= station i <= 3 \/ -3 <= station (i + 1) <= 3).
    { unfold station. rewrite plus_INR. change (INR 1) with 1. destruct (le_lt_dec i 20) as [G|G].
      - right. apply (le_INR _ 20) in G. replace (INR 20) with 20 in G by (cbn; lra). pose proof (pos_INR i). lra.
      - left. apply (le_INR 21) in G. replace (INR 21) with 21 in G by (cbn; lra).
        assert (INR i <= 40) by (replace 40 with (INR 40) by (cbn; lra); apply le_INR; lia). lra. }
    destruct HS as [HS|HS]; apply cos_not_minus_one in HS; lra.
  - unfold Rmin in H1. destruct (Rle_dec _ _); lra.
Qed.
