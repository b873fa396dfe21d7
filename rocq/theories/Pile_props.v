From Verif Require Import RealAux Perc_model Perc_spec Perc_proof Surface_model Surface_spec
  Volume_model Volume_spec SMerge_model SMerge_spec Groups_model Groups_spec
  Stack_model Stack_spec Stack3_proof Stack6_proof Final_model Final_spec Final4_proof Final_props Settle_spec Settle_proof
  Pile_model Pile_spec Pile_proof.
From Coq Require Import Lra.
Open Scope nat_scope.

(* C162: the nodes of MeshStack3D(mesh, axis, bottom_up).add(...)...generate_mesh(), in terms of the arguments of the calls *)
Theorem C162_nodes :
  forall (D : Type) (num : Z -> D) (int : D -> Z) (Hint : forall z, int (num z) = z)
    (volumes : shape3 -> list pt -> list R) interp o ax d bu m calls,
  ax <= 2 -> unit_along ax d -> wf_base d m ->
  2 <= length calls -> Forall (accepted interp (ss_pts (sb_surf m))) calls -> Forall regular_call (tl calls) ->
  exists g labels nsubs, stack3d_program num int volumes interp o (Z.of_nat ax) bu m calls = Ok (g, labels) /\
    call_layers (tl calls) nsubs /\ sg_dims g = setc ax (S (list_sum nsubs)) d /\ length (sg_pts g) = size3 (sg_dims g) /\
    forall c p, in_shape d c -> at_coord d (ss_pts (sb_surf m)) c = Some p ->
    exists ls out, heights interp bu (ss_pts (sb_surf m)) (fidx d c) None calls ls /\
      (if bu then settled ls out else settled_down ls out) /\ length out = length calls /\
      forall j call perc k t h h', nth_error calls (S j) = Some call ->
        resolution_to_perc (ao_res (sc_opts call)) (ao_method (sc_opts call)) = Ok perc -> nth_error perc k = Some t ->
        (j = 0 \/ 0 < k) -> nth_error out j = Some h -> nth_error out (S j) = Some h' ->
        at_coord (sg_dims g) (sg_pts g) (setc ax (list_sum (firstn j nsubs) + k) c) = Some (at_height ax p (h + t * (h' - h))%R).
Proof.
  intros D num int Hint volumes interp o ax d bu m calls Hax Hu Hw L2 Hacc Hreg.
  destruct (pile_made num interp ax bu m calls Hacc) as (its & HM & HS).
  destruct (pile_run num int Hint volumes interp o ax d Hax Hu bu m Hw calls L2 Hacc Hreg its HM HS) as (g & labels & js & E & EP).
  destruct (pile_nodes num int volumes interp o ax d Hax Hu bu m Hw calls L2 Hacc Hreg its g labels js HM E) as (nsubs & H1 & H2 & H3 & H4).
  exists g, labels, nsubs. repeat (split; [assumption|]).
  intros c p Hc Hp. destruct (H4 c p Hc Hp) as (ls & out & G1 & G2 & G3 & G4). exists ls, out.
  split; [exact G1|]. split; [destruct bu; exact G2|]. split; [exact G3|exact G4].
Qed.
Print Assumptions C162_nodes.

(* C162: the groups of its cells *)
Theorem C162_groups :
  forall (D : Type) (num : Z -> D) (int : D -> Z) (Hint : forall z, int (num z) = z)
    (volumes : shape3 -> list pt -> list R) (Hvol : forall dims pts, length (volumes dims pts) = n_cells dims)
    interp o ax d bu m calls g labels,
  ax <= 2 -> unit_along ax d -> wf_base d m ->
  2 <= length calls -> Forall (accepted interp (ss_pts (sb_surf m))) calls -> Forall regular_call (tl calls) ->
  stack3d_program num int volumes interp o (Z.of_nat ax) bu m calls = Ok (g, labels) ->
  exists nsubs cg names, call_layers (tl calls) nsubs /\ In ("CellGroup"%string, cg) (sg_cd g) /\
    get_cell_group (Some (map int cg)) (Some labels) = Ok (Some (inl names)) /\ length names = n_cells (sg_dims g) /\
    (forall k, In k (map fst labels) <-> In k names) /\
    forall c, in_shape (cell_shape (sg_dims g)) c ->
      exists j call k, layer_in nsubs (comp ax c) j /\ nth_error calls (S j) = Some call /\
        at_coord (cell_shape (sg_dims g)) names c = Some k /\
        item_name o (base_view m) (ao_group (sc_opts call)) (fidx (cell_shape d) (setc ax 0 c)) k.
Proof.
  intros D num int Hint volumes Hvol interp o ax d bu m calls g labels Hax Hu Hw L2 Hacc Hreg E0.
  destruct (pile_made num interp ax bu m calls Hacc) as (its & HM & HS).
  destruct (pile_run num int Hint volumes interp o ax d Hax Hu bu m Hw calls L2 Hacc Hreg its HM HS) as (g' & labels' & js & E & EP).
  rewrite E0 in EP. assert (EQ := Ok_inj _ _ EP). injection EQ as <- <-.
  exact (pile_groups num int Hint volumes Hvol interp o ax d Hax Hu bu m Hw calls L2 Hacc Hreg its g labels js HM E).
Qed.
Print Assumptions C162_groups.

(* C162: its ghost flags: 32 for the cells without volume in the layers of their call, the flag of the base cell otherwise *)
Theorem C162_flags :
  forall (D : Type) (num : Z -> D) (int : D -> Z) (Hint : forall z, int (num z) = z)
    (volumes : shape3 -> list pt -> list R) (Hvol : forall dims pts, length (volumes dims pts) = n_cells dims)
    interp o ax d bu m calls g labels,
  ax <= 2 -> unit_along ax d -> wf_base d m ->
  2 <= length calls -> Forall (accepted interp (ss_pts (sb_surf m))) calls -> Forall regular_call (tl calls) ->
  stack3d_program num int volumes interp o (Z.of_nat ax) bu m calls = Ok (g, labels) ->
  exists nsubs tops, call_layers (tl calls) nsubs /\ length tops = size3 d /\
    (forall i out, nth_error tops i = Some out -> exists ls, heights interp bu (ss_pts (sb_surf m)) i None calls ls /\
       (if bu then settled ls out else settled_down ls out) /\ length out = length calls) /\
    (sg_ghost g = [] \/ length (sg_ghost g) = n_cells (sg_dims g) /\
       exists c, in_shape (cell_shape (sg_dims g)) c /\ flag_at (cell_shape (sg_dims g)) (sg_ghost g) c <> 0) /\
    forall c, in_shape (cell_shape (sg_dims g)) c ->
      exists j call perc block w, layer_in nsubs (comp ax c) j /\ nth_error calls (S j) = Some call /\
        resolution_to_perc (ao_res (sc_opts call)) (ao_method (sc_opts call)) = Ok perc /\
        length block = size3 (setc ax (length perc) d) /\
        (forall c' p out k t h h', in_shape d c' -> at_coord d (ss_pts (sb_surf m)) c' = Some p -> at_coord d tops c' = Some out ->
           nth_error perc k = Some t -> nth_error out j = Some h -> nth_error out (S j) = Some h' ->
           at_coord (setc ax (length perc) d) block (setc ax k c') = Some (at_height ax p (h + t * (h' - h))%R)) /\
        at_coord (cell_shape (setc ax (length perc) d)) (volumes (setc ax (length perc) d) block)
          (setc ax (comp ax c - list_sum (firstn j nsubs)) c) = Some w /\
        (w = 0%R -> flag_at (cell_shape (sg_dims g)) (sg_ghost g) c = 32) /\
        (w <> 0%R -> flag_at (cell_shape (sg_dims g)) (sg_ghost g) c = base_flag (cell_shape d) (ss_ghost (sb_surf m)) (setc ax 0 c)).
Proof.
  intros D num int Hint volumes Hvol interp o ax d bu m calls g labels Hax Hu Hw L2 Hacc Hreg E0.
  destruct (pile_made num interp ax bu m calls Hacc) as (its & HM & HS).
  destruct (pile_run num int Hint volumes interp o ax d Hax Hu bu m Hw calls L2 Hacc Hreg its HM HS) as (g' & labels' & js & E & EP).
  rewrite E0 in EP. assert (EQ := Ok_inj _ _ EP). injection EQ as <- <-.
  destruct (pile_flags num int Hint volumes Hvol interp o ax d Hax Hu bu m Hw calls L2 Hacc Hreg its g labels js HM E)
    as (nsubs & tops & H1 & H2 & H3 & H4 & H5).
  exists nsubs, tops. split; [exact H1|]. split; [exact H2|]. split; [|split; [exact H4|exact H5]].
  intros i out Ho. destruct (H3 i out Ho) as (ls & G1 & G2 & G3). exists ls. split; [exact G1|]. split; [destruct bu; exact G2|exact G3].
Qed.
Print Assumptions C162_flags.

(* C162: its arrays: those of the cells of the base in every layer, those of the points with one layered item only *)
Theorem C162_arrays :
  forall (D : Type) (num : Z -> D) (int : D -> Z) (Hint : forall z, int (num z) = z)
    (volumes : shape3 -> list pt -> list R) (Hvol : forall dims pts, length (volumes dims pts) = n_cells dims)
    interp o ax d bu m calls g labels,
  ax <= 2 -> unit_along ax d -> wf_base d m ->
  2 <= length calls -> Forall (accepted interp (ss_pts (sb_surf m))) calls -> Forall regular_call (tl calls) ->
  stack3d_program num int volumes interp o (Z.of_nat ax) bu m calls = Ok (g, labels) ->
  (forall k, ~ In k ["ColumnId"; "LayerId"; "StackItem"; "CellGroup"]%string ->
    (In k (map fst (sg_cd g)) <-> In k (map fst (ss_cd (sb_surf m)))) /\
    forall x, In (k, x) (sg_cd g) -> length x = n_cells (sg_dims g) /\
      exists v, In (k, v) (ss_cd (sb_surf m)) /\
      forall c, in_shape (cell_shape (sg_dims g)) c -> at_coord (cell_shape (sg_dims g)) x c = at_coord (cell_shape d) v (setc ax 0 c)) /\
  (length calls = 2 -> points_follow ax d m g) /\ (3 <= length calls -> sg_pd g = []).
Proof.
  intros D num int Hint volumes Hvol interp o ax d bu m calls g labels Hax Hu Hw L2 Hacc Hreg E0.
  destruct (pile_made num interp ax bu m calls Hacc) as (its & HM & HS).
  destruct (pile_run num int Hint volumes interp o ax d Hax Hu bu m Hw calls L2 Hacc Hreg its HM HS) as (g' & labels' & js & E & EP).
  rewrite E0 in EP. assert (EQ := Ok_inj _ _ EP). injection EQ as <- <-.
  split; [exact (pile_arrays num int Hint volumes Hvol interp o ax d Hax Hu bu m Hw calls L2 Hacc Hreg its g labels js HM E)|].
  destruct (pile_items num interp ax d Hax bu m Hw calls L2 Hacc Hreg its HM) as (W1 & W2 & _).
  destruct (stack_points num int volumes o ax d its g labels Hax Hu W1 W2 bu js E) as [P2 P3].
  pose proof (made_length _ _ _ _ _ _ _ _ _ HM) as LL. split; [|intros; apply P3; lia].
  intros L. destruct its as [|a [|b [|]]]; cbn in LL; try lia.
  destruct (pile_base num interp ax bu m calls _ 0 a HM eq_refl) as (zs & Ea).
  pose proof (P2 a b eq_refl) as P. rewrite Ea in P. exact P.
Qed.
Print Assumptions C162_arrays.

(* C162: its identifiers, along the third axis *)
Theorem C162_ids :
  forall (D : Type) (num : Z -> D) (int : D -> Z) (Hint : forall z, int (num z) = z)
    (volumes : shape3 -> list pt -> list R) interp o nx ny bu m calls g labels,
  unit_along 2 (nx, ny, 1) -> wf_base (nx, ny, 1) m ->
  2 <= length calls -> Forall (accepted interp (ss_pts (sb_surf m))) calls -> Forall regular_call (tl calls) ->
  stack3d_program num int volumes interp o 2 bu m calls = Ok (g, labels) ->
  exists nsubs col lay itm, call_layers (tl calls) nsubs /\
    In ("ColumnId"%string, col) (sg_cd g) /\ In ("LayerId"%string, lay) (sg_cd g) /\ In ("StackItem"%string, itm) (sg_cd g) /\
    let cells := (nx - 1, ny - 1, list_sum nsubs) in
    forall x y l, x < nx - 1 -> y < ny - 1 -> l < list_sum nsubs ->
      at_coord cells col (x, y, l) = Some (num (Z.of_nat (x + y * (nx - 1)))) /\
      at_coord cells lay (x, y, l) = Some (num (Z.of_nat l)) /\
      exists j, layer_in nsubs l j /\ at_coord cells itm (x, y, l) = Some (num (Z.of_nat j)).
Proof.
  intros D num int Hint volumes interp o nx ny bu m calls g labels Hu Hw L2 Hacc Hreg E0.
  destruct (pile_made num interp 2 bu m calls Hacc) as (its & HM & HS).
  destruct (pile_run num int Hint volumes interp o 2 _ (le_n 2) Hu bu m Hw calls L2 Hacc Hreg its HM HS) as (g' & labels' & js & E & EP).
  change (Z.of_nat 2) with 2%Z in EP. rewrite E0 in EP. assert (EQ := Ok_inj _ _ EP). injection EQ as <- <-.
  destruct (pile_ids num int volumes interp o _ bu m calls its g labels js Hu Hw Hreg L2 Hacc HM E)
    as (nsubs & HL & Hd & col & lay & itm & I1 & I2 & I3 & HI).
  exists nsubs, col, lay, itm. split; [exact HL|]. repeat (split; [assumption|]). cbv zeta.
  pose proof (proj2 Hu 0 ltac:(lia) ltac:(lia)) as U0. pose proof (proj2 Hu 1 ltac:(lia) ltac:(lia)) as U1. cbn in U0, U1.
  intros x y l Hx Hy Hl. cbn [setc] in Hd.
  assert (ES : cell_shape (sg_dims g) = (nx - 1, ny - 1, list_sum nsubs)).
  { rewrite Hd. clear - U0 U1 Hl. destruct nx as [|[|nx]], ny as [|[|ny]]; try lia. destruct (list_sum nsubs); [lia|]. reflexivity. }
  rewrite ES in HI. destruct (HI x y l) as (A1 & A2 & A3); [unfold in_shape; lia|]. split; [|split; [exact A2|exact A3]].
  rewrite A1. do 3 f_equal. unfold fidx, cell_shape. rewrite (Nat.max_r 1 (nx - 1)) by lia. lia.
Qed.
Print Assumptions C162_ids.

(* C162: what is rejected *)
Theorem C162_errors :
  forall (D : Type) (num : Z -> D) (int : D -> Z) volumes interp o axis bu (m : sbase D) calls,
  let '(nx, ny, nz) := ss_dims (sb_surf m) in
  (length (filter (fun n => negb (n =? 1)) [nx; ny; nz]) <> 2 -> stack3d_program num int volumes interp o axis bu m calls = Err ValueError) /\
  ((axis < 0)%Z \/ (2 < axis)%Z -> stack3d_program num int volumes interp o axis bu m calls = Err ValueError) /\
  (forall ax n, axis = Z.of_nat ax -> nth_error [nx; ny; nz] ax = Some n -> n <> 1 ->
     stack3d_program num int volumes interp o axis bu m calls = Err ValueError) /\
  (Forall (accepted interp (ss_pts (sb_surf m))) calls -> length calls < 2 ->
     stack3d_program num int volumes interp o axis bu m calls = Err ValueError) /\
  (forall before ndim ncols rows opts after, calls = before ++ mkStCall (ArgArray ndim ncols rows) opts :: after ->
     Forall (accepted interp (ss_pts (sb_surf m))) before -> ndim <> 2 \/ ncols <> 3 ->
     stack3d_program num int volumes interp o axis bu m calls = Err ValueError).
Proof.
  intros D num int volumes interp o axis bu m calls. destruct (ss_dims (sb_surf m)) as [[nx ny] nz] eqn:Ed.
  assert (HD : structured_dimension (nx, ny, nz) = length (filter (fun n => negb (n =? 1)) [nx; ny; nz])).
  { unfold structured_dimension, unit_axes. cbn. destruct (nx =? 1), (ny =? 1), (nz =? 1); reflexivity. }
  unfold stack3d_program. rewrite Ed, HD.
  destruct (length (filter (fun n => negb (n =? 1)) [nx; ny; nz]) =? 2) eqn:E2.
  2:{ cbn [negb]. repeat split; reflexivity. }
  apply Nat.eqb_eq in E2. cbn [negb].
  split; [intros H; contradiction|].
  destruct (stack_init m (@Some shape3 (nx, ny, nz)) axis) as [[mesh ax]|e] eqn:EI.
  2:{ assert (e = ValueError) as ->.
      { unfold stack_init in EI. destruct (negb _); [congruence|]. destruct (_ =? 1); congruence. }
      cbn [bind]. repeat split; reflexivity. }
  assert (EV : mesh = m /\ axis = Z.of_nat ax /\ ax <= 2 /\ comp ax (nx, ny, nz) = 1).
  { unfold stack_init in EI. destruct ((0 <=? axis) && (axis <=? 2))%Z%bool eqn:EA; cbn [negb] in EI; [|discriminate].
    apply andb_prop in EA as [A1 A2]. apply Z.leb_le in A1, A2.
    destruct (Nat.eqb_spec (comp (Z.to_nat axis) (nx, ny, nz)) 1) as [E1|E1]; [|discriminate].
    assert (EQ := Ok_inj _ _ EI). injection EQ as <- <-. repeat split; [lia|lia|exact E1]. }
  destruct EV as (-> & -> & Hax & Hc). cbn [bind].
  split; [intros H; exfalso; lia|]. split.
  { intros a n Ea En Hn. exfalso. apply Nat2Z.inj in Ea. subst a. apply Hn. destruct ax as [|[|[|]]]; try lia; cbn in En, Hc; congruence. }
  split.
  - intros Hacc L. destruct (pile_made num interp ax bu m calls Hacc) as (its & HM & HS). rewrite HS. cbn [bind st_items].
    rewrite <- (made_length _ _ _ _ _ _ _ _ _ HM) in L. unfold stack3d_mesh, stack3d_structured.
    destruct its as [|i [|i' its]]; cbn in L; try lia; reflexivity.
  - intros before ndim ncols rows opts after -> Hacc Hbad.
    destruct (pile_made num interp ax bu m before Hacc) as (its & HM & HS).
    assert (EA : forall l st st' c l', stack_calls (sops num) ax bu interp st l = Ok st' ->
              stack_calls (sops num) ax bu interp st (l ++ c :: l') = stack_calls (sops num) ax bu interp st' (c :: l')).
    { induction l as [|x l IH]; intros st st' c l' E; cbn [stack_calls app] in E |- *.
      - assert (EQ := Ok_inj _ _ E). now rewrite EQ.
      - destruct (stack_add _ _ _ _ _ _ _) as [st1|]; cbn [bind] in E |- *; [|discriminate]. now apply IH. }
    rewrite (EA _ _ _ _ _ HS). cbn [stack_calls sc_arg sc_opts]. unfold stack_add.
    destruct (Nat.eqb_spec ndim 2); [|reflexivity]. destruct (Nat.eqb_spec ncols 3); [|reflexivity]. exfalso. tauto.
Qed.
Print Assumptions C162_errors.

(* floor at -1, a slope cut by it, ten metres above the slope as it was; only the last layers have a name *)
Definition px_calls : list st_call :=
  [mkStCall (ArgScalar (-1)) (mkAdd ResNone None 0%Z 0%R GNone);
   mkStCall (ArgCall (fun x _ _ => x - 2)%R) (mkAdd (ResInt 2) None (-1)%Z 0%R GNone);
   mkStCall (ArgScalar 10) (mkAdd (ResInt 1) None 0%Z 0%R (GStr "top"))].

Lemma px_ok interp : Forall (accepted interp (ss_pts (sb_surf (fx_base 5)))) px_calls /\ Forall regular_call (tl px_calls).
Proof.
  split; [repeat constructor|].
  constructor; [|constructor; [|constructor]].
  - split; [|left; reflexivity]. exact (int_spans (fx_item 0 GNone) Constant (or_intror (ex_intro _ 2%Z eq_refl)) ltac:(constructor)).
  - split; [|right; eexists; reflexivity].
    exact (int_spans (mkItem (fx_base 0) (ResInt 1) None 0%Z 0%R GNone false) Constant (or_intror (ex_intro _ 1%Z eq_refl)) ltac:(constructor)).
Qed.
Lemma px_perc2 p : resolution_to_perc (ResInt 2) None = Ok p -> p = [0; 1/2; 1]%R.
Proof.
  intros E. pose proof (to_perc_closed 2%Z None Constant ltac:(constructor)) as HP. rewrite E in HP.
  assert (EQ := Ok_inj _ _ HP). rewrite EQ. change (Z.to_nat (Z.max 1 2)) with 2. unfold pfun. cbn -[INR]. repeat (apply f_equal2; [cbn; lra|]). reflexivity.
Qed.
Lemma px_perc1 p : resolution_to_perc (ResInt 1) None = Ok p -> p = [0; 1]%R.
Proof.
  intros E. pose proof (to_perc_closed 1%Z None Constant ltac:(constructor)) as HP. rewrite E in HP.
  assert (EQ := Ok_inj _ _ HP). rewrite EQ. change (Z.to_nat (Z.max 1 1)) with 1. unfold pfun. cbn -[INR]. repeat (apply f_equal2; [cbn; lra|]). reflexivity.
Qed.
Lemma px_layers ns : call_layers (tl px_calls) ns -> ns = [2; 1].
Proof.
  intros H. inversion H as [|? n1 ? l1 H1 H']; subst. inversion H' as [|? n2 ? l2 H2 H'']; subst. inversion H''; subst.
  destruct H1 as (p1 & E1 & ->). destruct H2 as (p2 & E2 & ->).
  cbn [sc_opts ao_res ao_method] in E1, E2. rewrite (px_perc2 _ E1), (px_perc1 _ E2). reflexivity.
Qed.

Example C162_example : exists g labels names,
  stack3d_program zz zz fx_volumes (fun _ _ => Err ValueError) cx_opt 2 true (fx_base 5) px_calls = Ok (g, labels) /\
  sg_dims g = (3, 2, 4) /\
  at_coord (3, 2, 4) (sg_pts g) (2, 1, 1) = Some (2, 1, -1/2)%R /\
  at_coord (3, 2, 4) (sg_pts g) (0, 0, 1) = Some (0, 0, -1)%R /\
  at_coord (3, 2, 4) (sg_pts g) (0, 0, 3) = Some (0, 0, 8)%R /\
  at_coord (2, 1, 3) names (1, 0, 2) = Some "top"%string.
Proof.
  destruct (px_ok (fun _ _ => Err ValueError)) as [HA HR].
  destruct (C162_nodes Z zz zz (fun z => eq_refl) fx_volumes (fun _ _ => Err ValueError) cx_opt 2 (3, 2, 1) true (fx_base 5) px_calls
    (le_n 2) fx_unit (fx_wf 5) ltac:(cbn; lia) HA HR) as (g & labels & ns & E & HL & Hd & _ & HN).
  destruct (C162_groups Z zz zz (fun z => eq_refl) fx_volumes fx_vol (fun _ _ => Err ValueError) cx_opt 2 (3, 2, 1) true (fx_base 5) px_calls g labels
    (le_n 2) fx_unit (fx_wf 5) ltac:(cbn; lia) HA HR E) as (ns' & cg & names & HL' & _ & _ & _ & _ & HG).
  rewrite (px_layers _ HL) in *. rewrite (px_layers _ HL') in *. clear HL HL' ns ns'. cbn in Hd. rewrite Hd in *.
  exists g, labels, names. split; [exact E|]. split; [exact Hd|].
  assert (HP : forall n, exists p, resolution_to_perc (ResInt n) None = Ok p).
  { intros n. pose proof (to_perc_closed n None Constant ltac:(constructor)) as EP. eauto. }
  assert (HC : forall c x y, in_shape (3, 2, 1) c -> at_coord (3, 2, 1) (ss_pts (sb_surf (fx_base 5))) c = Some (x, y, 5%R) ->
    at_coord (3, 2, 4) (sg_pts g) (setc 2 1 c) = Some (x, y, -1 + 1/2 * (Rmax (x - 2) (-1 + 0) - -1))%R /\
    at_coord (3, 2, 4) (sg_pts g) (setc 2 3 c) = Some (x, y, Rmin (Rmax (x - 2) (-1 + 0)) (x + 8 - 0) + 1 * (x + 8 - Rmin (Rmax (x - 2) (-1 + 0)) (x + 8 - 0)))%R).
  { intros c x y Hc Hp. destruct (HN c _ Hc Hp) as (ls & out & H1 & H2 & _ & H4).
    destruct (HP 2%Z) as [p2 P2]. destruct (HP 1%Z) as [p1 P1].
    pose proof (px_perc2 _ P2) as ->. pose proof (px_perc1 _ P1) as ->.
    inversion H1 as [|? ? z0 ? l0 R0 G0]; subst. inversion G0 as [|? ? z1 ? l1 R1 G1]; subst. inversion G1 as [|? ? z2 ? l2 R2 G2]; subst.
    inversion G2; subst. inversion R0; subst. inversion R2; subst. inversion R1 as [| |? ? x' y' z' Hn| |]; subst.
    unfold at_coord in Hp. rewrite Hp in Hn. injection Hn as <- <- <-.
    cbn [sc_opts ao_prio ao_thick] in H2.
    inversion H2 as [|? ? ? ? ? ? ? o1 Lt S1|? ? ? ? ? ? ? o1 Le S1]; subst; [|lia].
    inversion S1 as [|? ? ? ? ? ? ? o2 Lt' S2|? ? ? ? ? ? ? o2 Le' S2]; subst; [lia|].
    inversion S2; subst. split.
    - refine (eq_trans (H4 0 _ _ 1 _ _ _ eq_refl P2 eq_refl (or_introl eq_refl) eq_refl eq_refl) _).
      unfold at_height. do 2 f_equal. replace (Rabs 10) with 10%R by (rewrite Rabs_right; lra).
      assert (Rmin (Rmax (x - 2) (-1 + 0)) (x - 2 + 10 - 0) = Rmax (x - 2) (-1 + 0))%R as ->; [|lra].
      destruct c as [[[|[|[|i]]] j] k]; unfold in_shape in Hc; cbn in Hc; try lia;
      destruct j as [|[|j]]; try lia; assert (k = 0) as -> by lia; cbn in Hp; injection Hp as <- <-; unfold Rmin, Rmax;
        repeat destruct (Rle_dec _ _); lra.
    - refine (eq_trans (H4 1 _ _ 1 _ _ _ eq_refl P1 eq_refl ltac:(right; lia) eq_refl eq_refl) _).
      unfold at_height. do 2 f_equal. replace (Rabs 10) with 10%R by (rewrite Rabs_right; lra). lra. }
  assert (S1 : in_shape (3, 2, 1) (2, 1, 0)) by (unfold in_shape; cbn; lia).
  assert (S2 : in_shape (3, 2, 1) (0, 0, 0)) by (unfold in_shape; cbn; lia).
  destruct (HC (2, 1, 0) 2%R 1%R S1 eq_refl) as [A1 _].
  destruct (HC (0, 0, 0) 0%R 0%R S2 eq_refl) as [A2 A3].
  cbn [setc] in A1, A2, A3. rewrite A1, A2, A3. split; [|split; [|split]].
  - do 2 f_equal. unfold Rmax. destruct (Rle_dec _ _); lra.
  - do 2 f_equal. unfold Rmax. destruct (Rle_dec _ _); lra.
  - do 2 f_equal. lra.
  - destruct (HG (1, 0, 2) ltac:(unfold in_shape; cbn; lia)) as (j & call & k & Hj & Hcall & Hk & Hn).
    change (cell_shape (3, 2, 4)) with (2, 1, 3) in Hk. rewrite Hk. f_equal.
    unfold layer_in in Hj. cbn [comp] in Hj. destruct j as [|[|j]]; [cbn in Hj; lia| |cbn in Hj; rewrite firstn_nil in Hj; cbn in Hj; lia].
    injection Hcall as <-. destruct Hn as (_ & _ & Hn). apply Hn; [discriminate|intros s'; discriminate].
Qed.

(* the array, the identifiers and the flags of the same mesh: the first cell of every call has no volume *)
Example C162_data_example : exists g labels kh lay,
  stack3d_program zz zz fx_volumes (fun _ _ => Err ValueError) cx_opt 2 true (fx_base 5) px_calls = Ok (g, labels) /\
  In ("kh"%string, kh) (sg_cd g) /\ at_coord (2, 1, 3) kh (1, 0, 2) = Some 8%Z /\
  In ("LayerId"%string, lay) (sg_cd g) /\ at_coord (2, 1, 3) lay (1, 0, 2) = Some 2%Z /\
  flag_at (2, 1, 3) (sg_ghost g) (0, 0, 2) = 32 /\ flag_at (2, 1, 3) (sg_ghost g) (1, 0, 2) = 0 /\ sg_pd g = [].
Proof.
  destruct (px_ok (fun _ _ => Err ValueError)) as [HA HR].
  destruct (C162_nodes Z zz zz (fun z => eq_refl) fx_volumes (fun _ _ => Err ValueError) cx_opt 2 (3, 2, 1) true (fx_base 5) px_calls
    (le_n 2) fx_unit (fx_wf 5) ltac:(cbn; lia) HA HR) as (g & labels & ns & E & HL & Hd & _ & _).
  destruct (C162_arrays Z zz zz (fun z => eq_refl) fx_volumes fx_vol (fun _ _ => Err ValueError) cx_opt 2 (3, 2, 1) true (fx_base 5) px_calls g labels
    (le_n 2) fx_unit (fx_wf 5) ltac:(cbn; lia) HA HR E) as (HC & _ & HP).
  destruct (C162_ids Z zz zz (fun z => eq_refl) fx_volumes (fun _ _ => Err ValueError) cx_opt 3 2 true (fx_base 5) px_calls g labels
    fx_unit (fx_wf 5) ltac:(cbn; lia) HA HR E) as (ns' & col & lay & itm & HL' & _ & Hlay & _ & HI).
  destruct (C162_flags Z zz zz (fun z => eq_refl) fx_volumes fx_vol (fun _ _ => Err ValueError) cx_opt 2 (3, 2, 1) true (fx_base 5) px_calls g labels
    (le_n 2) fx_unit (fx_wf 5) ltac:(cbn; lia) HA HR E) as (ns2 & tops & HL2 & _ & _ & _ & HF).
  rewrite (px_layers _ HL) in *. rewrite (px_layers _ HL') in *. rewrite (px_layers _ HL2) in *. clear HL HL' HL2 ns ns' ns2. cbn in Hd. rewrite Hd in *.
  destruct (HC "kh"%string) as [HK HV]; [cbn; intuition discriminate|].
  assert (Hin : In "kh"%string (map fst (sg_cd g))) by (apply HK; left; reflexivity).
  apply in_map_iff in Hin as ([k kh] & Ek & Hkh). cbn in Ek. subst k.
  exists g, labels, kh, lay. split; [exact E|]. split; [exact Hkh|].
  destruct (HV kh Hkh) as (_ & v & Hv & HV'). destruct Hv as [Ev|[]]. injection Ev as <-.
  split; [exact (HV' (1, 0, 2) ltac:(unfold in_shape; cbn; lia))|]. split; [exact Hlay|].
  split; [exact (proj1 (proj2 (HI 1 0 2 ltac:(lia) ltac:(lia) ltac:(cbn; lia))))|].
  assert (HW : forall x, x < 2 -> exists w, (x = 0 /\ w = 0%R \/ x = 1 /\ w = 1%R) /\
    (w = 0%R -> flag_at (2, 1, 3) (sg_ghost g) (x, 0, 2) = 32) /\ (w <> 0%R -> flag_at (2, 1, 3) (sg_ghost g) (x, 0, 2) = 0)).
  { intros x Hx. destruct (HF (x, 0, 2) ltac:(unfold in_shape; cbn; lia)) as (j & call & perc & block & w & Hj & Hcall & Hperc & _ & _ & Hw & F0 & F1).
    unfold layer_in in Hj. cbn [comp] in Hj. destruct j as [|[|j]]; [cbn in Hj; lia| |cbn in Hj; rewrite firstn_nil in Hj; cbn in Hj; lia].
    injection Hcall as <-. cbn [sc_opts ao_res ao_method] in Hperc. rewrite (px_perc1 _ Hperc) in Hw. exists w. split; [|auto].
    destruct x as [|[|x]]; [left|right|lia]; (split; [reflexivity|]); cbn -[IZR] in Hw; congruence. }
  destruct (HW 0 ltac:(lia)) as (w0 & [[_ ->]|[A _]] & F0 & _); [|lia].
  destruct (HW 1 ltac:(lia)) as (w1 & [[A _]|[_ ->]] & _ & F1); [lia|].
  split; [now apply F0|]. split; [apply F1; lra|]. apply HP. cbn. lia.
Qed.
