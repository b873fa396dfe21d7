From Verif Require Import Lines_spec RealAux Perc_model Perc_spec Perc_proof Surface_model Surface_spec
  Volume_model Volume_spec SMerge_model SMerge_spec Groups_model Groups_spec
  Stack_model Stack_spec Stack3_proof Stack6_proof Final_model Final_spec Line_spec Line3_proof Settle_spec Settle_proof
  Final_props Line_props Input_model Pile_model Pile_spec Pile_proof Pile_props Pile3_model Pile3_spec Pile3_proof.
From Verif Require Lines_model.
From Coq Require Import Lra Ascii.
Import Lines_model(lmesh, l_pts, l_cells, l_pd, l_cd, mkL).
Open Scope nat_scope.

(* C168: the nodes of MeshStack2D(mesh, axis, bottom_up).add(...)...generate_mesh(), in terms of the arguments of the calls *)
Theorem C168_nodes :
  forall (D : Type) (num : Z -> D) (int : D -> Z) (Hint : forall z, int (num z) = z)
    (areas : shape3 -> list pt -> list R) (Har : forall dims pts, length (areas dims pts) = n_cells dims) interp o ax bu arg pts n calls,
  ax <= 2 -> base_ok arg -> base_points ax arg pts -> length pts = S n -> 1 <= n ->
  2 <= length calls -> Forall (accepted interp pts) calls -> Forall regular_call (tl calls) ->
  exists g labels nsubs, stack2d_program num int areas interp o (Z.of_nat ax) bu arg calls = Ok (g, labels) /\
    call_layers (tl calls) nsubs /\ sg_dims g = strip_dims ax (S n) (S (list_sum nsubs)) /\ length (sg_pts g) = S n * S (list_sum nsubs) /\
    forall i p, nth_error pts i = Some p -> exists out, column_heights interp bu pts i calls out /\
      forall j call perc k t h h', nth_error calls (S j) = Some call ->
        resolution_to_perc (ao_res (sc_opts call)) (ao_method (sc_opts call)) = Ok perc -> nth_error perc k = Some t ->
        (j = 0 \/ 0 < k) -> nth_error out j = Some h -> nth_error out (S j) = Some h' ->
        at_coord (sg_dims g) (sg_pts g) (node_at ax i (list_sum (firstn j nsubs) + k)) = Some (at_height ax p (h + t * (h' - h))%R).
Proof.
  intros D num int Hint areas Har interp o ax bu arg pts n calls Hax Hok Hp Len Hn L2 Hacc Hreg.
  destruct n as [|n]; [lia|].
  destruct (lpile_all num int Hint areas Har interp o ax bu arg pts n calls Hax Hok Hp Len Hacc L2 Hreg)
    as (line & its & g & labels & js & nsubs & E1 & E2 & E3 & E4 & HM & EM & EP & HL & _ & HN & _).
  destruct (lpile_nodes num int areas interp o ax Hax bu arg pts n Hp Len line E1 E2 E3 E4 calls Hacc L2 Hreg its g labels js nsubs HM EM HN)
    as (H1 & H2 & H3).
  exists g, labels, nsubs. repeat (split; [assumption|]). exact H3.
Qed.
Print Assumptions C168_nodes.

(* C168: the groups of its cells: those of a base polydata are not kept *)
Theorem C168_groups :
  forall (D : Type) (num : Z -> D) (int : D -> Z) (Hint : forall z, int (num z) = z)
    (areas : shape3 -> list pt -> list R) (Har : forall dims pts, length (areas dims pts) = n_cells dims) interp o ax bu arg pts n calls g labels,
  ax <= 2 -> base_ok arg -> base_points ax arg pts -> length pts = S n -> 1 <= n ->
  2 <= length calls -> Forall (accepted interp pts) calls -> Forall regular_call (tl calls) ->
  stack2d_program num int areas interp o (Z.of_nat ax) bu arg calls = Ok (g, labels) ->
  exists nsubs cg names, call_layers (tl calls) nsubs /\ In ("CellGroup"%string, cg) (sg_cd g) /\
    get_cell_group (Some (map int cg)) (Some labels) = Ok (Some (inl names)) /\ length names = n * list_sum nsubs /\
    (forall k, In k (map fst labels) <-> In k names) /\
    forall i l, i < n -> l < list_sum nsubs ->
      exists j call k, layer_in nsubs l j /\ nth_error calls (S j) = Some call /\
        at_coord (strip_dims ax n (list_sum nsubs)) names (node_at ax i l) = Some k /\ call_name (default_group o) call k.
Proof.
  intros D num int Hint areas Har interp o ax bu arg pts n calls g0 labels0 Hax Hok Hp Len Hn L2 Hacc Hreg E0.
  destruct n as [|n]; [lia|].
  destruct (lpile_all num int Hint areas Har interp o ax bu arg pts n calls Hax Hok Hp Len Hacc L2 Hreg)
    as (line & its & g & labels & js & nsubs & E1 & E2 & E3 & E4 & HM & EM & EP & HL & Hs & HN & HG & _).
  rewrite E0 in EP. assert (EQ := Ok_inj _ _ EP). injection EQ as -> ->.
  destruct (lpile_nodes num int areas interp o ax Hax bu arg pts n Hp Len line E1 E2 E3 E4 calls Hacc L2 Hreg its g labels js nsubs HM EM HN) as (H1 & _).
  destruct (lpile_groups num int areas interp o ax Hax bu arg pts n Hp Len line E1 E2 E4 calls Hacc L2 Hreg its g labels js nsubs HM EM Hs H1 HG)
    as (cg & names & G).
  exists nsubs, cg, names. split; [exact HL|exact G].
Qed.
Print Assumptions C168_groups.

(* C168: its ghost flags *)
Theorem C168_flags :
  forall (D : Type) (num : Z -> D) (int : D -> Z) (Hint : forall z, int (num z) = z)
    (areas : shape3 -> list pt -> list R) (Har : forall dims pts, length (areas dims pts) = n_cells dims) interp o ax bu arg pts n calls g labels,
  ax <= 2 -> base_ok arg -> base_points ax arg pts -> length pts = S n -> 1 <= n ->
  2 <= length calls -> Forall (accepted interp pts) calls -> Forall regular_call (tl calls) ->
  stack2d_program num int areas interp o (Z.of_nat ax) bu arg calls = Ok (g, labels) ->
  exists nsubs tops, call_layers (tl calls) nsubs /\ length tops = S n /\
    (forall i out, nth_error tops i = Some out -> column_heights interp bu pts i calls out) /\
    (sg_ghost g = [] \/ length (sg_ghost g) = n * list_sum nsubs) /\
    forall i l, i < n -> l < list_sum nsubs ->
      exists j call perc strip w, layer_in nsubs l j /\ nth_error calls (S j) = Some call /\
        resolution_to_perc (ao_res (sc_opts call)) (ao_method (sc_opts call)) = Ok perc /\
        length strip = S n * length perc /\
        (forall i' p out k t h h', nth_error pts i' = Some p -> nth_error tops i' = Some out -> nth_error perc k = Some t ->
           nth_error out j = Some h -> nth_error out (S j) = Some h' ->
           at_coord (strip_dims ax (S n) (length perc)) strip (node_at ax i' k) = Some (at_height ax p (h + t * (h' - h))%R)) /\
        at_coord (strip_dims ax n (length perc - 1)) (areas (strip_dims ax (S n) (length perc)) strip)
          (node_at ax i (l - list_sum (firstn j nsubs))) = Some w /\
        let flag := flag_at (strip_dims ax n (list_sum nsubs)) (sg_ghost g) (node_at ax i l) in
        (w = 0%R -> flag = 32) /\ (w <> 0%R -> line_flag int arg flag).
Proof.
  intros D num int Hint areas Har interp o ax bu arg pts n calls g0 labels0 Hax Hok Hp Len Hn L2 Hacc Hreg E0.
  destruct n as [|n]; [lia|].
  destruct (lpile_all num int Hint areas Har interp o ax bu arg pts n calls Hax Hok Hp Len Hacc L2 Hreg)
    as (line & its & g & labels & js & nsubs & E1 & E2 & E3 & E4 & HM & EM & EP & HL & Hs & HN & _ & HG & _ & _ & _ & Hgh).
  rewrite E0 in EP. assert (EQ := Ok_inj _ _ EP). injection EQ as -> ->.
  destruct (lpile_nodes num int areas interp o ax Hax bu arg pts n Hp Len line E1 E2 E3 E4 calls Hacc L2 Hreg its g labels js nsubs HM EM HN) as (H1 & _).
  destruct (lpile_flags num int areas interp o ax Hax bu arg pts n Hok Hp Len line E1 E2 E3 E4 calls Hacc L2 Hreg Hgh its g labels js nsubs HM EM Hs H1 HG)
    as (tops & G1 & G2 & G3 & G4).
  rewrite Len in *. exists nsubs, tops. repeat (split; [assumption|]). exact G4.
Qed.
Print Assumptions C168_flags.

(* C168: the arrays of a base polydata have one value everywhere, that of its first line *)
Theorem C168_arrays :
  forall (D : Type) (num : Z -> D) (int : D -> Z) (Hint : forall z, int (num z) = z)
    (areas : shape3 -> list pt -> list R) (Har : forall dims pts, length (areas dims pts) = n_cells dims) interp o ax bu arg pts n calls g labels,
  ax <= 2 -> base_ok arg -> base_points ax arg pts -> length pts = S n -> 1 <= n ->
  2 <= length calls -> Forall (accepted interp pts) calls -> Forall regular_call (tl calls) ->
  stack2d_program num int areas interp o (Z.of_nat ax) bu arg calls = Ok (g, labels) ->
  exists nsubs, call_layers (tl calls) nsubs /\
  forall k, ~ In k ["ColumnId"; "LayerId"; "StackItem"; "CellGroup"]%string ->
    (In k (map fst (sg_cd g)) <-> match arg with inl _ => False | inr m => In k (map fst (l_cd m)) /\ k <> "vtkGhostType"%string end) /\
    forall x, In (k, x) (sg_cd g) -> length x = n * list_sum nsubs /\
      forall i l, i < n -> l < list_sum nsubs ->
        exists v, first_value arg k v /\ at_coord (strip_dims ax n (list_sum nsubs)) x (node_at ax i l) = Some v.
Proof.
  intros D num int Hint areas Har interp o ax bu arg pts n calls g0 labels0 Hax Hok Hp Len Hn L2 Hacc Hreg E0.
  destruct n as [|n]; [lia|].
  destruct (lpile_all num int Hint areas Har interp o ax bu arg pts n calls Hax Hok Hp Len Hacc L2 Hreg)
    as (line & its & g & labels & js & nsubs & E1 & E2 & E3 & E4 & HM & EM & EP & HL & Hs & HN & _ & _ & HC & Hcd & Hkeys & _).
  rewrite E0 in EP. assert (EQ := Ok_inj _ _ EP). injection EQ as -> ->.
  destruct (lpile_nodes num int areas interp o ax Hax bu arg pts n Hp Len line E1 E2 E3 E4 calls Hacc L2 Hreg its g labels js nsubs HM EM HN) as (H1 & _).
  exists nsubs. split; [exact HL|].
  exact (lpile_arrays num int areas interp o ax Hax bu arg pts n Hp Len line E1 E2 E4 calls Hacc L2 Hreg Hcd Hkeys its g labels js nsubs HM EM Hs H1 HC).
Qed.
Print Assumptions C168_arrays.

(* C168: its identifiers, along the second and third axes *)
Theorem C168_ids :
  forall (D : Type) (num : Z -> D) (int : D -> Z) (Hint : forall z, int (num z) = z)
    (areas : shape3 -> list pt -> list R) (Har : forall dims pts, length (areas dims pts) = n_cells dims) interp o ax bu arg pts n calls g labels,
  1 <= ax <= 2 -> base_ok arg -> base_points ax arg pts -> length pts = S n -> 1 <= n ->
  2 <= length calls -> Forall (accepted interp pts) calls -> Forall regular_call (tl calls) ->
  stack2d_program num int areas interp o (Z.of_nat ax) bu arg calls = Ok (g, labels) ->
  exists nsubs col lay itm, call_layers (tl calls) nsubs /\
    In ("ColumnId"%string, col) (sg_cd g) /\ In ("LayerId"%string, lay) (sg_cd g) /\ In ("StackItem"%string, itm) (sg_cd g) /\
    forall i l, i < n -> l < list_sum nsubs ->
      at_coord (strip_dims ax n (list_sum nsubs)) col (node_at ax i l) = Some (num (Z.of_nat i)) /\
      at_coord (strip_dims ax n (list_sum nsubs)) lay (node_at ax i l) = Some (num (Z.of_nat l)) /\
      exists j, layer_in nsubs l j /\ at_coord (strip_dims ax n (list_sum nsubs)) itm (node_at ax i l) = Some (num (Z.of_nat j)).
Proof.
  intros D num int Hint areas Har interp o ax bu arg pts n calls g labels Hax Hok Hp Len Hn L2 Hacc Hreg E0.
  destruct n as [|n]; [lia|].
  exact (lpile_ids num int Hint areas Har interp o ax bu arg pts n calls g labels Hax Hok Hp Len Hacc L2 Hreg E0).
Qed.
Print Assumptions C168_ids.

(* C168: what is rejected *)
Theorem C168_errors :
  forall (D : Type) (num : Z -> D) (int : D -> Z) areas interp o axis bu (arg : list R + lmesh pt D) calls,
  let run := stack2d_program num int areas interp o axis bu arg calls in
  (forall m, arg = inr m -> l_cells m = [] -> run = Err ValueError) /\
  (base_ok arg -> (axis < 0)%Z \/ (2 < axis)%Z -> run = Err ValueError) /\
  (forall ax pts n, axis = Z.of_nat ax -> base_ok arg -> base_points ax arg pts -> length pts = S n -> 1 <= n ->
     (Forall (accepted interp pts) calls -> length calls < 2 -> run = Err ValueError) /\
     (forall before ndim ncols rows opts after, ax <= 2 -> calls = before ++ mkStCall (ArgArray ndim ncols rows) opts :: after ->
        Forall (accepted interp pts) before -> ndim <> 2 \/ ncols <> 3 -> run = Err ValueError)).
Proof.
  intros D num int areas interp o axis bu arg calls run. unfold run, stack2d_program. split; [|split].
  - intros m -> Hm. cbn [stack2d_line]. rewrite (proj1 (Trans6_proof.base_line_none m Hm)). reflexivity.
  - intros Hok HA. destruct (stack2d_line (Z.to_nat axis) arg) as [line|e] eqn:EL.
    + cbn [bind]. unfold stack_init. replace ((0 <=? axis) && (axis <=? 2))%Z%bool with false; [reflexivity|].
      symmetry. apply Bool.andb_false_iff. destruct HA; [left|right]; apply Z.leb_gt; assumption.
    + assert (e = ValueError) as ->; [|reflexivity]. destruct arg as [xs|m]; [discriminate|]. destruct Hok as [W _].
      cbn [stack2d_line] in EL. destruct (l_cells m) as [|c cs] eqn:Ec.
      * rewrite (proj1 (Trans6_proof.base_line_none m Ec)) in EL. congruence.
      * destruct (Trans6_proof.base_line_defined m W ltac:(congruence)) as (l & E & _). congruence.
  - intros ax pts n -> Hok Hp Len Hn. destruct n as [|n]; [lia|]. rewrite Nat2Z.id.
    assert (HI : forall mesh : lbase D, stack_init mesh None (Z.of_nat ax) = if ax <=? 2 then Ok (mesh, ax) else Err ValueError).
    { intros mesh. unfold stack_init. rewrite Nat2Z.id. destruct (Nat.leb_spec ax 2) as [G|G].
      - replace ((0 <=? Z.of_nat ax) && (Z.of_nat ax <=? 2))%Z%bool with true by (symmetry; apply andb_true_intro; split; lia). reflexivity.
      - replace ((0 <=? Z.of_nat ax) && (Z.of_nat ax <=? 2))%Z%bool with false; [reflexivity|].
        symmetry. apply Bool.andb_false_iff. right. apply Z.leb_gt. lia. }
    destruct (le_lt_dec ax 2) as [Hax|Hax].
    + destruct (base_made int ax arg pts n Hax Hok Hp Len) as (line & E1 & E2 & E3 & E4 & _). rewrite E1. cbn [bind]. rewrite HI.
      rewrite (proj2 (Nat.leb_le ax 2) Hax). cbn [bind]. split.
      * intros Hacc L. destruct (lpile_made num int interp ax bu pts line E2 calls Hacc) as (its & HM & HS). rewrite HS. cbn [bind st_items].
        rewrite <- (made_length _ _ _ _ _ _ _ _ _ HM) in L. unfold stack2d_mesh, stack2d.
        destruct its as [|i [|i' its]]; cbn in L; try lia; reflexivity.
      * intros before ndim ncols rows opts after _ -> Hacc Hbad.
        destruct (lpile_made num int interp ax bu pts line E2 before Hacc) as (its & HM & HS).
        assert (EA : forall l st st' c l', stack_calls (lops num) ax bu interp st l = Ok st' ->
                  stack_calls (lops num) ax bu interp st (l ++ c :: l') = stack_calls (lops num) ax bu interp st' (c :: l')).
        { induction l as [|x l IH]; intros st st' c l' E; cbn [stack_calls app] in E |- *.
          - assert (EQ := Ok_inj _ _ E). now rewrite EQ.
          - destruct (stack_add _ _ _ _ _ _ _) as [st1|]; cbn [bind] in E |- *; [|discriminate]. now apply IH. }
        rewrite (EA _ _ _ _ _ HS). cbn [stack_calls sc_arg sc_opts]. unfold stack_add.
        destruct (Nat.eqb_spec ndim 2); [|reflexivity]. destruct (Nat.eqb_spec ncols 3); [|reflexivity]. exfalso. tauto.
    + split; [|intros; lia]. intros _ _. destruct (stack2d_line ax arg) as [line|e] eqn:EL.
      * cbn [bind]. rewrite HI. rewrite (proj2 (Nat.leb_gt ax 2) Hax). reflexivity.
      * exfalso. destruct arg as [xs|m]; [discriminate|]. destruct Hok as [W _], Hp as (ids & rest & E & _).
        destruct (Trans6_proof.base_line_defined m W ltac:(congruence)) as (l & El & _). cbn [stack2d_line] in EL. congruence.
Qed.
Print Assumptions C168_errors.

(* a polydata of two lines with an array and groups; the floor, the slope and the top of C162 *)
Definition qx_line : lmesh pt Z :=
  mkL [(0, 0, 5); (1, 0, 5); (3, 0, 5)]%R [[0; 1; 2]; [2; 0]] [] [("kh"%string, [7; 8]%Z); ("CellGroup"%string, [4; 5]%Z)].
Lemma qx_ok : base_ok (inr qx_line).
Proof.
  split.
  - split; [|split]; cbn; try contradiction.
    + intros ids [<-|[<-|[]]] i Hi; cbn in Hi; lia.
    + intros k v [E|[E|[]]]; injection E as <- <-; reflexivity.
  - cbn. constructor; [intros [E|[]]; discriminate|]. constructor; [intros []|constructor].
Qed.
Lemma qx_points : base_points 2 (inr qx_line) [(0, 0, 5); (1, 0, 5); (3, 0, 5)]%R.
Proof. exists [0; 1; 2], [[2; 0]]. split; [reflexivity|]. repeat constructor. Qed.

Example C168_example : exists g labels names kh,
  stack2d_program zz zz lx_areas (fun _ _ => Err ValueError) cx_opt 2 true (inr qx_line) px_calls = Ok (g, labels) /\
  sg_dims g = (3, 1, 4) /\
  at_coord (3, 1, 4) (sg_pts g) (2, 0, 1) = Some (3, 0, 0)%R /\
  at_coord (3, 1, 4) (sg_pts g) (0, 0, 1) = Some (0, 0, -1)%R /\
  at_coord (3, 1, 4) (sg_pts g) (0, 0, 3) = Some (0, 0, 8)%R /\
  at_coord (2, 1, 3) names (1, 0, 2) = Some "top"%string /\
  at_coord (2, 1, 3) names (1, 0, 0) = Some (default_group cx_opt) /\
  In ("kh"%string, kh) (sg_cd g) /\ at_coord (2, 1, 3) kh (1, 0, 2) = Some 7%Z.
Proof.
  assert (HA : Forall (accepted (fun _ _ => Err ValueError) [(0, 0, 5); (1, 0, 5); (3, 0, 5)]%R) px_calls) by repeat constructor.
  pose proof (proj2 (px_ok (fun _ _ => Err ValueError))) as HR.
  destruct (C168_nodes Z zz zz (fun z => eq_refl) lx_areas lx_len (fun _ _ => Err ValueError) cx_opt 2 true (inr qx_line) _ 2 px_calls
    (le_n 2) qx_ok qx_points eq_refl ltac:(lia) ltac:(cbn; lia) HA HR) as (g & labels & ns & E & HL & Hd & _ & HN).
  destruct (C168_groups Z zz zz (fun z => eq_refl) lx_areas lx_len (fun _ _ => Err ValueError) cx_opt 2 true (inr qx_line) _ 2 px_calls g labels
    (le_n 2) qx_ok qx_points eq_refl ltac:(lia) ltac:(cbn; lia) HA HR E) as (ns' & cg & names & HL' & _ & _ & _ & _ & HG).
  destruct (C168_arrays Z zz zz (fun z => eq_refl) lx_areas lx_len (fun _ _ => Err ValueError) cx_opt 2 true (inr qx_line) _ 2 px_calls g labels
    (le_n 2) qx_ok qx_points eq_refl ltac:(lia) ltac:(cbn; lia) HA HR E) as (ns2 & HL2 & HC).
  rewrite (px_layers _ HL) in *. rewrite (px_layers _ HL') in *. rewrite (px_layers _ HL2) in *. clear HL HL' HL2 ns ns' ns2. cbn in Hd. rewrite Hd in *.
  destruct (HC "kh"%string) as [HK HV]; [cbn; intuition discriminate|].
  assert (Hin : In "kh"%string (map fst (sg_cd g))) by (apply HK; split; [left; reflexivity|discriminate]).
  apply in_map_iff in Hin as ([k kh] & Ek & Hkh). cbn in Ek. subst k.
  exists g, labels, names, kh. split; [exact E|]. split; [exact Hd|].
  assert (HP : forall n, exists p, resolution_to_perc (ResInt n) None = Ok p).
  { intros n. pose proof (to_perc_closed n None Constant ltac:(constructor)) as EP. eauto. }
  assert (HH : forall i x, nth_error [(0, 0, 5); (1, 0, 5); (3, 0, 5)]%R i = Some (x, 0, 5)%R -> (0 <= x <= 3)%R ->
    at_coord (3, 1, 4) (sg_pts g) (i, 0, 1) = Some (x, 0, -1 + 1/2 * (Rmax (x - 2) (-1 + 0) - -1))%R /\
    at_coord (3, 1, 4) (sg_pts g) (i, 0, 3) = Some (x, 0, x + 8)%R).
  { intros i x Hp Hx. destruct (HN i _ Hp) as (out & (ls & H1 & H2 & _) & H4).
    destruct (HP 2%Z) as [p2 P2]. destruct (HP 1%Z) as [p1 P1].
    pose proof (px_perc2 _ P2) as ->. pose proof (px_perc1 _ P1) as ->.
    inversion H1 as [|? ? z0 ? l0 R0 G0]; subst. inversion G0 as [|? ? z1 ? l1 R1 G1]; subst. inversion G1 as [|? ? z2 ? l2 R2 G2]; subst.
    inversion G2; subst. inversion R0; subst. inversion R2; subst. inversion R1 as [| |? ? x' y' z' Hn| |]; subst.
    rewrite Hp in Hn. injection Hn as <- <- <-.
    cbn [sc_opts ao_prio ao_thick] in H2.
    inversion H2 as [|? ? ? ? ? ? ? o1 Lt S1|? ? ? ? ? ? ? o1 Le S1]; subst; [|lia].
    inversion S1 as [|? ? ? ? ? ? ? o2 Lt' S2|? ? ? ? ? ? ? o2 Le' S2]; subst; [lia|].
    inversion S2; subst. replace (Rabs 10) with 10%R in * by (rewrite Rabs_right; lra). split.
    - refine (eq_trans (H4 0 _ _ 1 _ _ _ eq_refl P2 eq_refl (or_introl eq_refl) eq_refl eq_refl) _).
      unfold at_height. do 2 f_equal. unfold Rmin, Rmax. repeat destruct (Rle_dec _ _); lra.
    - refine (eq_trans (H4 1 _ _ 1 _ _ _ eq_refl P1 eq_refl ltac:(right; lia) eq_refl eq_refl) _).
      unfold at_height. do 2 f_equal. lra. }
  destruct (HH 2 3%R eq_refl ltac:(lra)) as [A1 _]. destruct (HH 0 0%R eq_refl ltac:(lra)) as [A2 A3].
  rewrite A1, A2, A3. split; [|split; [|split; [|split; [|split; [|split]]]]].
  - do 2 f_equal. unfold Rmax. destruct (Rle_dec _ _); lra.
  - do 2 f_equal. unfold Rmax. destruct (Rle_dec _ _); lra.
  - do 2 f_equal. lra.
  - destruct (HG 1 2 ltac:(lia) ltac:(cbn; lia)) as (j & call & k & Hj & Hcall & Hk & Hn).
    change (at_coord (2, 1, 3) names (1, 0, 2) = Some k) in Hk. rewrite Hk. f_equal.
    unfold layer_in in Hj. destruct j as [|[|j]]; [cbn in Hj; lia| |cbn in Hj; rewrite firstn_nil in Hj; cbn in Hj; lia].
    injection Hcall as <-. destruct Hn as (_ & _ & Hn). apply Hn; [discriminate|intros s'; discriminate].
  - destruct (HG 1 0 ltac:(lia) ltac:(cbn; lia)) as (j & call & k & Hj & Hcall & Hk & Hn).
    change (at_coord (2, 1, 3) names (1, 0, 0) = Some k) in Hk. rewrite Hk. f_equal.
    unfold layer_in in Hj. destruct j as [|j]; [|cbn in Hj; lia]. injection Hcall as <-. exact Hn.
  - exact Hkh.
  - destruct (HV kh Hkh) as [_ HV']. destruct (HV' 1 2 ltac:(lia) ltac:(cbn; lia)) as (v & (w & Hw & Hv) & Hat).
    change (at_coord (2, 1, 3) kh (1, 0, 2) = Some v) in Hat. rewrite Hat. f_equal.
    destruct Hw as [Ew|[Ew|[]]]; [injection Ew as <-; injection Hv as <-; reflexivity|discriminate].
Qed.

(* its identifiers: column, layer and call of the last cell *)
Example C168_ids_example : exists g labels col lay itm,
  stack2d_program zz zz lx_areas (fun _ _ => Err ValueError) cx_opt 2 true (inr qx_line) px_calls = Ok (g, labels) /\
  In ("ColumnId"%string, col) (sg_cd g) /\ at_coord (2, 1, 3) col (1, 0, 2) = Some 1%Z /\
  In ("LayerId"%string, lay) (sg_cd g) /\ at_coord (2, 1, 3) lay (1, 0, 2) = Some 2%Z /\
  In ("StackItem"%string, itm) (sg_cd g) /\ at_coord (2, 1, 3) itm (1, 0, 2) = Some 1%Z.
Proof.
  assert (HA : Forall (accepted (fun _ _ => Err ValueError) [(0, 0, 5); (1, 0, 5); (3, 0, 5)]%R) px_calls) by repeat constructor.
  pose proof (proj2 (px_ok (fun _ _ => Err ValueError))) as HR.
  destruct (C168_nodes Z zz zz (fun z => eq_refl) lx_areas lx_len (fun _ _ => Err ValueError) cx_opt 2 true (inr qx_line) _ 2 px_calls
    (le_n 2) qx_ok qx_points eq_refl ltac:(lia) ltac:(cbn; lia) HA HR) as (g & labels & ns & E & _).
  destruct (C168_ids Z zz zz (fun z => eq_refl) lx_areas lx_len (fun _ _ => Err ValueError) cx_opt 2 true (inr qx_line) _ 2 px_calls g labels
    ltac:(lia) qx_ok qx_points eq_refl ltac:(lia) ltac:(cbn; lia) HA HR E) as (ns' & col & lay & itm & HL & I1 & I2 & I3 & HI).
  rewrite (px_layers _ HL) in HI. destruct (HI 1 2 ltac:(lia) ltac:(cbn; lia)) as (A1 & A2 & j & Hj & A3).
  exists g, labels, col, lay, itm. repeat (split; [assumption|]). 
  unfold layer_in in Hj. destruct j as [|[|j]]; [cbn in Hj; lia| |cbn in Hj; rewrite firstn_nil in Hj; cbn in Hj; lia]. exact A3.
Qed.

(* one call, no line, a table with two columns *)
Example C168_errors_example :
  stack2d_program zz zz lx_areas (fun _ _ => Err ValueError) cx_opt 2 true (inl [0; 1; 3]%R : list R + lmesh pt Z) (firstn 1 px_calls) = Err ValueError /\
  stack2d_program zz zz lx_areas (fun _ _ => Err ValueError) cx_opt 2 true (inr (mkL [(0, 0, 0)]%R [] [] []) : list R + lmesh pt Z) px_calls = Err ValueError /\
  stack2d_program zz zz lx_areas (fun _ _ => Err ValueError) cx_opt 2 true (inl [0; 1; 3]%R : list R + lmesh pt Z)
    (px_calls ++ [mkStCall (ArgArray 2 2 []) (mkAdd ResNone None 0%Z 0%R GNone)]) = Err ValueError.
Proof.
  pose proof (C168_errors Z zz zz lx_areas (fun _ _ => Err ValueError) cx_opt) as H.
  assert (HB : base_points 2 (inl [0; 1; 3]%R : list R + lmesh pt Z) [(0, 0, 0); (1, 0, 0); (3, 0, 0)]%R) by (repeat constructor).
  split; [|split].
  - apply (proj2 (proj2 (H 2%Z true (inl [0; 1; 3]%R) (firstn 1 px_calls))) 2 [(0, 0, 0); (1, 0, 0); (3, 0, 0)]%R 2 eq_refl I HB eq_refl ltac:(lia));
      [repeat constructor|cbn; lia].
  - eapply (proj1 (H 2%Z true (inr (mkL [(0, 0, 0)]%R [] [] [])) px_calls)); reflexivity.
  - eapply (proj2 (proj2 (proj2 (H 2%Z true (inl [0; 1; 3]%R) _)) 2 [(0, 0, 0); (1, 0, 0); (3, 0, 0)]%R 2 eq_refl I HB eq_refl ltac:(lia)));
      [lia|reflexivity|repeat constructor|right; lia].
Qed.
