From Coq Require Import Reals Lra.
From Verif Require Import RealAux Grid Perc_model Perc_spec Surface_model Surface_spec Volume_spec SMerge_spec Groups_model Groups_spec
  Stack_model Stack_spec Stack6_proof Vec_spec Final_model Final_spec Final4_proof Final_props Nodes_spec Nodes_proof Sweep_model Sweep_spec Spin_spec Spin_proof.
Open Scope nat_scope.

Lemma firstn_sum_mono : forall (ns : list nat) j j', j <= j' -> list_sum (firstn j ns) <= list_sum (firstn j' ns).
Proof.
  induction ns as [|n ns IH]; intros [|j] [|j'] H; cbn [firstn]; try (cbn; lia).
  change (n + list_sum (firstn j ns) <= n + list_sum (firstn j' ns)). specialize (IH j j' ltac:(lia)). lia.
Qed.
Lemma layer_unique ns l j j' : layer_in ns l j -> layer_in ns l j' -> j = j'.
Proof.
  unfold layer_in. intros H H'. destruct (Nat.lt_trichotomy j j') as [Hlt|[E|Hlt]]; [|exact E|]; exfalso.
  - pose proof (firstn_sum_mono ns (S j) j' Hlt). lia.
  - pose proof (firstn_sum_mono ns (S j') j Hlt). lia.
Qed.

(* C178: the points of MeshExtrude(mesh, scale, angle).add(...)...generate_mesh() on a structured surface *)
Theorem C178_points :
  forall (D : Type) (num : Z -> D) (int : D -> Z) (Hint : forall z, int (num z) = z)
    (volumes : shape3 -> list (R * R * R) -> list R) o ax d (m : sbase D) scale angle calls percs,
  ax <= 2 -> unit_along ax d -> wf_base d m -> calls <> [] -> Forall (spins angle) calls -> Forall2 subdivided calls percs -> Forall named_call calls ->
  exists g labels surfs, extrude_program num int volumes o scale angle m calls = Ok (g, labels) /\
    swept scale angle (ss_pts (sb_surf m)) calls surfs /\
    sg_dims g = setc ax (S (list_sum (map (fun p => length p - 1) percs))) d /\ length (sg_pts g) = size3 (sg_dims g) /\
    forall j below above perc c k t p q, nth_error (ss_pts (sb_surf m) :: surfs) j = Some below -> nth_error surfs j = Some above ->
      nth_error percs j = Some perc -> nth_error perc k = Some t -> in_shape d c -> at_coord d below c = Some p -> at_coord d above c = Some q ->
      (j = 0 \/ 0 < k) ->
      at_coord (sg_dims g) (sg_pts g) (setc ax (list_sum (firstn j (map (fun p => length p - 1) percs)) + k) c) = Some (vline t p q).
Proof.
  intros D num int Hint volumes o ax d m scale angle calls percs Hax Hu Hw Hne HF HS HG.
  pose proof (spin_program num int volumes o ax d Hax Hu m Hw scale angle calls HF) as EP.
  assert (L2 : 2 <= length (spin_items num m scale angle calls)).
  { rewrite (spin_len num ax d Hax Hu m Hw scale angle calls HF). destruct calls; [congruence|cbn; lia]. }
  destruct (extrude_mesh_defined num int volumes o ax d (spin_items num m scale angle calls) Hint Hax Hu L2
    (spin_wf num ax d Hax Hu m Hw scale angle calls HF) (spin_span num m scale angle calls percs HS HG)) as (g & labels & E).
  destruct (extrude_nodes num int volumes o ax d _ g labels Hax Hu (spin_wf num ax d Hax Hu m Hw scale angle calls HF)
    (spin_trans num m scale angle calls) E) as (nsubs & HL & Hd & Hl & HN).
  rewrite (spin_counts num ax d Hax Hu m Hw scale angle calls HF percs nsubs HS HL) in *.
  exists g, labels, (surfaces scale angle (ss_pts (sb_surf m)) calls). rewrite EP. split; [exact E|].
  split; [apply (spin_swept ax d Hax Hu m Hw); exact HF|]. split; [exact Hd|]. split; [exact Hl|].
  intros j below above perc c k t p q Hb Ha Hp Ht Hc HPp HPq Hjk.
  assert (Hj : S j < length (spin_items num m scale angle calls)).
  { rewrite (spin_len num ax d Hax Hu m Hw scale angle calls HF). rewrite (Forall2_len _ _ _ HS). apply -> Nat.succ_lt_mono. apply nth_error_Some. congruence. }
  destruct (nth_error (spin_items num m scale angle calls) j) as [a|] eqn:Ea; [|apply nth_error_None in Ea; lia].
  destruct (nth_error (spin_items num m scale angle calls) (S j)) as [b|] eqn:Eb; [|apply nth_error_None in Eb; lia].
  destruct (spin_mesh num d m Hw scale angle calls j a Ea) as (S0 & HS0 & Ma). rewrite Hb in HS0. injection HS0 as <-.
  destruct (spin_nth num m scale angle calls j b Eb) as (call & S1 & Hcall & HS1 & ->). rewrite Ha in HS1. injection HS1 as <-.
  destruct (Forall2_nth_error _ _ _ _ _ HS Hcall) as (perc' & Hp' & (EP' & _)). rewrite Hp in Hp'. injection Hp' as <-.
  destruct (HN j a _ perc c k t p q Ea Eb EP' Ht Hc) as (r & Hr & _ & Hex).
  - rewrite Ma. exact HPp.
  - exact HPq.
  - rewrite Hr, (Hex Hjk). f_equal. unfold on_way, vline. destruct p as [[? ?] ?], q as [[? ?] ?]. f_equal; [f_equal|]; ring.
Qed.
Print Assumptions C178_points.

(* C178: names, cell arrays and flags of its cells *)
Theorem C178_cells :
  forall (D : Type) (num : Z -> D) (int : D -> Z) (Hint : forall z, int (num z) = z)
    (volumes : shape3 -> list (R * R * R) -> list R) (Hvol : forall dims pts, length (volumes dims pts) = n_cells dims)
    o ax d (m : sbase D) scale angle calls percs g labels,
  ax <= 2 -> unit_along ax d -> wf_base d m -> Forall (spins angle) calls -> Forall2 subdivided calls percs ->
  extrude_program num int volumes o scale angle m calls = Ok (g, labels) ->
  let nsubs := map (fun p => length p - 1) percs in
  exists surfs cg names, swept scale angle (ss_pts (sb_surf m)) calls surfs /\
    In ("CellGroup"%string, cg) (sg_cd g) /\ get_cell_group (Some (map int cg)) (Some labels) = Ok (Some (inl names)) /\
    length names = n_cells (sg_dims g) /\ (forall k, In k (map fst labels) <-> In k names) /\
    (forall c, in_shape (cell_shape (sg_dims g)) c ->
      exists j call k below above perc pts w, layer_in nsubs (comp ax c) j /\ nth_error calls j = Some call /\
        nth_error (ss_pts (sb_surf m) :: surfs) j = Some below /\ nth_error surfs j = Some above /\ nth_error percs j = Some perc /\
        at_coord (cell_shape (sg_dims g)) names c = Some k /\
        item_name o (base_view m) (ec_group call) (fidx (cell_shape d) (setc ax 0 c)) k /\
        block_between ax d perc below above pts /\
        at_coord (cell_shape (setc ax (length perc) d)) (volumes (setc ax (length perc) d) pts)
          (setc ax (comp ax c - list_sum (firstn j nsubs)) c) = Some w /\
        (w = 0%R -> flag_at (cell_shape (sg_dims g)) (sg_ghost g) c = 32) /\
        (w <> 0%R -> flag_at (cell_shape (sg_dims g)) (sg_ghost g) c = base_flag (cell_shape d) (ss_ghost (sb_surf m)) (setc ax 0 c))) /\
    forall k x, In (k, x) (sg_cd g) -> ~ In k ["ColumnId"; "LayerId"; "ExtrudeItem"; "CellGroup"]%string ->
      length x = n_cells (sg_dims g) /\
      forall c, in_shape (cell_shape (sg_dims g)) c -> exists v, In (k, v) (ss_cd (sb_surf m)) /\
        at_coord (cell_shape (sg_dims g)) x c = at_coord (cell_shape d) v (setc ax 0 c).
Proof.
  intros D num int Hint volumes Hvol o ax d m scale angle calls percs g labels Hax Hu Hw HF HS H nsubs.
  rewrite (spin_program num int volumes o ax d Hax Hu m Hw scale angle calls HF) in H.
  destruct (extrude_final num int Hint volumes Hvol o ax d (spin_items num m scale angle calls) g labels Hax Hu
    (spin_wf num ax d Hax Hu m Hw scale angle calls HF) (spin_trans num m scale angle calls) H)
    as (ns & HL & Hd & (_ & _ & cg & names & G1 & G2 & G3 & G4 & G5) & (_ & HG) & (_ & HC)).
  rewrite (spin_counts num ax d Hax Hu m Hw scale angle calls HF percs ns HS HL) in *. fold nsubs in G5, HG, HC.
  exists (surfaces scale angle (ss_pts (sb_surf m)) calls), cg, names.
  split; [apply (spin_swept ax d Hax Hu m Hw); exact HF|]. repeat (split; [assumption|]). split.
  - intros c Hc. destruct (G5 c Hc) as (j & a & b & k & Hj & Ha & Hb & Hk & Hnm).
    destruct (HG c Hc) as (j' & a' & b' & perc & pts & w & Hj' & Ha' & Hb' & Hp & HB & Hwt & F1 & F2).
    assert (j' = j) as -> by exact (layer_unique nsubs (comp ax c) j' j Hj' Hj).
    rewrite Ha in Ha'. injection Ha' as <-. rewrite Hb in Hb'. injection Hb' as <-.
    destruct (spin_mesh num d m Hw scale angle calls j a Ha) as (S0 & HS0 & Ma).
    destruct (spin_nth num m scale angle calls j b Hb) as (call & S1 & Hcall & HS1 & ->).
    destruct (Forall2_nth_error _ _ _ _ _ HS Hcall) as (perc' & Hp' & (EP' & _)). cbn in Hp. rewrite EP' in Hp. injection Hp as <-.
    exists j, call, k, S0, S1, perc', pts, w. repeat (split; [assumption|]).
    rewrite Ma in Hnm, HB, F2. split; [exact Hnm|]. split; [exact HB|]. split; [exact Hwt|]. split; [exact F1|exact F2].
  - intros k x Hx Hk. destruct (HC k x Hx Hk) as [Lx HX]. split; [exact Lx|]. intros c Hc.
    destruct (HX c Hc) as (j & a & v & _ & Ha & Hv & E). destruct (spin_mesh num d m Hw scale angle calls j a Ha) as (S0 & _ & Ma).
    rewrite Ma in Hv. exists v. split; [exact Hv|exact E].
Qed.
Print Assumptions C178_cells.

Lemma middle_at l m k a b : k <= 2 -> box_middle l m -> In a l -> In b l ->
  (forall r, In r l -> xyz k a <= xyz k r <= xyz k b)%R -> xyz k m = ((xyz k a + xyz k b) / 2)%R.
Proof.
  intros Hk HM Ha Hb H. destruct (HM k Hk) as (p & q & Hp & Hq & -> & HB).
  pose proof (HB a Ha). pose proof (HB b Hb). pose proof (H p Hp). pose proof (H q Hq). lra.
Qed.
Lemma quarter h x y r : (0 < h)%R -> turned (0, 0, h)%R 90 (x, y, 0)%R r -> r = (- y, x, 0)%R.
Proof.
  intros Hh (s & [[w1 w2] w3] & E & O & ->). cbn in E, O. injection E as E1 E2 E3.
  assert (w3 = 0)%R as -> by (apply (Rmult_eq_reg_l h); lra). assert (s = 0)%R as -> by (apply (Rmult_eq_reg_r h); lra).
  replace (90 * PI / 180)%R with (PI / 2)%R by field. rewrite cos_PI2, sin_PI2.
  replace (vinner (0, 0, h)%R (0, 0, h)%R) with (h * h)%R by (cbn; ring). rewrite sqrt_square by lra.
  assert (w1 = x) as -> by lra. assert (w2 = y) as -> by lra. cbn. apply injective_projections; [apply injective_projections|]; cbn [fst snd]; field; lra.
Qed.
(* two moves upwards: the first with the quarter turn and the double size of the constructor, the second back to the first size *)
Definition sn_calls : list ex_call :=
  [mkCall [0; 0; 4]%R (ResInt 2) None None None (GStr "sand"); mkCall [0; 0; 1]%R ResNone None (Some (1 / 2)%R) None (GStr "clay")].
Lemma sn_spins : Forall (spins (Some 90%R)) sn_calls.
Proof.
  repeat constructor; (exists 0%R, 0%R; eexists; split; [reflexivity|]; intros _ E; injection E; lra).
Qed.
Lemma sn_cut : Forall2 subdivided sn_calls [[0; 1 / 2; 1]; [0; 1]]%R.
Proof.
  repeat constructor; cbn [length]; try lia.
  - refine (eq_trans (proj1 (even_perc (mkItem tt (ResInt 2) None 0%Z 0 GNone false) 2 _)) _).
    + split; [reflexivity|]. right. exists 2%Z. split; reflexivity.
    + cbn. repeat f_equal; lra.
  - refine (eq_trans (proj1 (even_perc (mkItem tt ResNone None 0%Z 0 GNone false) 1 _)) _).
    + split; [reflexivity|]. left. split; reflexivity.
    + cbn. repeat f_equal; lra.
Qed.
Lemma sn_named : Forall named_call sn_calls.
Proof. constructor; [right; eexists; reflexivity|]. constructor; [right; eexists; reflexivity|constructor]. Qed.
Lemma sn_first surfs : swept (Some 2%R) (Some 90%R) (ss_pts (sb_surf (fx_base 5))) sn_calls surfs ->
  exists S rest, surfs = S :: rest /\ nth_error S 5 = Some (0, 5 / 2, 9)%R.
Proof.
  intros H. inversion H as [|? ? ? x y z c S' rest Ev HM L HP HR]; subst. cbn in Ev. injection Ev as <- <- <-.
  exists S', rest. split; [reflexivity|]. destruct (HP 5 (2, 1, 5)%R eq_refl) as (r & Hr & q & Hq & ->). rewrite Hr. f_equal. cbn [in_force ec_angle ec_scale] in *.
  pose proof (middle_at _ c 0 (0, 0, 5)%R (2, 1, 5)%R ltac:(lia) HM ltac:(cbn; auto) ltac:(cbn; auto 10)) as C0.
  pose proof (middle_at _ c 1 (0, 0, 5)%R (2, 1, 5)%R ltac:(lia) HM ltac:(cbn; auto) ltac:(cbn; auto 10)) as C1.
  pose proof (middle_at _ c 2 (0, 0, 5)%R (2, 1, 5)%R ltac:(lia) HM ltac:(cbn; auto) ltac:(cbn; auto 10)) as C2.
  assert (HB : forall k r, In r (ss_pts (sb_surf (fx_base 5))) -> (xyz k (0, 0, 5) <= xyz k r <= xyz k (2, 1, 5))%R).
  { intros [|[|k]] r0 H0; cbn in H0; repeat (destruct H0 as [<-|H0]; [cbn; lra|]); destruct H0. }
  specialize (C0 (HB 0)). specialize (C1 (HB 1)). specialize (C2 (HB 2)). destruct c as [[cx cy] cz]. cbn in C0, C1, C2. subst.
  replace (vminus (2, 1, 5)%R ((0 + 2) / 2, (0 + 1) / 2, (5 + 5) / 2)%R) with (1, 1 / 2, 0)%R in Hq
    by (cbn; f_equal; [f_equal|]; field).
  apply quarter in Hq; [|lra]. subst q. cbn. apply injective_projections; [apply injective_projections|]; cbn [fst snd]; field.
Qed.

Example C178_example : exists g labels,
  extrude_program zz zz fx_volumes cx_opt (Some 2%R) (Some 90%R) (fx_base 5) sn_calls = Ok (g, labels) /\ sg_dims g = (3, 2, 4) /\
  at_coord (3, 2, 4) (sg_pts g) (2, 1, 1) = Some (1, 7 / 4, 7)%R /\
  at_coord (3, 2, 4) (sg_pts g) (2, 1, 2) = Some (0, 5 / 2, 9)%R /\
  exists cg names, In ("CellGroup"%string, cg) (sg_cd g) /\
    get_cell_group (Some (map zz cg)) (Some labels) = Ok (Some (inl names)) /\ at_coord (2, 1, 3) names (1, 0, 2) = Some "clay"%string.
Proof.
  destruct (C178_points Z zz zz (fun z => eq_refl) fx_volumes cx_opt 2 (3, 2, 1) (fx_base 5) (Some 2%R) (Some 90%R) sn_calls _
    (le_n 2) fx_unit (fx_wf 5) ltac:(discriminate) sn_spins sn_cut sn_named) as (g & labels & surfs & H & HW & Hd & _ & HN).
  exists g, labels. split; [exact H|]. cbn in Hd. split; [exact Hd|]. rewrite Hd in HN.
  destruct (sn_first surfs HW) as (S1 & rest & -> & H5). split; [|split].
  - pose proof (HN 0 _ S1 _ (2, 1, 0) 1 (1 / 2)%R (2, 1, 5)%R _ eq_refl eq_refl eq_refl eq_refl ltac:(unfold in_shape; lia) eq_refl H5 (or_introl eq_refl)) as E.
    etransitivity; [exact E|]. f_equal. cbn. apply injective_projections; [apply injective_projections|]; cbn [fst snd]; field.
  - pose proof (HN 0 _ S1 _ (2, 1, 0) 2 1%R (2, 1, 5)%R _ eq_refl eq_refl eq_refl eq_refl ltac:(unfold in_shape; lia) eq_refl H5 (or_introl eq_refl)) as E.
    etransitivity; [exact E|]. f_equal. cbn. apply injective_projections; [apply injective_projections|]; cbn [fst snd]; field.
  - destruct (C178_cells Z zz zz (fun z => eq_refl) fx_volumes fx_vol cx_opt 2 (3, 2, 1) (fx_base 5) (Some 2%R) (Some 90%R) sn_calls _ g labels
      (le_n 2) fx_unit (fx_wf 5) sn_spins sn_cut H) as (sf & cg & names & _ & H1 & H2 & _ & _ & HG & _).
    exists cg, names. split; [exact H1|]. split; [exact H2|]. rewrite Hd in HG.
    destruct (HG (1, 0, 2) ltac:(unfold in_shape; cbn; lia)) as (j & call & k & below & above & perc & pts & w & Hj & Hc & _ & _ & _ & Hk & Hn & _).
    destruct j as [|[|[|j]]]; cbn in Hj, Hc; try (unfold layer_in in Hj; cbn in Hj; lia); try discriminate.
    injection Hc as <-. cbn in Hn. destruct Hn as (_ & _ & Hn).
    rewrite Hn in Hk; [exact Hk|discriminate|cbn; try split; discriminate].
Qed.
