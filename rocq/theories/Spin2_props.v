From Coq Require Import Reals Lra.
From Verif Require Import RealAux Perc_model Surface_model Surface_spec Volume_model Volume_spec Groups_model Groups_spec
  Stack_model Stack_spec Vec_spec Stack6_proof Final_model Final_spec Unstr_model Unstr_spec Unstr3_proof Unstr4_proof Unstr_props Topo_model
  Nodes_proof Sweep_spec Sweep2_model Sweep2_spec Sweep2_proof Spin_spec Spin_proof Spin_props Spin2_spec Spin2_proof.
Open Scope nat_scope.

(* C179: the cells of MeshExtrude(mesh, scale, angle).add(...)...generate_mesh() on an unstructured surface: one per cell of the
   surface and layer, between the fractions of the way from the surface before the call to the surface made by the call, with
   the names given by the call *)
Theorem C179_cells :
  forall (D : Type) (num : Z -> D) (int : D -> Z) (Hint : forall z, int (num z) = z) o tol clean pvmerge (m : ubase D)
    scale angle calls percs g labels,
  cleans tol clean -> appends pvmerge -> wf_ubase m -> us_pts (ub_surf m) <> [] -> Forall (spins angle) calls -> Forall2 cut_at calls percs ->
  extrude_uprogram num int o pvmerge clean scale angle m calls = Ok (g, labels) ->
  exists surfs place cells cg names, swept scale angle (us_pts (ub_surf m)) calls surfs /\
    columns (length (us_cells (ub_surf m))) percs place /\
    identified num "ExtrudeItem" (map (fun p => length p - 1) percs) place g /\
    cells_of g cells /\ length cells = length place /\
    In ("CellGroup"%string, cg) (uv_cd g) /\
    get_cell_group (Some (map int cg)) (Some labels) = Ok (Some (inl names)) /\ length names = length place /\
    (forall k, In k (map fst labels) <-> In k names) /\
    forall i j l c, nth_error place i = Some (j, l, c) ->
      exists base cell f call below above perc k, nth_error (us_cells (ub_surf m)) c = Some base /\ nth_error calls j = Some call /\
        nth_error (us_pts (ub_surf m) :: surfs) j = Some below /\ nth_error surfs j = Some above /\ nth_error percs j = Some perc /\
        extruded true (length (us_pts (ub_surf m))) l base cell /\ nth_error cells i = Some (rename f cell) /\
        (forall u h t p q, In u (snd base) -> h <= 1 -> nth_error perc (l + h) = Some t ->
          nth_error below u = Some p -> nth_error above u = Some q ->
          exists r, nth_error (uv_pts g) (f (u + (l + h) * length (us_pts (ub_surf m)))) = Some r /\ within tol (vline t p q) r) /\
        nth_error names i = Some k /\ item_name o (ubase_view m) (ec_group call) c k.
Proof.
  intros D num int Hint o tol clean pvmerge m scale angle calls percs g labels Hcl Hm Hw Hp0 HF HS H.
  apply (uspin_inv num int o clean pvmerge m Hp0 scale angle calls HF) in H.
  destruct (extrude_umesh_final num int Hint o tol clean Hcl pvmerge Hm _ g labels (uspin_wf num m Hp0 scale angle calls HF Hw)
    (uspin_trans num m Hp0 scale angle calls HF) H)
    as (nsubs & place & HL & HP & HI & (cells & Hc & Lc & HC) & (Hn & Hnd & cg & names & Hcg & Hgn & Ln & Hk & HG) & _).
  apply (uspin_counts num m Hp0 scale angle calls HF percs HS) in HL. subst nsubs.
  exists (surfaces scale angle (us_pts (ub_surf m)) calls), place, cells, cg, names.
  split; [apply uspin_swept; assumption|]. split; [apply (uspin_columns num m Hp0 scale angle calls HF percs HS place HP)|].
  repeat (split; [assumption|]). intros i j l c Hi.
  destruct (HC i j l c Hi) as (a & b & perc & base & cell & f & Ha & Hb & Hpe & Hbase & Hx & Hcell & HQ).
  destruct (uspin_at num m Hp0 scale angle calls percs HS j a b Ha Hb) as (call & below & above & perc' & Hcall & Hbe & Hab & Hpc & Ep & Ea & Eb & Eg).
  rewrite Hpe in Ep. apply Ok_inj in Ep. subst perc'.
  destruct (HG i j l c Hi) as (a' & b' & k & Ha' & Hb' & Hki & Hnm). rewrite Ha in Ha'. injection Ha' as <-. rewrite Hb in Hb'. injection Hb' as <-.
  assert (Lb : length below = length (us_pts (ub_surf m))).
  { destruct (swept_length _ _ _ _ _ (uspin_swept m Hp0 scale angle calls HF)) as [_ HL]. rewrite Forall_forall in HL.
    apply nth_error_In in Hbe. destruct Hbe as [<-|Hin]; [reflexivity|apply HL, Hin]. }
  rewrite Ea in Hbase, Hx, HQ, Hnm. rewrite Eb in HQ. rewrite Eg in Hnm. cbn [setp uops ub_surf us_cells us_pts] in Hbase, Hx, HQ. rewrite Lb in Hx, HQ.
  exists base, cell, f, call, below, above, perc, k. repeat (split; [assumption|]). exact Hnm.
Qed.
Print Assumptions C179_cells.

(* C179: its flags and cell arrays *)
Theorem C179_data :
  forall (D : Type) (num : Z -> D) (int : D -> Z) (Hint : forall z, int (num z) = z) o tol clean pvmerge (m : ubase D)
    scale angle calls percs g labels,
  cleans tol clean -> appends pvmerge -> wf_ubase m -> us_pts (ub_surf m) <> [] -> Forall (spins angle) calls -> Forall2 cut_at calls percs ->
  extrude_uprogram num int o pvmerge clean scale angle m calls = Ok (g, labels) ->
  exists surfs place, swept scale angle (us_pts (ub_surf m)) calls surfs /\
    columns (length (us_cells (ub_surf m))) percs place /\
    identified num "ExtrudeItem" (map (fun p => length p - 1) percs) place g /\
    (uv_ghost g = [] \/ length (uv_ghost g) = length place /\ exists i, i < length place /\ flag_of (uv_ghost g) i <> 0) /\
    (forall i j l c, nth_error place i = Some (j, l, c) ->
       exists base below above perc, nth_error (us_cells (ub_surf m)) c = Some base /\
         nth_error (us_pts (ub_surf m) :: surfs) j = Some below /\ nth_error surfs j = Some above /\ nth_error percs j = Some perc /\
         (thin_first below above perc base -> flag_of (uv_ghost g) i = 32) /\
         (~ thin_first below above perc base -> flag_of (uv_ghost g) i =
            match us_ghost (ub_surf m) with Some gh => flag_of gh c | None => 0 end)) /\
    (forall k, ~ In k ["ColumnId"; "LayerId"; "ExtrudeItem"; "CellGroup"]%string ->
       (In k (map fst (uv_cd g)) <-> In k (map fst (us_cd (ub_surf m))))) /\
    forall k x, In (k, x) (uv_cd g) -> ~ In k ["ColumnId"; "LayerId"; "ExtrudeItem"; "CellGroup"]%string ->
      length x = length place /\ exists w, In (k, w) (us_cd (ub_surf m)) /\
      forall i j l c, nth_error place i = Some (j, l, c) -> nth_error x i = nth_error w c.
Proof.
  intros D num int Hint o tol clean pvmerge m scale angle calls percs g labels Hcl Hm Hw Hp0 HF HS H.
  apply (uspin_inv num int o clean pvmerge m Hp0 scale angle calls HF) in H.
  destruct (extrude_umesh_final num int Hint o tol clean Hcl pvmerge Hm _ g labels (uspin_wf num m Hp0 scale angle calls HF Hw)
    (uspin_trans num m Hp0 scale angle calls HF) H)
    as (nsubs & place & HL & HP & HI & _ & _ & [HG0 HG] & [HK HV]).
  apply (uspin_counts num m Hp0 scale angle calls HF percs HS) in HL. subst nsubs.
  assert (HC : forall k, In k (map fst (uv_cd g)) -> ~ In k ["ColumnId"; "LayerId"; "ExtrudeItem"; "CellGroup"]%string -> In k (map fst (us_cd (ub_surf m)))).
  { intros k Hin Hk. apply HK in Hin as [E|E]; [destruct (Hk E)|].
    pose proof (uspin_len num m Hp0 scale angle calls HF) as L.
    destruct calls as [|c1 cs] eqn:EC; [exfalso; unfold extrude_umesh, extrude_unstructured, uspin_items in H; cbn in H; discriminate|].
    destruct (nth_error (uspin_items num m scale angle (c1 :: cs)) 0) as [a|] eqn:Ea; [|apply nth_error_None in Ea; lia].
    destruct (nth_error (uspin_items num m scale angle (c1 :: cs)) 1) as [b|] eqn:Eb; [|apply nth_error_None in Eb; rewrite L in Eb; cbn [length] in Eb; lia].
    specialize (E 0 a b Ea Eb). destruct (uspin_mesh num m Hp0 scale angle (c1 :: cs) 0 a Ea) as (S & _ & EM). rewrite EM in E. exact E. }
  exists (surfaces scale angle (us_pts (ub_surf m)) calls), place.
  split; [apply uspin_swept; assumption|]. split; [apply (uspin_columns num m Hp0 scale angle calls HF percs HS place HP)|].
  split; [exact HI|]. split; [exact HG0|]. split; [|split].
  - intros i j l c Hi. destruct (HG i j l c Hi) as (a & b & perc & base & Ha & Hb & Hp & Hbase & F1 & F2).
    destruct (uspin_at num m Hp0 scale angle calls percs HS j a b Ha Hb) as (call & below & above & perc' & Hcall & Hbe & Hab & Hpc & Ep & Ea & Eb & Eg).
    rewrite Hp in Ep. apply Ok_inj in Ep. subst perc'. unfold flat_first in F1, F2. rewrite Ea in Hbase, F1, F2. rewrite Eb in F1, F2.
    exists base, below, above, perc. do 4 (split; [assumption|]). split; [exact F1|exact F2].
  - intros k Hk. split; [intros E; apply HC; assumption|]. intros E. apply HK. right. intros j a b Ha _.
    destruct (uspin_mesh num m Hp0 scale angle calls j a Ha) as (S & _ & ->). exact E.
  - intros k x Hx Hk. destruct (HV k x Hx Hk) as [Lx HX]. split; [exact Lx|].
    pose proof (HC k (in_map fst _ _ Hx) Hk) as E. apply in_map_iff in E as ([k' w] & E & HW). cbn in E. subst k'.
    exists w. split; [exact HW|]. intros i j l c Hi. destruct (HX i j l c Hi) as (a & w' & Ha & Hw' & E).
    destruct (uspin_mesh num m Hp0 scale angle calls j a Ha) as (S & _ & EM). rewrite EM in Hw'. cbn in Hw'. rewrite E. f_equal. destruct Hw as (_ & HN & _).
    exact (Unstr1_proof.NoDup_fst_fun _ _ _ _ HN Hw' HW).
Qed.
Print Assumptions C179_data.

(* C179: there is such a mesh *)
Theorem C179_defined :
  forall (D : Type) (num : Z -> D) (int : D -> Z) (Hint : forall z, int (num z) = z) o tol clean pvmerge np types (m : ubase D)
    scale angle calls percs,
  cleans tol clean -> appends pvmerge -> (forall bs, 2 <= length bs -> exists g, pvmerge bs = Ok g) ->
  regular_ubase np types m -> us_pts (ub_surf m) <> [] -> calls <> [] -> Forall (spins angle) calls -> Forall2 cut_at calls percs ->
  (forall c, In c calls -> usable_group (ubase_view m) (ec_group c)) ->
  exists g labels, extrude_uprogram num int o pvmerge clean scale angle m calls = Ok (g, labels).
Proof.
  intros D num int Hint o tol clean pvmerge np types m scale angle calls percs Hc Hm HT HR Hp0 Hne HF HS HG.
  exact (uspin_defined num int Hint o tol clean Hc pvmerge Hm np types m scale angle calls percs HR Hp0 Hne HF HS HG HT).
Qed.
Print Assumptions C179_defined.

(* the calls of C178_example on a square and a triangle: the middle of the box is the middle of the edge between them *)
Lemma sn_cut_at : Forall2 cut_at sn_calls [[0; 1 / 2; 1]; [0; 1]]%R.
Proof. pose proof sn_cut as H. revert H. generalize sn_calls. intros l H. induction H as [|c p l l' (H1 & H2 & _) _ IH]; constructor; [split; assumption|exact IH]. Qed.
Lemma sn_second surfs : swept (Some 2%R) (Some 90%R) (us_pts (ub_surf (ux_base 5))) sn_calls surfs ->
  exists S rest, surfs = S :: rest /\ nth_error S 4 = Some (2, 5 / 2, 9)%R.
Proof.
  intros H. inversion H as [|? ? ? x y z c S' rest Ev HM L HP HR]; subst. cbn in Ev. injection Ev as <- <- <-.
  exists S', rest. split; [reflexivity|]. destruct (HP 4 (2, 0, 5)%R eq_refl) as (r & Hr & q & Hq & ->). rewrite Hr. f_equal. cbn [in_force ec_angle ec_scale] in *.
  assert (HB : forall k r, k <= 2 -> In r (us_pts (ub_surf (ux_base 5))) ->
    (xyz k (match k with 0 => (0, 0, 5) | _ => (0, 0, 5) end) <= xyz k r <= xyz k (match k with 0 => (2, 0, 5) | _ => (0, 1, 5) end))%R).
  { intros [|[|[|k]]] r0 Hk H0; [| | |lia]; cbn in H0; repeat (destruct H0 as [<-|H0]; [cbn; lra|]); destruct H0. }
  pose proof (middle_at _ c 0 (0, 0, 5)%R (2, 0, 5)%R ltac:(lia) HM ltac:(cbn; auto) ltac:(cbn; auto 10) (fun r H => HB 0 r ltac:(lia) H)) as C0.
  pose proof (middle_at _ c 1 (0, 0, 5)%R (0, 1, 5)%R ltac:(lia) HM ltac:(cbn; auto) ltac:(cbn; auto 10) (fun r H => HB 1 r ltac:(lia) H)) as C1.
  pose proof (middle_at _ c 2 (0, 0, 5)%R (0, 1, 5)%R ltac:(lia) HM ltac:(cbn; auto) ltac:(cbn; auto 10) (fun r H => HB 2 r ltac:(lia) H)) as C2.
  destruct c as [[cx cy] cz]. cbn in C0, C1, C2. subst.
  replace (vminus (2, 0, 5)%R ((0 + 2) / 2, (0 + 1) / 2, (5 + 5) / 2)%R) with (1, - (1 / 2), 0)%R in Hq
    by (cbn; f_equal; [f_equal|]; field).
  apply quarter in Hq; [|lra]. subst q. cbn. apply injective_projections; [apply injective_projections|]; cbn [fst snd]; field.
Qed.
Example C179_example : exists g labels cells i ids,
  extrude_uprogram zz zz cx_opt append_blocks ux_keep (Some 2%R) (Some 90%R) (ux_base 5) sn_calls = Ok (g, labels) /\
  cells_of g cells /\ nth_error cells i = Some (Plain 13 ids) /\ length ids = 6 /\
  (exists r, In r ids /\ nth_error (uv_pts g) r = Some (2, 5 / 2, 9)%R) /\
  exists cg names, In ("CellGroup"%string, cg) (uv_cd g) /\
    get_cell_group (Some (map zz cg)) (Some labels) = Ok (Some (inl names)) /\ nth_error names i = Some "sand"%string.
Proof.
  destruct (C179_defined Z zz zz (fun z => eq_refl) cx_opt 0 ux_keep append_blocks 5 [9; 5] (ux_base 5) (Some 2%R) (Some 90%R) sn_calls _
    ltac:(apply keep_cleans; lra) append_blocks_appends ux_total (ux_regular 5) ltac:(discriminate) ltac:(discriminate) sn_spins sn_cut_at) as (g & labels & H).
  { intros c [ <- | [ <- | [] ] ] d E e Hin; discriminate. }
  destruct (C179_cells Z zz zz (fun z => eq_refl) cx_opt 0 ux_keep append_blocks (ux_base 5) (Some 2%R) (Some 90%R) sn_calls _ g labels
    ltac:(apply keep_cleans; lra) append_blocks_appends (proj1 (ux_regular 5)) ltac:(discriminate) sn_spins sn_cut_at H)
    as (surfs & place & cells & cg & names & HW & [HN HP] & _ & Hc & Lc & Hcg & Hn & _ & _ & HC).
  assert (Hin : In (0, 1, 1) place) by (apply HP; eexists; split; [reflexivity|]; cbn; lia).
  apply In_nth_error in Hin as [i Hi]. destruct (sn_second surfs HW) as (S1 & rest & -> & H4).
  destruct (HC i 0 1 1 Hi) as (base & cell & f & call & below & above & perc & k & Hb & Hcall & Hbe & Hab & Hp & Hx & Hcell & HQ & Hk & Hnm).
  injection Hb as <-. injection Hcall as <-. injection Hbe as <-. injection Hab as <-. injection Hp as <-. inversion Hx; subst.
  exists g, labels, cells, i. eexists. split; [exact H|]. split; [exact Hc|]. split; [exact Hcell|]. split; [reflexivity|]. split.
  - destruct (HQ 4 1 1%R (2, 0, 5)%R (2, 5 / 2, 9)%R) as (r & Hr & Hwi); [cbn; auto|lia|reflexivity|reflexivity|exact H4|].
    exists (f (4 + (1 + 1) * 5)). split; [cbn; auto 10|]. refine (eq_trans Hr _). f_equal. destruct r as [[x y] z]. unfold vline in Hwi.
    destruct Hwi as (H1 & H2 & H3).
    assert (K : forall u, (Rabs u <= 0 -> u = 0)%R) by (intros u Hu; pose proof (Rle_abs u); pose proof (Rle_abs (- u)); rewrite Rabs_Ropp in *; lra).
    apply K in H1, H2, H3.
    apply injective_projections; [apply injective_projections|]; cbn [fst snd]; lra.
  - exists cg, names. split; [exact Hcg|]. split; [exact Hn|]. cbn in Hnm. destruct Hnm as (_ & _ & Hnm).
    rewrite Hnm in Hk; [exact Hk|discriminate|cbn; try split; discriminate].
Qed.
