From Verif Require Import RealAux Perc_model Perc_spec Perc_proof Surface_model Surface_spec Volume_model Volume_spec Groups_model Groups_spec
  Stack_model Stack_spec Stack6_proof Final_model Final_spec Unstr_model Unstr_spec Unstr4_proof Unstr_props Topo_model
  Settle_spec Settle_proof Sweep_spec Sweep2_spec Sweep2_proof Pile_model Pile_spec Pile_props Pile2_model Pile2_spec Pile2_proof.
From Coq Require Import Lra Permutation.
Open Scope nat_scope.

(* C166: MeshStack3D(mesh, axis, bottom_up).add(...)...generate_mesh() on an unstructured surface: one cell per cell of the surface and
   layer, between the two elevations that follow from the arguments of the calls *)
Theorem C166_cells :
  forall (D : Type) (num : Z -> D) (int : D -> Z) (Hint : forall z, int (num z) = z) interp o tol clean pvmerge ax bu invert
    (m : ubase D) calls g labels,
  cleans tol clean -> appends pvmerge -> wf_ubase m -> ax <= 2 -> Forall (accepted interp (us_pts (ub_surf m))) calls ->
  stack3d_uprogram num int interp o pvmerge clean (Z.of_nat ax) bu invert m calls = Ok (g, labels) ->
  exists percs lev place cells,
    call_positions (tl calls) percs /\ settled_heights interp bu (us_pts (ub_surf m)) calls lev /\
    columns (length (us_cells (ub_surf m))) percs place /\
    identified num "StackItem" (map (fun p => length p - 1) percs) place g /\
    cells_of g cells /\ length cells = length place /\
    forall i j l c, nth_error place i = Some (j, l, c) ->
      exists base cell f perc, nth_error (us_cells (ub_surf m)) c = Some base /\ nth_error percs j = Some perc /\
        extruded invert (length (us_pts (ub_surf m))) l base cell /\ nth_error cells i = Some (rename f cell) /\
        forall u h t p, In u (snd base) -> h <= 1 -> nth_error perc (l + h) = Some t -> nth_error (us_pts (ub_surf m)) u = Some p ->
          exists q r, stacked ax p (lev u) j t q /\
            nth_error (uv_pts g) (f (u + (l + h) * length (us_pts (ub_surf m)))) = Some r /\ within tol q r.
Proof.
  intros D num int Hint interp o tol clean pvmerge ax bu invert m calls g labels Hc Hm Hw Hax Hacc H.
  destruct (upile_final num int Hint interp o tol clean Hc pvmerge Hm ax Hax bu invert m calls Hacc Hw g labels H)
    as (percs & lev & place & cells & cg & names & A1 & A2 & A3 & A4 & A5 & A6 & A7 & _).
  exists percs, lev, place, cells. auto 10.
Qed.
Print Assumptions C166_cells.

(* the cells have the names given by the calls that made them *)
Theorem C166_groups :
  forall (D : Type) (num : Z -> D) (int : D -> Z) (Hint : forall z, int (num z) = z) interp o tol clean pvmerge ax bu invert
    (m : ubase D) calls g labels,
  cleans tol clean -> appends pvmerge -> wf_ubase m -> ax <= 2 -> Forall (accepted interp (us_pts (ub_surf m))) calls ->
  stack3d_uprogram num int interp o pvmerge clean (Z.of_nat ax) bu invert m calls = Ok (g, labels) ->
  exists percs place cg names,
    call_positions (tl calls) percs /\ columns (length (us_cells (ub_surf m))) percs place /\
    identified num "StackItem" (map (fun p => length p - 1) percs) place g /\
    In ("CellGroup"%string, cg) (uv_cd g) /\
    get_cell_group (Some (map int cg)) (Some labels) = Ok (Some (inl names)) /\ length names = length place /\
    (forall k, In k (map fst labels) <-> In k names) /\
    forall i j l c, nth_error place i = Some (j, l, c) ->
      exists call k, nth_error calls (S j) = Some call /\ nth_error names i = Some k /\
        item_name o (ubase_view m) (ao_group (sc_opts call)) c k.
Proof.
  intros D num int Hint interp o tol clean pvmerge ax bu invert m calls g labels Hc Hm Hw Hax Hacc H.
  destruct (upile_final num int Hint interp o tol clean Hc pvmerge Hm ax Hax bu invert m calls Hacc Hw g labels H)
    as (percs & lev & place & cells & cg & names & A1 & A2 & A3 & A4 & A5 & A6 & A7 & _ & _ & B1 & B2 & B3 & B4 & B5 & _).
  exists percs, place, cg, names. auto 10.
Qed.
Print Assumptions C166_groups.

(* cells of layers that cannot be told from flat ones are flagged, the others have the flag of the cell of the surface; the cell data
   are those of the surface *)
Theorem C166_data :
  forall (D : Type) (num : Z -> D) (int : D -> Z) (Hint : forall z, int (num z) = z) interp o tol clean pvmerge ax bu invert
    (m : ubase D) calls g labels,
  cleans tol clean -> appends pvmerge -> wf_ubase m -> ax <= 2 -> Forall (accepted interp (us_pts (ub_surf m))) calls ->
  stack3d_uprogram num int interp o pvmerge clean (Z.of_nat ax) bu invert m calls = Ok (g, labels) ->
  exists percs lev place,
    call_positions (tl calls) percs /\ settled_heights interp bu (us_pts (ub_surf m)) calls lev /\
    columns (length (us_cells (ub_surf m))) percs place /\
    identified num "StackItem" (map (fun p => length p - 1) percs) place g /\
    (uv_ghost g = [] \/ length (uv_ghost g) = length place /\ exists i, i < length place /\ flag_of (uv_ghost g) i <> 0) /\
    (forall i j l c, nth_error place i = Some (j, l, c) ->
       exists base perc, nth_error (us_cells (ub_surf m)) c = Some base /\ nth_error percs j = Some perc /\
         (thin_layer ax (us_pts (ub_surf m)) lev j perc base -> flag_of (uv_ghost g) i = 32) /\
         (~ thin_layer ax (us_pts (ub_surf m)) lev j perc base -> flag_of (uv_ghost g) i =
            match us_ghost (ub_surf m) with Some gh => flag_of gh c | None => 0 end)) /\
    (forall k, ~ In k ["ColumnId"; "LayerId"; "StackItem"; "CellGroup"]%string ->
       (In k (map fst (uv_cd g)) <-> In k (map fst (us_cd (ub_surf m))))) /\
    forall k x, In (k, x) (uv_cd g) -> ~ In k ["ColumnId"; "LayerId"; "StackItem"; "CellGroup"]%string ->
      length x = length place /\ exists w, In (k, w) (us_cd (ub_surf m)) /\
      forall i j l c, nth_error place i = Some (j, l, c) -> nth_error x i = nth_error w c.
Proof.
  intros D num int Hint interp o tol clean pvmerge ax bu invert m calls g labels Hc Hm Hw Hax Hacc H.
  destruct (upile_final num int Hint interp o tol clean Hc pvmerge Hm ax Hax bu invert m calls Hacc Hw g labels H)
    as (percs & lev & place & cells & cg & names & A1 & A2 & A3 & A4 & A5 & A6 & A7 & _ & _ & B1 & B2 & B3 & B4 & B5 & C1 & C2 & C3 & C4).
  exists percs, lev, place. auto 10.
Qed.
Print Assumptions C166_data.

(* there is such a mesh *)
Theorem C166_defined :
  forall (D : Type) (num : Z -> D) (int : D -> Z) (Hint : forall z, int (num z) = z) interp o tol clean pvmerge ax bu invert np types
    (m : ubase D) calls,
  cleans tol clean -> appends pvmerge -> (forall bs, 2 <= length bs -> exists g, pvmerge bs = Ok g) ->
  regular_ubase np types m -> ax <= 2 ->
  2 <= length calls -> Forall (accepted interp (us_pts (ub_surf m))) calls -> Forall regular_call (tl calls) ->
  exists g labels, stack3d_uprogram num int interp o pvmerge clean (Z.of_nat ax) bu invert m calls = Ok (g, labels).
Proof.
  intros D num int Hint interp o tol clean pvmerge ax bu invert np types m calls Hc Hm HT HR Hax L2 Hacc Hreg.
  exact (upile_defined num int Hint interp o tol clean Hc pvmerge Hm ax Hax bu invert m calls Hacc np types HR L2 Hreg HT).
Qed.
Print Assumptions C166_defined.

(* what is rejected: meshes without faces, meshes with volumes, other axes, fewer than two surfaces, arrays that are not lists of points *)
Theorem C166_errors :
  forall (D : Type) (num : Z -> D) (int : D -> Z) interp o clean pvmerge axis bu invert (m : ubase D) calls,
  let types := map fst (us_cells (ub_surf m)) in
  (forall ty, In ty types -> In ty [1; 3; 4]) \/
  (exists ty, In ty types /\ In ty [10; 12; 13; 14; 42]) /\ (forall ty, In ty types -> In ty [1; 3; 4; 5; 7; 8; 9; 10; 12; 13; 14; 42]) \/
  types <> [] /\ (forall ty, In ty types -> In ty [5; 7; 8; 9]) /\
    ((axis < 0)%Z \/ (2 < axis)%Z \/
     Forall (accepted interp (us_pts (ub_surf m))) calls /\ length calls < 2 \/
     exists before ndim ncols rows opts after, calls = before ++ mkStCall (ArgArray ndim ncols rows) opts :: after /\
       Forall (accepted interp (us_pts (ub_surf m))) before /\ (ndim <> 2 \/ ncols <> 3)) ->
  stack3d_uprogram num int interp o pvmerge clean axis bu invert m calls = Err ValueError.
Proof. intros D num int interp o clean pvmerge axis bu invert m calls types H. now apply upile_errors. Qed.
Print Assumptions C166_errors.

(* the calls of C162_example above a square and a triangle: the layers over the triangle *)
Example C166_example : exists g labels cells i i' ids ids',
  stack3d_uprogram zz zz (fun _ _ => Err ValueError) cx_opt append_blocks ux_keep 2 true true (ux_base 5) px_calls = Ok (g, labels) /\
  cells_of g cells /\ length cells = 6 /\
  nth_error cells i = Some (Plain 13 ids) /\ (exists r, In r ids /\ nth_error (uv_pts g) r = Some (2, 0, -1/2)%R) /\
  nth_error cells i' = Some (Plain 13 ids') /\ (exists r, In r ids' /\ nth_error (uv_pts g) r = Some (1, 1, 9)%R).
Proof.
  destruct (px_ok (fun _ _ => Err ValueError)) as [_ HR].
  assert (HA : Forall (accepted (fun _ _ => Err ValueError) (us_pts (ub_surf (ux_base 5)))) px_calls) by (repeat constructor).
  destruct (C166_defined Z zz zz (fun z => eq_refl) (fun _ _ => Err ValueError) cx_opt 0 ux_keep append_blocks 2 true true 5 [9; 5] (ux_base 5) px_calls
    ltac:(apply keep_cleans; lra) append_blocks_appends ux_total (ux_regular 5) ltac:(lia) ltac:(cbn; lia) HA HR) as (g & labels & H).
  destruct (C166_cells Z zz zz (fun z => eq_refl) (fun _ _ => Err ValueError) cx_opt 0 ux_keep append_blocks 2 true true (ux_base 5) px_calls g labels
    ltac:(apply keep_cleans; lra) append_blocks_appends (proj1 (ux_regular 5)) ltac:(lia) HA H)
    as (percs & lev & place & cells & HP & HL & [HN HPl] & _ & Hc & Lc & HC).
  assert (percs = [[0; 1/2; 1]; [0; 1]]%R) as ->.
  { inversion HP as [|? p1 ? l1 E1 F1]; subst. inversion F1 as [|? p2 ? l2 E2 F2]; subst. inversion F2; subst.
    cbn [sc_opts ao_res ao_method] in E1, E2. rewrite (px_perc2 _ E1), (px_perc1 _ E2). reflexivity. }
  assert (HLv : forall u x y, nth_error (us_pts (ub_surf (ux_base 5))) u = Some (x, y, 5%R) -> (0 <= x <= 2)%R ->
            lev u = [-1; Rmax (x - 2) (-1); x + 8]%R).
  { intros u x y Hp Hx. destruct (HL u) as (ls & H1 & H2 & _); [apply nth_error_Some; congruence|].
    inversion H1 as [|? ? z0 ? l0 R0 G0]; subst. inversion G0 as [|? ? z1 ? l1 R1 G1]; subst. inversion G1 as [|? ? z2 ? l2 R2 G2]; subst.
    inversion G2; subst. inversion R0; subst. inversion R2; subst. inversion R1 as [| |? ? x' y' z' Hn| |]; subst.
    rewrite Hp in Hn. injection Hn as <- <- <-.
    cbn [sc_opts ao_prio ao_thick] in H2.
    inversion H2 as [|? ? ? ? ? ? ? o1 Lt S1|? ? ? ? ? ? ? o1 Le S1]; subst; [|lia].
    inversion S1 as [|? ? ? ? ? ? ? o2 Lt' S2|? ? ? ? ? ? ? o2 Le' S2]; subst; [lia|].
    inversion S2; subst. replace (Rabs 10) with 10%R by (rewrite Rabs_right; lra).
    f_equal. f_equal; [|f_equal; ring]. unfold Rmin, Rmax. repeat destruct (Rle_dec _ _); lra. }
  assert (K : forall u, (Rabs u <= 0 -> u = 0)%R) by (intros u Hu; pose proof (Rle_abs u); pose proof (Rle_abs (- u)); rewrite Rabs_Ropp in *; lra).
  assert (HW : forall p r, within 0 p r -> p = r).
  { intros [[x y] z] [[x' y'] z'] (H1 & H2 & H3). apply K in H1, H2, H3. apply injective_projections; [apply injective_projections|]; cbn [fst snd]; lra. }
  assert (Hin : In (0, 0, 1) place) by (apply HPl; eexists; split; [reflexivity|]; cbn; lia).
  assert (Hin' : In (1, 0, 1) place) by (apply HPl; eexists; split; [reflexivity|]; cbn; lia).
  apply In_nth_error in Hin as [i Hi]. apply In_nth_error in Hin' as [i' Hi'].
  destruct (HC i 0 0 1 Hi) as (base & cell & f & perc & Hb & Hp & Hx & Hcell & HQ).
  destruct (HC i' 1 0 1 Hi') as (base' & cell' & f' & perc' & Hb' & Hp' & Hx' & Hcell' & HQ').
  injection Hb as <-. injection Hp as <-. inversion Hx; subst. injection Hb' as <-. injection Hp' as <-. inversion Hx'; subst.
  exists g, labels, cells, i, i'. do 2 eexists. split; [exact H|]. split; [exact Hc|]. split.
  { rewrite Lc. assert (P : Permutation place [(0, 0, 0); (0, 0, 1); (0, 1, 0); (0, 1, 1); (1, 0, 0); (1, 0, 1)]).
    { apply NoDup_Permutation; [exact HN|repeat constructor; cbn; intuition discriminate|]. intros [[j l] c]. rewrite HPl. cbn [length us_cells ux_base ub_surf ux_surf]. split.
      - intros (perc & Hp & Hl & Hc'). destruct j as [|[|[|j]]]; cbn in Hp; try discriminate; injection Hp as <-; cbn in Hl;
          destruct c as [|[|c]]; try lia; destruct l as [|[|l]]; try lia; cbn; auto 10.
      - cbn. intros [E|[E|[E|[E|[E|[E|[]]]]]]]; injection E as <- <- <-; eexists; (split; [reflexivity|]); cbn; lia. }
    rewrite (Permutation_length P). reflexivity. }
  split; [exact Hcell|]. split; [|split; [exact Hcell'|]].
  - destruct (HQ 4 1 (1/2)%R (2, 0, 5)%R) as (q & r & (z & z' & Hz & Hz' & ->) & Hr & Hwi); [cbn; auto|lia|reflexivity|reflexivity|].
    exists (f (4 + (0 + 1) * 5)). split; [cbn; auto 10|]. refine (eq_trans Hr _). f_equal. apply HW in Hwi. rewrite <- Hwi.
    rewrite (HLv 4 2%R 0%R eq_refl ltac:(lra)) in Hz, Hz'. injection Hz as <-. injection Hz' as <-. unfold at_height.
    apply injective_projections; [reflexivity|]; cbn [fst snd]. unfold Rmax. destruct (Rle_dec _ _); lra.
  - destruct (HQ' 2 1 1%R (1, 1, 5)%R) as (q & r & (z & z' & Hz & Hz' & ->) & Hr & Hwi); [cbn; auto|lia|reflexivity|reflexivity|].
    exists (f' (2 + (0 + 1) * 5)). split; [cbn; auto 10|]. refine (eq_trans Hr _). f_equal. apply HW in Hwi. rewrite <- Hwi.
    rewrite (HLv 2 1%R 1%R eq_refl ltac:(lra)) in Hz, Hz'. injection Hz as <-. injection Hz' as <-. unfold at_height.
    apply injective_projections; [reflexivity|]; cbn [fst snd]. lra.
Qed.
