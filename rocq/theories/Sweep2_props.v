From Verif Require Import RealAux Perc_model Surface_model Surface_spec Volume_model Volume_spec Groups_model Groups_spec
  Stack_model Stack_spec Stack6_proof Final_model Final_spec Unstr_model Unstr_spec Unstr4_proof Unstr_props Topo_model
  Nodes_proof Sweep_spec Sweep2_model Sweep2_spec Sweep2_proof.
From Coq Require Import Lra Permutation.
Open Scope nat_scope.

(* C164: an unstructured surface moved along the vectors vs, with layers at the fractions percs of the moves, gives
   one cell per cell of the surface and layer, above the cell, between the two fractions *)
Theorem C164_cells :
  forall (D : Type) (num : Z -> D) (int : D -> Z) (Hint : forall z, int (num z) = z) o tol clean pvmerge (m : ubase D)
    calls vs percs g labels,
  cleans tol clean -> appends pvmerge -> wf_ubase m -> shifts calls vs percs ->
  extrude_uprogram num int o pvmerge clean None None m calls = Ok (g, labels) ->
  exists place cells,
    columns (length (us_cells (ub_surf m))) percs place /\
    identified num "ExtrudeItem" (map (fun p => length p - 1) percs) place g /\
    cells_of g cells /\ length cells = length place /\
    forall i j l c, nth_error place i = Some (j, l, c) ->
      exists base cell f v perc, nth_error (us_cells (ub_surf m)) c = Some base /\ nth_error vs j = Some v /\
        nth_error percs j = Some perc /\
        extruded true (length (us_pts (ub_surf m))) l base cell /\ nth_error cells i = Some (rename f cell) /\
        forall u h t p, In u (snd base) -> h <= 1 -> nth_error perc (l + h) = Some t ->
          nth_error (us_pts (ub_surf m)) u = Some p ->
          exists r, nth_error (uv_pts g) (f (u + (l + h) * length (us_pts (ub_surf m)))) = Some r /\
            within tol (shifted p vs j v t) r.
Proof.
  intros D num int Hint o tol clean pvmerge m calls vs percs g labels Hc Hm Hw Hmv H.
  destruct (usweep_final num int Hint o tol clean Hc pvmerge Hm m Hw calls vs percs Hmv g labels H)
    as (place & cells & cg & names & A & B & C & E & F & _). exists place, cells. auto.
Qed.
Print Assumptions C164_cells.

(* the cells have the names given by the calls that made them *)
Theorem C164_groups :
  forall (D : Type) (num : Z -> D) (int : D -> Z) (Hint : forall z, int (num z) = z) o tol clean pvmerge (m : ubase D)
    calls vs percs g labels,
  cleans tol clean -> appends pvmerge -> wf_ubase m -> shifts calls vs percs ->
  extrude_uprogram num int o pvmerge clean None None m calls = Ok (g, labels) ->
  exists place cg names,
    columns (length (us_cells (ub_surf m))) percs place /\
    identified num "ExtrudeItem" (map (fun p => length p - 1) percs) place g /\
    In ("CellGroup"%string, cg) (uv_cd g) /\
    get_cell_group (Some (map int cg)) (Some labels) = Ok (Some (inl names)) /\ length names = length place /\
    (forall k, In k (map fst labels) <-> In k names) /\
    forall i j l c, nth_error place i = Some (j, l, c) ->
      exists call k, nth_error calls j = Some call /\ nth_error names i = Some k /\
        item_name o (ubase_view m) (ec_group call) c k.
Proof.
  intros D num int Hint o tol clean pvmerge m calls vs percs g labels Hc Hm Hw Hmv H.
  destruct (usweep_final num int Hint o tol clean Hc pvmerge Hm m Hw calls vs percs Hmv g labels H)
    as (place & cells & cg & names & A & B & _ & _ & _ & _ & _ & C & E & F & G & K & _). exists place, cg, names. auto 10.
Qed.
Print Assumptions C164_groups.

(* cells above a thin first layer are flagged, the others have the flag of the cell of the surface; the cell data are
   those of the surface *)
Theorem C164_data :
  forall (D : Type) (num : Z -> D) (int : D -> Z) (Hint : forall z, int (num z) = z) o tol clean pvmerge (m : ubase D)
    calls vs percs g labels,
  cleans tol clean -> appends pvmerge -> wf_ubase m -> shifts calls vs percs ->
  extrude_uprogram num int o pvmerge clean None None m calls = Ok (g, labels) ->
  exists place,
    columns (length (us_cells (ub_surf m))) percs place /\
    identified num "ExtrudeItem" (map (fun p => length p - 1) percs) place g /\
    (uv_ghost g = [] \/ length (uv_ghost g) = length place /\ exists i, i < length place /\ flag_of (uv_ghost g) i <> 0) /\
    (forall i j l c, nth_error place i = Some (j, l, c) ->
       exists base v perc, nth_error (us_cells (ub_surf m)) c = Some base /\ nth_error vs j = Some v /\
         nth_error percs j = Some perc /\
         (thin (us_pts (ub_surf m)) vs j v perc base -> flag_of (uv_ghost g) i = 32) /\
         (~ thin (us_pts (ub_surf m)) vs j v perc base -> flag_of (uv_ghost g) i =
            match us_ghost (ub_surf m) with Some gh => flag_of gh c | None => 0 end)) /\
    (forall k, ~ In k ["ColumnId"; "LayerId"; "ExtrudeItem"; "CellGroup"]%string ->
       (In k (map fst (uv_cd g)) <-> In k (map fst (us_cd (ub_surf m))))) /\
    forall k x, In (k, x) (uv_cd g) -> ~ In k ["ColumnId"; "LayerId"; "ExtrudeItem"; "CellGroup"]%string ->
      length x = length place /\ exists w, In (k, w) (us_cd (ub_surf m)) /\
      forall i j l c, nth_error place i = Some (j, l, c) -> nth_error x i = nth_error w c.
Proof.
  intros D num int Hint o tol clean pvmerge m calls vs percs g labels Hc Hm Hw Hmv H.
  exact (usweep_data num int Hint o tol clean Hc pvmerge Hm m Hw calls vs percs Hmv g labels H).
Qed.
Print Assumptions C164_data.

(* there is such a mesh *)
Theorem C164_defined :
  forall (D : Type) (num : Z -> D) (int : D -> Z) (Hint : forall z, int (num z) = z) o tol clean pvmerge np types (m : ubase D)
    calls vs percs,
  cleans tol clean -> appends pvmerge -> (forall bs, 2 <= length bs -> exists g, pvmerge bs = Ok g) ->
  regular_ubase np types m -> calls <> [] -> shifts calls vs percs ->
  (forall c, In c calls -> usable_group (ubase_view m) (ec_group c)) ->
  exists g labels, extrude_uprogram num int o pvmerge clean None None m calls = Ok (g, labels).
Proof.
  intros D num int Hint o tol clean pvmerge np types m calls vs percs Hc Hm HT HR Hne Hmv HG.
  exact (usweep_defined num int Hint o tol clean Hc pvmerge Hm np types m calls vs percs HR Hne Hmv HG HT).
Qed.
Print Assumptions C164_defined.

(* meshes without faces, meshes with volumes, and surfaces with no call or along a vector that has not three coordinates
   are rejected *)
Theorem C164_errors :
  forall (D : Type) (num : Z -> D) (int : D -> Z) o clean pvmerge scale angle (m : ubase D) calls,
  let types := map fst (us_cells (ub_surf m)) in
  (forall ty, In ty types -> In ty [1; 3; 4]) \/
  (exists ty, In ty types /\ In ty [10; 12; 13; 14; 42]) /\ (forall ty, In ty types -> In ty [1; 3; 4; 5; 7; 8; 9; 10; 12; 13; 14; 42]) \/
  (forall ty, In ty types -> In ty [5; 7; 8; 9]) /\
    (calls = [] \/ exists pre c rest, calls = pre ++ c :: rest /\
       Forall (fun c => length (ec_vector c) = 3) pre /\ length (ec_vector c) <> 3) ->
  extrude_uprogram num int o pvmerge clean scale angle m calls = Err ValueError.
Proof. intros D num int o clean pvmerge scale angle m calls types H. now apply uprogram_errors. Qed.
Print Assumptions C164_errors.

(* a slanted move of two layers, then one to the top where the triangle becomes a cap *)
Definition sy_calls : list ex_call :=
  [mkCall [1; 0; 4]%R (ResInt 2) None None None (GStr "sand");
   mkCall [0; 2; 1]%R ResNone None None None (GDict [("cap"%string, SelCall (fun x => MBool [false; true]))])].
Lemma sy_shifts : shifts sy_calls [(1, 0, 4); (0, 2, 1)]%R [[0; 1 / 2; 1]; [0; 1]]%R.
Proof.
  split; [reflexivity|]. split; [reflexivity|]. intros [|[|[|j]]] c v n Hc Hv Hn; try discriminate;
    injection Hc as <-; injection Hv as <-; injection Hn as <-; repeat (split; [reflexivity|]); (split; [|cbn; lia]).
  - refine (eq_trans (proj1 (even_perc (mkItem tt (ResInt 2) None 0%Z 0 GNone false) 2 _)) _).
    + split; [reflexivity|]. right. exists 2%Z. split; reflexivity.
    + cbn. repeat f_equal; lra.
  - refine (eq_trans (proj1 (even_perc (mkItem tt ResNone None 0%Z 0 GNone false) 1 _)) _).
    + split; [reflexivity|]. left. split; reflexivity.
    + cbn. repeat f_equal; lra.
Qed.

Example C164_example : exists g labels cells i ids,
  extrude_uprogram zz zz cx_opt append_blocks ux_keep None None (ux_base 5) sy_calls = Ok (g, labels) /\
  cells_of g cells /\ length cells = 6 /\ nth_error cells i = Some (Plain 13 ids) /\ length ids = 6 /\
  (exists r, In r ids /\ nth_error (uv_pts g) r = Some (3, 2, 10)%R) /\
  exists cg names, In ("CellGroup"%string, cg) (uv_cd g) /\
    get_cell_group (Some (map zz cg)) (Some labels) = Ok (Some (inl names)) /\ nth_error names i = Some "cap"%string.
Proof.
  destruct (C164_defined Z zz zz (fun z => eq_refl) cx_opt 0 ux_keep append_blocks 5 [9; 5] (ux_base 5) sy_calls _ _
    ltac:(apply keep_cleans; lra) append_blocks_appends ux_total (ux_regular 5) ltac:(discriminate) sy_shifts) as (g & labels & H).
  { intros c [ <- | [ <- | [] ] ] d E e Hin; [discriminate|]. injection E as <-. destruct Hin as [ <- | [] ]. exists [false; true].
    split; [reflexivity|]. right. eexists. split; reflexivity. }
  destruct (usweep_final zz zz (fun z => eq_refl) cx_opt 0 ux_keep ltac:(apply keep_cleans; lra) append_blocks append_blocks_appends
    (ux_base 5) (proj1 (ux_regular 5)) sy_calls _ _ sy_shifts g labels H)
    as (place & cells & cg & names & [HN HP] & _ & Hc & Lc & HC & _ & _ & Hcg & Hn & _ & _ & HG & _).
  assert (Hin : In (1, 0, 1) place) by (apply HP; eexists; split; [reflexivity|]; cbn; lia).
  apply In_nth_error in Hin as [i Hi].
  destruct (HC i 1 0 1 Hi) as (base & cell & f & v & perc & Hb & Hv & Hp & Hx & Hcell & HQ).
  injection Hb as <-. injection Hv as <-. injection Hp as <-. inversion Hx; subst.
  exists g, labels, cells, i. eexists. split; [exact H|]. split; [exact Hc|]. split.
  { rewrite Lc. assert (P : Permutation place [(0, 0, 0); (0, 0, 1); (0, 1, 0); (0, 1, 1); (1, 0, 0); (1, 0, 1)]).
    { apply NoDup_Permutation; [exact HN|repeat constructor; cbn; intuition discriminate|]. intros [[j l] c]. rewrite HP. cbn [length us_cells ux_base ub_surf ux_surf]. split.
      - intros (perc & Hp & Hl & Hc'). destruct j as [|[|[|j]]]; cbn in Hp; try discriminate; injection Hp as <-; cbn in Hl;
          destruct c as [|[|c]]; try lia; destruct l as [|[|l]]; try lia; cbn; auto 10.
      - cbn. intros [E|[E|[E|[E|[E|[E|[]]]]]]]; injection E as <- <- <-; eexists; (split; [reflexivity|]); cbn; lia. }
    rewrite (Permutation_length P). reflexivity. }
  split; [exact Hcell|]. split; [reflexivity|]. split.
  - destruct (HQ 4 1 1%R (2, 0, 5)%R) as (r & Hr & Hwi); [cbn; auto|lia|reflexivity|reflexivity|].
    exists (f (4 + (0 + 1) * 5)). split; [cbn; auto 10|]. refine (eq_trans Hr _). f_equal. destruct r as [[x y] z]. unfold shifted, vsum in Hwi.
    cbn [firstn fold_right] in Hwi. destruct Hwi as (H1 & H2 & H3).
    assert (K : forall u, (Rabs u <= 0 -> u = 0)%R) by (intros u Hu; pose proof (Rle_abs u); pose proof (Rle_abs (- u)); rewrite Rabs_Ropp in *; lra).
    apply K in H1, H2, H3.
    apply injective_projections; [apply injective_projections|]; cbn [fst snd]; lra.
  - exists cg, names. split; [exact Hcg|]. split; [exact Hn|]. destruct (HG i 1 0 1 Hi) as (call & k & Hcall & Hk & Hnm).
    injection Hcall as <-. cbn [ec_group] in Hnm.
    pose proof (single_name cx_opt (ubase_view (ux_base 5)) "cap"%string (fun _ => MBool [false; true]) [false; true] 1 k true ltac:(intros s'; discriminate) eq_refl eq_refl eq_refl Hnm) as E.
    cbn in E. rewrite Hk, E. reflexivity.
Qed.

(* no cell of this mesh is flagged; it has the array of the surface *)
Example C164_data_example : exists g labels x i,
  extrude_uprogram zz zz cx_opt append_blocks ux_keep None None (ux_base 5) sy_calls = Ok (g, labels) /\
  uv_ghost g = [] /\ In ("kh"%string, x) (uv_cd g) /\ nth_error x i = Some 8%Z.
Proof.
  destruct C164_example as (g & labels & _ & _ & _ & H & _).
  destruct (C164_data Z zz zz (fun z => eq_refl) cx_opt 0 ux_keep append_blocks (ux_base 5) sy_calls _ _ g labels
    ltac:(apply keep_cleans; lra) append_blocks_appends (proj1 (ux_regular 5)) sy_shifts H) as (place & [HN HP] & _ & HG0 & HG & HK & HV).
  assert (Hin : In "kh"%string (map fst (uv_cd g))) by (apply HK; cbn; intuition discriminate).
  apply in_map_iff in Hin as ([k x] & E & Hx). cbn in E. subst k.
  destruct (HV "kh"%string x Hx ltac:(cbn; intuition discriminate)) as (Lx & w & Hw & HX).
  destruct Hw as [E|[]]. injection E as <-.
  assert (Hin : In (1, 0, 1) place) by (apply HP; eexists; split; [reflexivity|]; cbn; lia).
  apply In_nth_error in Hin as [i Hi]. exists g, labels, x, i. split; [exact H|]. split; [|split; [exact Hx|exact (HX i 1 0 1 Hi)]].
  destruct HG0 as [E|(_ & i' & Hi' & Hf)]; [exact E|]. exfalso. apply Hf.
  destruct (nth_error place i') as [[[j l] c]|] eqn:Ei; [|apply nth_error_None in Ei; lia].
  destruct (HG i' j l c Ei) as (base & v & perc & Hb & Hv & Hp & _ & F). apply F. clear - Hb Hv Hp. intros HT.
  assert (A : forall a b, (5 <= a -> a + 1 <= b -> b <= 11 -> ~ Rabs (a - b) <= / 10 ^ 8 + / 10 ^ 5 * Rabs b)%R).
  { intros a b H1 H2 H3 HA. rewrite (Rabs_left1 (a - b)) in HA by lra. rewrite (Rabs_pos_eq b) in HA by lra. lra. }
  destruct j as [|[|[|j]]]; try discriminate; injection Hv as <-; injection Hp as <-.
  - destruct c as [|[|[|c]]]; try discriminate; injection Hb as <-;
      (specialize (HT 1 0%R (1 / 2)%R (1, 0, 5)%R ltac:(cbn; auto) eq_refl eq_refl eq_refl); unfold shifted, vsum in HT;
       cbn [firstn fold_right] in HT; destruct HT as (_ & _ & HT); revert HT; apply A; lra).
  - destruct c as [|[|[|c]]]; try discriminate; injection Hb as <-;
      (specialize (HT 1 0%R 1%R (1, 0, 5)%R ltac:(cbn; auto) eq_refl eq_refl eq_refl); unfold shifted, vsum in HT;
       cbn [firstn fold_right] in HT; destruct HT as (_ & _ & HT); revert HT; apply A; lra).
Qed.
