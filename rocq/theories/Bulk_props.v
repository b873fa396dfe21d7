From Verif Require Import RealAux Perc_model Perc_spec Perc_proof Surface_model Surface_spec Volume_model Volume_spec Groups_model Groups_spec
  Stack_model Stack_spec Stack6_proof Final_model Final_spec Unstr_model Unstr_spec Unstr4_proof Unstr_props Topo_model
  Settle_spec Settle_proof Sweep_spec Sweep2_model Sweep2_spec Sweep2_proof Pile_model Pile_spec Pile_props Pile2_model Pile2_spec Pile2_proof
  Encl_spec Bulk_spec Bulk_proof.
From Verif Require Import Sweep2_props Pile2_props.
From Verif Require Nodes_proof Volume_props.
From Coq Require Import Lra.
Open Scope R_scope.

(* C172: wedges and hexahedra made by extrusion and stacking: volume and orientation *)
Theorem C172_layer :
  forall (D : Type) (sa sb : usurf D) r m invert v perc e H c base,
  generate_volume_unstructured sa sb r m invert = Ok v -> resolution_to_perc r m = Ok perc ->
  nth_error (us_cells sa) c = Some base -> small_base base ->
  (forall u, In u (snd base) -> exists p, nth_error (us_pts sa) u = Some p /\ nth_error (us_pts sb) u = Some (vadd p (scaled (H u) e))) ->
  exists cells, decode (uv_types v) (uv_stream v) = Some cells /\
    forall l x y, nth_error perc l = Some x -> nth_error perc (S l) = Some y ->
      exists cell, nth_error cells (l * length (us_cells sa) + c) = Some cell /\
        has_volume (uv_pts v) cell ((y - x) * volume_above (at_pts (us_pts sa)) e H (corners base)).
Proof. intros D sa sb r m invert v perc e H c base. apply layer_volume. Qed.
Print Assumptions C172_layer.

(* the faces found by extract_cell_geometry are these outer faces, a closed surface *)
Theorem C172_faces :
  forall types cells fss i ty ids,
  cell_faces types cells = Ok fss -> length cells = length types ->
  nth_error types i = Some ty -> nth_error cells i = Some (CIds ids) ->
  (ty = 13 /\ length ids = 6 \/ ty = 12 /\ length ids = 8)%nat ->
  exists faces, nth_error fss i = Some faces /\ outer_faces (Plain ty ids) faces /\
    (NoDup ids -> closed_oriented faces).
Proof.
  intros types cells fss i ty ids HF Hl Ht Hc HT.
  destruct (cell_faces_at types cells fss i ty ids HF Hl Ht Hc) as (faces & Hf & HO).
  { destruct HT as [[-> _]|[-> _]]; auto. }
  exists faces. split; [exact Hf|]. pose proof (outer_table ty ids faces HT HO) as Ho. split; [exact Ho|].
  intros Hn. exact (closed_faces _ _ Ho Hn).
Qed.
Print Assumptions C172_faces.

(* cells extruded by successive moves, when the cleaning moves no point *)
Theorem C172_extrude :
  forall (D : Type) (num : Z -> D) (int : D -> Z) (Hint : forall z, int (num z) = z) o clean pvmerge (m : ubase D)
    calls vs percs g labels,
  cleans 0 clean -> appends pvmerge -> wf_ubase m -> shifts calls vs percs ->
  extrude_uprogram num int o pvmerge clean None None m calls = Ok (g, labels) ->
  exists place cells,
    columns (length (us_cells (ub_surf m))) percs place /\ cells_of g cells /\ length cells = length place /\
    forall i j l c base v perc t t', nth_error place i = Some (j, l, c) ->
      nth_error (us_cells (ub_surf m)) c = Some base -> small_base base -> nth_error vs j = Some v ->
      nth_error percs j = Some perc -> nth_error perc l = Some t -> nth_error perc (S l) = Some t' ->
      exists cell, nth_error cells i = Some cell /\
        has_volume (uv_pts g) cell ((t' - t) * (area_along (at_pts (us_pts (ub_surf m))) v (corners base) / 2)).
Proof.
  intros D num int Hint o clean pvmerge m calls vs percs g labels Hc Hm Hw Hs HE.
  destruct (C164_cells D num int Hint o 0 clean pvmerge m calls vs percs g labels Hc Hm Hw Hs HE) as (place & cells & A & _ & B & C & E).
  exists place, cells. split; [exact A|]. split; [exact B|]. split; [exact C|].
  intros i j l c base v perc t t' Hi Hb HS Hv Hp Ht Ht'.
  destruct (E i j l c Hi) as (base' & cell & f & v' & perc' & X1 & X2 & X3 & X4 & X5 & X6).
  rewrite Hb in X1. injection X1 as <-. rewrite Hv in X2. injection X2 as <-. rewrite Hp in X3. injection X3 as <-.
  exists (rename f cell). split; [exact X5|]. rewrite <- (volume_const _ _ _ HS).
  set (w := vsum (firstn j vs)). assert (Hr : forall u, In u (snd base) -> raised (uv_pts g) f (length (us_pts (ub_surf m))) l
    (fun u => vadd (at_pts (us_pts (ub_surf m)) u) w) v (fun _ => 1) t t' u).
  { intros u Hu. assert (Hlt : (u < length (us_pts (ub_surf m)))%nat) by (eapply (proj2 (proj2 Hw)); [eapply nth_error_In; exact Hb|exact Hu]).
    destruct (nth_error (us_pts (ub_surf m)) u) as [p|] eqn:Ep; [|apply nth_error_None in Ep; lia].
    destruct (X6 u 0%nat t p Hu ltac:(lia) ltac:(now rewrite Nat.add_0_r) Ep) as (r & R1 & R2).
    destruct (X6 u 1%nat t' p Hu ltac:(lia) ltac:(now rewrite Nat.add_1_r) Ep) as (r' & R1' & R2').
    apply within0 in R2, R2'. rewrite Nat.add_0_r in R1. rewrite Nat.add_1_r in R1'. unfold raised, at_pts.
    rewrite (nth_error_nth _ _ _ Ep). rewrite R1, R1', R2, R2'. unfold shifted. fold w. clearbody w.
    destruct p as [[? ?] ?], w as [[? ?] ?], v as [[? ?] ?]. cbn. split; f_equal; f_equal; [f_equal| |f_equal|]; ring. }
  rewrite <- (volume_move (at_pts (us_pts (ub_surf m))) w).
  exact (extruded_volume _ f _ l _ v (fun _ => 1) t t' true base cell HS X4 Hr).
Qed.
Print Assumptions C172_extrude.

(* cells of stacked surfaces, when the cleaning moves no point: the heights are those of the two surfaces at the corners *)
Theorem C172_stack :
  forall (D : Type) (num : Z -> D) (int : D -> Z) (Hint : forall z, int (num z) = z) interp o clean pvmerge ax bu invert
    (m : ubase D) calls g labels,
  cleans 0 clean -> appends pvmerge -> wf_ubase m -> (ax <= 2)%nat -> Forall (accepted interp (us_pts (ub_surf m))) calls ->
  stack3d_uprogram num int interp o pvmerge clean (Z.of_nat ax) bu invert m calls = Ok (g, labels) ->
  exists percs lev place cells,
    call_positions (tl calls) percs /\ settled_heights interp bu (us_pts (ub_surf m)) calls lev /\
    columns (length (us_cells (ub_surf m))) percs place /\ cells_of g cells /\ length cells = length place /\
    forall i j l c base perc t t', nth_error place i = Some (j, l, c) ->
      nth_error (us_cells (ub_surf m)) c = Some base -> small_base base ->
      nth_error percs j = Some perc -> nth_error perc l = Some t -> nth_error perc (S l) = Some t' ->
      exists cell, nth_error cells i = Some cell /\
        has_volume (uv_pts g) cell ((t' - t) *
          volume_above (at_pts (us_pts (ub_surf m))) (unit_axis ax) (fun u => nth (S j) (lev u) 0 - nth j (lev u) 0) (corners base)).
Proof.
  intros D num int Hint interp o clean pvmerge ax bu invert m calls g labels Hc Hm Hw Hax Hacc HE.
  destruct (C166_cells D num int Hint interp o 0 clean pvmerge ax bu invert m calls g labels Hc Hm Hw Hax Hacc HE)
    as (percs & lev & place & cells & A1 & A2 & A3 & _ & A5 & A6 & A7).
  exists percs, lev, place, cells. do 5 (split; [assumption|]).
  intros i j l c base perc t t' Hi Hb HS Hp Ht Ht'.
  destruct (A7 i j l c Hi) as (base' & cell & f & perc' & X1 & X3 & X4 & X5 & X6).
  rewrite Hb in X1. injection X1 as <-. rewrite Hp in X3. injection X3 as <-.
  exists (rename f cell). split; [exact X5|]. set (P := at_pts (us_pts (ub_surf m))). set (H := fun u => nth (S j) (lev u) 0 - nth j (lev u) 0).
  set (k := fun u => nth j (lev u) 0 - match ax with 0%nat => fst (fst (P u)) | 1%nat => snd (fst (P u)) | _ => snd (P u) end).
  rewrite <- (volume_shift (fun u => vadd (P u) (scaled (k u) (unit_axis ax))) P (unit_axis ax) H k) by reflexivity.
  apply (extruded_volume _ f (length (us_pts (ub_surf m))) l _ (unit_axis ax) H t t' invert base cell HS X4).
  intros u Hu. assert (Hlt : (u < length (us_pts (ub_surf m)))%nat) by (eapply (proj2 (proj2 Hw)); [eapply nth_error_In; exact Hb|exact Hu]).
  destruct (nth_error (us_pts (ub_surf m)) u) as [p|] eqn:Ep; [|apply nth_error_None in Ep; lia].
  destruct (X6 u 0%nat t p Hu ltac:(lia) ltac:(now rewrite Nat.add_0_r) Ep) as (q & r & (z & z' & Q1 & Q2 & Q3) & R1 & R2).
  destruct (X6 u 1%nat t' p Hu ltac:(lia) ltac:(now rewrite Nat.add_1_r) Ep) as (q' & r' & (y & y' & Q1' & Q2' & Q3') & R1' & R2').
  rewrite Q1 in Q1'. injection Q1' as <-. rewrite Q2 in Q2'. injection Q2' as <-.
  apply within0 in R2, R2'. rewrite Nat.add_0_r in R1. rewrite Nat.add_1_r in R1'. unfold raised.
  rewrite R1, R1', R2, R2', Q3, Q3'. unfold k, H. rewrite (nth_error_nth _ _ 0 Q1), (nth_error_nth _ _ 0 Q2).
  replace (P u) with p by (unfold P, at_pts; now rewrite (nth_error_nth _ _ _ Ep)).
  destruct p as [[? ?] ?]. destruct ax as [|[|[|ax]]]; [| | |lia]; cbn; split; f_equal; f_equal; try f_equal; ring.
Qed.
Print Assumptions C172_stack.

Example C172_faces_example : exists fss,
  cell_faces [13; 12]%nat [CIds [0; 1; 2; 3; 4; 5]; CIds [0; 2; 6; 7; 3; 5; 8; 9]]%nat = Ok fss /\
  nth_error fss 1 = Some [[0; 7; 6; 2]; [3; 5; 8; 9]; [0; 2; 5; 3]; [2; 6; 8; 5]; [6; 7; 9; 8]; [0; 3; 9; 7]]%nat /\
  closed_oriented (nth 1 fss []).
Proof.
  eexists. split; [vm_compute; reflexivity|]. split; [reflexivity|].
  destruct (C172_faces [13; 12]%nat [CIds [0; 1; 2; 3; 4; 5]; CIds [0; 2; 6; 7; 3; 5; 8; 9]]%nat _ 1 12 [0; 2; 6; 7; 3; 5; 8; 9]%nat
    ltac:(vm_compute; reflexivity) eq_refl eq_refl eq_refl ltac:(right; split; reflexivity)) as (faces & H1 & _ & H2).
  cbn in H1. injection H1 as <-. apply H2. repeat constructor; cbn; intuition discriminate.
Qed.

(* a square and a triangle, two layers up to a tilted surface: the upper layer over the triangle *)
Definition bx_top : usurf Z := mkUsurf [(0, 0, 3); (1, 0, 4); (1, 1, 4); (0, 1, 3); (2, 0, 5)]%R [(9, [0; 1; 2; 3]); (5, [1; 4; 2])]%nat [] [] None.
Example C172_layer_example : exists v cells cell,
  generate_volume_unstructured (ux_surf 0) bx_top (ResInt 2) None true = Ok v /\ decode (uv_types v) (uv_stream v) = Some cells /\
  nth_error cells 3 = Some cell /\ has_volume (uv_pts v) cell (13 / 12).
Proof.
  assert (Hp : resolution_to_perc (ResInt 2) None = Ok [0; 1 / 2; 1]).
  { refine (eq_trans (proj1 (Nodes_proof.even_perc (mkItem tt (ResInt 2) None 0%Z 0 GNone false) 2 _)) _).
    + split; [reflexivity|]. right. exists 2%Z. split; reflexivity.
    + cbn. repeat f_equal; lra. }
  destruct (Volume_props.C11_defined Z (ux_surf 0) bx_top (ResInt 2) None true [0; 1 / 2; 1]) as (v & Hv); try assumption; try reflexivity.
  { left; reflexivity. }
  { intros ct ids [E|[E|[]]]; injection E as <- <-; auto. }
  { cbn; lia. }
  { intros k x []. }
  { intros k x [E|[]]. injection E as <- <-. reflexivity. }
  { discriminate. }
  destruct (C172_layer Z (ux_surf 0) bx_top (ResInt 2) None true v [0; 1 / 2; 1] (0, 0, 1) (fun u => nth u [3; 4; 4; 3; 5] 0) 1 (5, [1; 4; 2])%nat
    Hv Hp eq_refl) as (cells & Hd & HV).
  { left; split; reflexivity. }
  { intros u [<-|[<-|[<-|[]]]]; eexists; (split; [reflexivity|]); cbn; f_equal; f_equal; try f_equal; lra. }
  destruct (HV 1%nat (1 / 2) 1 eq_refl eq_refl) as (cell & Hc & faces & Hf & E).
  exists v, cells, cell. split; [exact Hv|]. split; [exact Hd|]. split; [exact Hc|]. exists faces. split; [exact Hf|].
  rewrite E. cbn. field.
Qed.

(* the mesh of C164_example: the block of the second move over the triangle *)
Example C172_extrude_example : exists g labels cells i cell,
  extrude_uprogram zz zz cx_opt append_blocks ux_keep None None (ux_base 5) sy_calls = Ok (g, labels) /\
  cells_of g cells /\ nth_error cells i = Some cell /\ has_volume (uv_pts g) cell (1 / 2).
Proof.
  destruct C164_example as (g & labels & _ & _ & _ & H & _).
  destruct (C172_extrude Z zz zz (fun z => eq_refl) cx_opt ux_keep append_blocks (ux_base 5) sy_calls _ _ g labels
    ltac:(apply keep_cleans; lra) append_blocks_appends (proj1 (ux_regular 5)) sy_shifts H) as (place & cells & [HN HP] & Hc & Lc & HV).
  assert (Hin : In (1, 0, 1)%nat place) by (apply HP; eexists; split; [reflexivity|]; cbn; lia).
  apply In_nth_error in Hin as [i Hi].
  destruct (HV i 1%nat 0%nat 1%nat _ _ _ 0 1 Hi eq_refl ltac:(left; split; reflexivity) eq_refl eq_refl eq_refl eq_refl) as (cell & Hcell & faces & Hf & E).
  exists g, labels, cells, i, cell. split; [exact H|]. split; [exact Hc|]. split; [exact Hcell|]. exists faces. split; [exact Hf|].
  rewrite E. cbn. field.
Qed.

(* the mesh of C166_example: the lower layer over the triangle is flat at two of its corners *)
Example C172_stack_example : exists g labels cells i cell,
  stack3d_uprogram zz zz (fun _ _ => Err ValueError) cx_opt append_blocks ux_keep 2 true true (ux_base 5) px_calls = Ok (g, labels) /\
  cells_of g cells /\ nth_error cells i = Some cell /\ has_volume (uv_pts g) cell (1 / 12).
Proof.
  destruct C166_example as (g & labels & _ & _ & _ & _ & _ & H & _).
  assert (HA : Forall (accepted (fun _ _ => Err ValueError) (us_pts (ub_surf (ux_base 5)))) px_calls) by (repeat constructor).
  destruct (C172_stack Z zz zz (fun z => eq_refl) (fun _ _ => Err ValueError) cx_opt ux_keep append_blocks 2 true true (ux_base 5) px_calls g labels
    ltac:(apply keep_cleans; lra) append_blocks_appends (proj1 (ux_regular 5)) ltac:(lia) HA H)
    as (percs & lev & place & cells & HP & HL & [HN HPl] & Hc & Lc & HV).
  assert (percs = [[0; 1/2; 1]; [0; 1]]) as ->.
  { inversion HP as [|? p1 ? l1 E1 F1]; subst. inversion F1 as [|? p2 ? l2 E2 F2]; subst. inversion F2; subst.
    cbn [sc_opts ao_res ao_method] in E1, E2. rewrite (px_perc2 _ E1), (px_perc1 _ E2). reflexivity. }
  assert (HLv : forall u x y, nth_error (us_pts (ub_surf (ux_base 5))) u = Some (x, y, 5) -> 0 <= x <= 2 ->
            lev u = [-1; Rmax (x - 2) (-1); x + 8]).
  { intros u x y Hp Hx. destruct (HL u) as (ls & H1 & H2 & _); [apply nth_error_Some; congruence|].
    inversion H1 as [|? ? z0 ? l0 R0 G0]; subst. inversion G0 as [|? ? z1 ? l1 R1 G1]; subst. inversion G1 as [|? ? z2 ? l2 R2 G2]; subst.
    inversion G2; subst. inversion R0; subst. inversion R2; subst. inversion R1 as [| |? ? x' y' z' Hn| |]; subst.
    rewrite Hp in Hn. injection Hn as <- <- <-.
    cbn [sc_opts ao_prio ao_thick] in H2.
    inversion H2 as [|? ? ? ? ? ? ? o1 Lt S1|? ? ? ? ? ? ? o1 Le S1]; subst; [|lia].
    inversion S1 as [|? ? ? ? ? ? ? o2 Lt' S2|? ? ? ? ? ? ? o2 Le' S2]; subst; [lia|].
    inversion S2; subst. replace (Rabs 10) with 10 by (rewrite Rabs_right; lra).
    f_equal. f_equal; [|f_equal; ring]. unfold Rmin, Rmax. repeat destruct (Rle_dec _ _); lra. }
  assert (Hin : In (0, 0, 1)%nat place) by (apply HPl; eexists; split; [reflexivity|]; cbn; lia).
  apply In_nth_error in Hin as [i Hi].
  destruct (HV i 0%nat 0%nat 1%nat _ _ 0 (1/2) Hi eq_refl ltac:(left; split; reflexivity) eq_refl eq_refl eq_refl) as (cell & Hcell & faces & Hf & E).
  exists g, labels, cells, i, cell. split; [exact H|]. split; [exact Hc|]. split; [exact Hcell|]. exists faces. split; [exact Hf|].
  rewrite E. cbn [corners volume_above columns_above]. rewrite (HLv 1%nat 1 0 eq_refl ltac:(lra)), (HLv 4%nat 2 0 eq_refl ltac:(lra)), (HLv 2%nat 1 1 eq_refl ltac:(lra)).
  cbn [nth]. replace (Rmax (1 - 2) (-1)) with (-1) by (unfold Rmax; destruct (Rle_dec _ _); lra).
  replace (Rmax (2 - 2) (-1)) with 0 by (unfold Rmax; destruct (Rle_dec _ _); lra). cbn. field.
Qed.
