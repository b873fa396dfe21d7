From Verif Require Import RealAux Perc_model Perc_spec Perc_proof Surface_model Surface_spec Volume_model Volume_spec Groups_model Groups_spec
  Stack_model Stack_spec Stack6_proof Final_model Final_spec Unstr_model Unstr_spec Unstr4_proof Unstr_props
  Settle_spec Settle_proof Sweep_spec Sweep2_model Sweep2_spec Sweep2_proof Pile_model Pile_spec Pile_props Pile2_model Pile2_spec Pile2_proof
  Encl_spec Paint_spec Bulk_spec Bulk_proof Bulk3_proof.
From Verif Require Import Sweep2_props Pile2_props Bulk_props.
From Coq Require Import Lra.
Open Scope R_scope.

(* C175: the cells above a cell of the base fill the space between the first and the last surface *)
Theorem C175_stack :
  forall (D : Type) (num : Z -> D) (int : D -> Z) (Hint : forall z, int (num z) = z) interp o clean pvmerge ax bu invert
    (m : ubase D) calls g labels,
  cleans 0 clean -> appends pvmerge -> wf_ubase m -> (ax <= 2)%nat -> Forall (accepted interp (us_pts (ub_surf m))) calls ->
  Forall small_base (us_cells (ub_surf m)) ->
  (forall c perc, In c (tl calls) -> resolution_to_perc (ao_res (sc_opts c)) (ao_method (sc_opts c)) = Ok perc -> whole perc) ->
  stack3d_uprogram num int interp o pvmerge clean (Z.of_nat ax) bu invert m calls = Ok (g, labels) ->
  exists percs lev place cells vols,
    call_positions (tl calls) percs /\ settled_heights interp bu (us_pts (ub_surf m)) calls lev /\
    columns (length (us_cells (ub_surf m))) percs place /\ cells_of g cells /\ length cells = length place /\
    Forall2 (has_volume (uv_pts g)) cells vols /\
    forall c base, nth_error (us_cells (ub_surf m)) c = Some base ->
      column_volume place vols c =
        volume_above (at_pts (us_pts (ub_surf m))) (unit_axis ax) (fun u => nth (length percs) (lev u) 0 - nth 0 (lev u) 0) (corners base).
Proof.
  intros D num int Hint interp o clean pvmerge ax bu invert m calls g labels Hc Hm Hw Hax Hacc Hsm Hwh HE.
  destruct (C172_stack D num int Hint interp o clean pvmerge ax bu invert m calls g labels Hc Hm Hw Hax Hacc HE)
    as (percs & lev & place & cells & A1 & A2 & A3 & A5 & A6 & A7).
  set (P := at_pts (us_pts (ub_surf m))) in *. set (H := fun j u => nth (S j) (lev u) 0 - nth j (lev u) 0).
  set (W := fun j c => volume_above P (unit_axis ax) (H j) (corners (nth c (us_cells (ub_surf m)) (0%nat, [])))).
  set (vol := fun p : nat * nat * nat => let '(j, l, c) := p in (nth (S l) (nth j percs []) 0 - nth l (nth j percs []) 0) * W j c).
  assert (HW : Forall whole percs).
  { clear - Hwh A1. induction A1 as [|c perc cs ps E _ IH]; constructor.
    - exact (Hwh c perc (or_introl eq_refl) E).
    - apply IH. intros c' perc' Hin. apply Hwh. now right. }
  exists percs, lev, place, cells, (map vol place). do 5 (split; [assumption|]). split.
  - apply Pile_proof.Forall2_nth_intro; [now rewrite map_length|]. intros i cell v Hi Hv.
    rewrite nth_error_map in Hv. destruct (nth_error place i) as [[[j l] c]|] eqn:Ei; [|discriminate]. injection Hv as <-.
    destruct (proj1 (proj2 A3 j l c) (nth_error_In _ _ Ei)) as (perc & Ep & Hl & Hc').
    destruct (nth_error (us_cells (ub_surf m)) c) as [base|] eqn:Eb; [|apply nth_error_None in Eb; lia].
    destruct (nth_error perc l) as [t|] eqn:Et; [|apply nth_error_None in Et; lia].
    destruct (nth_error perc (S l)) as [t'|] eqn:Et'; [|apply nth_error_None in Et'; lia].
    assert (Hs : small_base base) by (rewrite Forall_forall in Hsm; apply Hsm; eapply nth_error_In; exact Eb).
    destruct (A7 i j l c base perc t t' Ei Eb Hs Ep Et Et') as (cell' & X1 & X2). rewrite Hi in X1. injection X1 as <-.
    unfold vol, W. rewrite (nth_error_nth _ _ _ Ep), (nth_error_nth _ _ _ Eb), (nth_error_nth _ _ _ Et), (nth_error_nth _ _ _ Et'). exact X2.
  - intros c base Eb. rewrite column_map.
    rewrite (map_ext_in vol (fun p => let '(j, l, _) := p in (nth (S l) (nth j percs []) 0 - nth l (nth j percs []) 0) * W j c)).
    2:{ intros [[j l] c'] Hin. apply filter_In in Hin as [_ Hin]. apply Nat.eqb_eq in Hin. cbn in Hin. now subst c'. }
    rewrite (column_sum percs _ place A3 (fun j => W j c) HW c) by (apply nth_error_Some; congruence).
    unfold W. rewrite (nth_error_nth _ _ _ Eb). rewrite (volume_above_sum P (unit_axis ax) H). apply volume_above_ext. intros u.
    unfold H. induction (length percs) as [|n IH]; [unfold sum_list; cbn; ring|].
    rewrite seq_S, map_app, Paint_proof.sum_list_app, IH. unfold sum_list. cbn. ring.
Qed.
Print Assumptions C175_stack.

(* the cells above a cell of an extruded surface have together the volume swept by the sum of the moves *)
Theorem C175_extrude :
  forall (D : Type) (num : Z -> D) (int : D -> Z) (Hint : forall z, int (num z) = z) o clean pvmerge (m : ubase D)
    calls vs percs g labels,
  cleans 0 clean -> appends pvmerge -> wf_ubase m -> shifts calls vs percs ->
  Forall small_base (us_cells (ub_surf m)) -> Forall whole percs ->
  extrude_uprogram num int o pvmerge clean None None m calls = Ok (g, labels) ->
  exists place cells vols,
    columns (length (us_cells (ub_surf m))) percs place /\ cells_of g cells /\ length cells = length place /\
    Forall2 (has_volume (uv_pts g)) cells vols /\
    forall c base, nth_error (us_cells (ub_surf m)) c = Some base ->
      column_volume place vols c = area_along (at_pts (us_pts (ub_surf m))) (vsum vs) (corners base) / 2.
Proof.
  intros D num int Hint o clean pvmerge m calls vs percs g labels Hc Hm Hw Hs Hsm HW HE.
  destruct (C172_extrude D num int Hint o clean pvmerge m calls vs percs g labels Hc Hm Hw Hs HE) as (place & cells & A3 & A5 & A6 & A7).
  set (P := at_pts (us_pts (ub_surf m))) in *.
  set (W := fun j c => area_along P (nth j vs (0, 0, 0)) (corners (nth c (us_cells (ub_surf m)) (0%nat, []))) / 2).
  set (vol := fun p : nat * nat * nat => let '(j, l, c) := p in (nth (S l) (nth j percs []) 0 - nth l (nth j percs []) 0) * W j c).
  assert (Lv : length vs = length percs) by (destruct Hs as (L1 & L2 & _); congruence).
  exists place, cells, (map vol place). do 3 (split; [assumption|]). split.
  - apply Pile_proof.Forall2_nth_intro; [now rewrite map_length|]. intros i cell v Hi Hv.
    rewrite nth_error_map in Hv. destruct (nth_error place i) as [[[j l] c]|] eqn:Ei; [|discriminate]. injection Hv as <-.
    destruct (proj1 (proj2 A3 j l c) (nth_error_In _ _ Ei)) as (perc & Ep & Hl & Hc').
    destruct (nth_error (us_cells (ub_surf m)) c) as [base|] eqn:Eb; [|apply nth_error_None in Eb; lia].
    destruct (nth_error vs j) as [w|] eqn:Ew.
    2:{ apply nth_error_None in Ew. assert (j < length percs)%nat by (apply nth_error_Some; congruence). lia. }
    destruct (nth_error perc l) as [t|] eqn:Et; [|apply nth_error_None in Et; lia].
    destruct (nth_error perc (S l)) as [t'|] eqn:Et'; [|apply nth_error_None in Et'; lia].
    assert (Hsb : small_base base) by (rewrite Forall_forall in Hsm; apply Hsm; eapply nth_error_In; exact Eb).
    destruct (A7 i j l c base w perc t t' Ei Eb Hsb Ew Ep Et Et') as (cell' & X1 & X2). rewrite Hi in X1. injection X1 as <-.
    unfold vol, W. rewrite (nth_error_nth _ _ _ Ep), (nth_error_nth _ _ _ Eb), (nth_error_nth _ _ _ Et), (nth_error_nth _ _ _ Et'), (nth_error_nth _ _ _ Ew). exact X2.
  - intros c base Eb. rewrite column_map.
    rewrite (map_ext_in vol (fun p => let '(j, l, _) := p in (nth (S l) (nth j percs []) 0 - nth l (nth j percs []) 0) * W j c)).
    2:{ intros [[j l] c'] Hin. apply filter_In in Hin as [_ Hin]. apply Nat.eqb_eq in Hin. cbn in Hin. now subst c'. }
    rewrite (column_sum percs _ place A3 (fun j => W j c) HW c) by (apply nth_error_Some; congruence).
    unfold W. rewrite (nth_error_nth _ _ _ Eb). rewrite <- area_vsum. f_equal. rewrite <- Lv. clear.
    apply nth_error_ext. intros i. rewrite !nth_error_map. destruct (nth_error vs i) as [v|] eqn:E.
    + rewrite Stack3_proof.nth_error_seq_lt by (apply nth_error_Some; congruence). cbn. now rewrite (nth_error_nth _ _ _ E).
    + apply nth_error_None in E. rewrite (proj2 (nth_error_None (seq 0 (length vs)) i)) by (now rewrite seq_length). reflexivity.
Qed.
Print Assumptions C175_extrude.

(* the meshes of C164_example and C166_example: above the triangle *)
Example C175_extrude_example : exists g labels place cells vols,
  extrude_uprogram zz zz cx_opt append_blocks ux_keep None None (ux_base 5) sy_calls = Ok (g, labels) /\
  cells_of g cells /\ Forall2 (has_volume (uv_pts g)) cells vols /\ column_volume place vols 1 = 5 / 2.
Proof.
  destruct C164_example as (g & labels & _ & _ & _ & H & _).
  destruct (C175_extrude Z zz zz (fun z => eq_refl) cx_opt ux_keep append_blocks (ux_base 5) sy_calls _ _ g labels
    ltac:(apply keep_cleans; lra) append_blocks_appends (proj1 (ux_regular 5)) sy_shifts) as (place & cells & vols & HP & Hc & Lc & HF & HV); auto.
  { constructor; [right; split; [right|]; reflexivity|]. constructor; [left; split; reflexivity|constructor]. }
  { repeat constructor. }
  exists g, labels, place, cells, vols. split; [exact H|]. split; [exact Hc|]. split; [exact HF|].
  rewrite (HV 1%nat _ eq_refl). cbn. field.
Qed.
Example C175_stack_example : exists g labels lev place cells vols,
  stack3d_uprogram zz zz (fun _ _ => Err ValueError) cx_opt append_blocks ux_keep 2 true true (ux_base 5) px_calls = Ok (g, labels) /\
  settled_heights (fun _ _ => Err ValueError) true (us_pts (ub_surf (ux_base 5))) px_calls lev /\
  cells_of g cells /\ Forall2 (has_volume (uv_pts g)) cells vols /\
  column_volume place vols 1 = 1 / 2 * ((nth 2 (lev 1%nat) 0 - nth 0 (lev 1%nat) 0 + (nth 2 (lev 4%nat) 0 - nth 0 (lev 4%nat) 0) + (nth 2 (lev 2%nat) 0 - nth 0 (lev 2%nat) 0)) / 3).
Proof.
  destruct C166_example as (g & labels & _ & _ & _ & _ & _ & H & _).
  assert (HA : Forall (accepted (fun _ _ => Err ValueError) (us_pts (ub_surf (ux_base 5)))) px_calls) by (repeat constructor).
  destruct (C175_stack Z zz zz (fun z => eq_refl) (fun _ _ => Err ValueError) cx_opt ux_keep append_blocks 2 true true (ux_base 5) px_calls g labels
    ltac:(apply keep_cleans; lra) append_blocks_appends (proj1 (ux_regular 5)) ltac:(lia) HA)
    as (percs & lev & place & cells & vols & HP & HL & HPl & Hc & Lc & HF & HV); auto.
  { constructor; [right; split; [right|]; reflexivity|]. constructor; [left; split; reflexivity|constructor]. }
  { intros c perc [<-|[<-|[]]] E; cbn [sc_opts ao_res ao_method] in E; [rewrite (px_perc2 _ E)|rewrite (px_perc1 _ E)]; repeat constructor. }
  assert (L : length percs = 2%nat) by (symmetry; exact (Forall2_len _ _ _ HP)).
  exists g, labels, lev, place, cells, vols. split; [exact H|]. split; [exact HL|]. split; [exact Hc|]. split; [exact HF|].
  rewrite (HV 1%nat _ eq_refl), L. cbn. field.
Qed.
