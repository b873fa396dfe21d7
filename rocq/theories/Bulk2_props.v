From Coq Require Import Reals Lra.
From Verif Require Import RealAux Volume_model Volume_spec Surface_spec Lines_spec SMerge_model Unstr_model Unstr_spec Stack6_proof Unstr4_proof Unstr_props Paint_spec Paint_proof
  MMerge_props Well_model Well_spec Well3_model Well3_spec Encl_spec Bulk_spec Bulk_proof Bulk2_proof Well_props Well3_props.
From Verif Require Pile_proof Polygon5_proof.
Open Scope R_scope.

(* C173: volumes of the parts of the well *)
Theorem C173_volumes :
  forall (D : Type) (num : Z -> D) (int : D -> Z) (Hint : forall z, int (num z) = z) areas pvmerge clean pick,
  appends pvmerge -> (forall bs, (2 <= length bs)%nat -> exists g, pvmerge bs = Ok g) ->
  cleans 0 (clean (/ 10 ^ 8)) -> cleans 0 (clean (/ 10 ^ 4)) -> extracts pick ->
  (forall bs g, Forall point_rows bs -> pvmerge bs = Ok g -> point_rows g) ->
  (forall t g, point_rows g -> point_rows (clean t g)) ->
  exists g labels cells names vols,
    load_well_3d num int areas pvmerge clean pick = Ok (g, labels) /\ cells_of g cells /\ names_of int g labels names /\
    length names = length cells /\
    Forall2 (fun cell v => exists V, has_volume (uv_pts g) cell V /\ Rabs V = v) cells vols /\
    let disk r := 32 * (r * r * sin (2 * PI / 32) / 2) in
    named_volume "Core" (combine names vols) = 33 * disk (34 / 100) /\
    named_volume "Casing" (combine names vols) = 33 * (disk (445 / 1000) - disk (34 / 100)) /\
    named_volume "Cement" (combine names vols) = 30 * (disk 1 - disk (445 / 1000)) /\
    named_volume "Matrix" (combine names vols) = 30 * (20 * 20 - disk 1).
Proof.
  intros D num int Hint areas pvmerge clean pick Hm HT H1 H2 Hp HR HC.
  destruct (C165_load_well D num int Hint areas pvmerge clean pick 0 0 Hm HT H1 H2 Hp HR HC)
    as (g2 & groups & l & g & labels & place & cells & names & A & B & C & E & F & G & _ & L2 & L3 & HN & _ & HP & HV).
  destruct (C156_areas D num int Hint areas pvmerge clean Hm (fun x y => HT [x; y] (le_n 2)) H1 H2) as (g' & gr' & l' & A' & B' & C' & HA).
  rewrite A in A'. injection A' as <- <-.
  assert (l' = l) as -> by (apply split_eq; [exact (names_fun int g2 groups _ _ C' C)|exact (drawn_fun g2 _ _ B' B)]).
  set (layers := fun k : string => if (String.eqb k "Core" || String.eqb k "Casing")%bool then 13%nat else 10%nat).
  assert (HP' : forall c h, In (c, h) place <-> exists k ps, nth_error l c = Some (k, ps) /\ (h < layers k)%nat).
  { intros c h. rewrite HP. unfold layers. split; intros (k & ps & Hn & Hh); exists k, ps; (split; [exact Hn|]).
    - destruct Hh as [Hh|[Hh [ -> | -> ] ] ]; [|cbn; lia|cbn; lia]. destruct (_ || _)%bool; lia.
    - destruct (String.eqb_spec k "Core"); [cbn in Hh; right; auto|]. destruct (String.eqb_spec k "Casing"); cbn in Hh; auto. }
  set (vol := fun ch : nat * nat => polygon_area (snd (nth (fst ch) l (EmptyString, []))) * (well_height (S (snd ch)) - well_height (snd ch))).
  exists g, labels, cells, names, (map vol place). split; [exact E|]. split; [exact F|]. split; [exact G|]. split; [exact L2|].
  assert (Hup : forall h, well_height h <= well_height (S h)).
  { intros h. unfold well_height. destruct (Nat.leb_spec h 10), (Nat.leb_spec (S h) 10); rewrite ?S_INR; try lra; try lia.
    assert (h = 10%nat) as -> by lia. rewrite (INR_IZR_INZ 10). cbn [Z.of_nat Pos.of_succ_nat Pos.succ]. lra. }
  split.
  - clear HA. apply Pile_proof.Forall2_nth_intro; [now rewrite map_length|]. intros i cell v Hc Hv.
    rewrite nth_error_map in Hv. destruct (nth_error place i) as [[c h]|] eqn:Ei; [|discriminate]. injection Hv as <-.
    destruct (HV i c h Ei) as (k & ps & cell' & X1 & _ & X3 & X4). rewrite Hc in X3. injection X3 as <-.
    destruct (prism_volume _ _ _ _ _ X4 (Hup h)) as (V & V1 & V2). exists V. split; [exact V1|]. rewrite V2. unfold vol. cbn [fst snd].
    now rewrite (nth_error_nth _ _ _ X1).
  - assert (HK : forall k, named_volume k (combine names (map vol place)) = named_area k l * (well_height (layers k) - well_height 0)).
    { intros k. rewrite <- (stacks_volume l layers well_height place HN HP' k). rewrite sum_filter. f_equal.
      apply nth_error_ext. intros i. rewrite !nth_error_map. destruct (nth_error place i) as [[c h]|] eqn:Ei.
      - destruct (HV i c h Ei) as (k' & ps & cell' & X1 & X2 & _). 
        assert (Ec : nth_error (combine names (map vol place)) i = Some (k', vol (c, h))).
        { apply Polygon5_proof.nth_error_combine_some; [exact X2|]. rewrite nth_error_map, Ei. reflexivity. }
        rewrite Ec. cbn [option_map fst snd]. unfold vol, name_at. cbn [fst snd]. now rewrite (nth_error_nth _ _ _ X1).
      - assert (Ec : nth_error (combine names (map vol place)) i = None).
        { apply nth_error_None. apply nth_error_None in Ei. rewrite combine_length, map_length. lia. }
        rewrite Ec. reflexivity. }
    destruct HA as (A1 & A2 & A3 & A4). cbv zeta. rewrite !HK. rewrite A1, A2, A3, A4. unfold layers. cbn [String.eqb Ascii.eqb Bool.eqb orb].
    assert (W0 : well_height 0 = -30) by (unfold well_height; cbn; lra).
    assert (W10 : well_height 10 = 0) by (unfold well_height; rewrite (INR_IZR_INZ 10); cbn; lra).
    assert (W13 : well_height 13 = 3) by (unfold well_height; rewrite (INR_IZR_INZ 13); cbn; lra).
    rewrite W0, W10, W13. repeat split; ring.
Qed.
Print Assumptions C173_volumes.

(* the whole mesh *)
Example C173_example : exists g labels cells names vols,
  load_well_3d zz zz (fun _ _ => []) append_blocks (fun _ => ux_keep) pick_cells = Ok (g, labels) /\ cells_of g cells /\
  names_of zz g labels names /\ Forall2 (fun cell v => exists V, has_volume (uv_pts g) cell V /\ Rabs V = v) cells vols /\
  named_volume "Cement" (combine names vols) + named_volume "Matrix" (combine names vols) =
    30 * (400 - 16 * (445 / 1000) ^ 2 * sin (PI / 16)).
Proof.
  destruct (C173_volumes Z zz zz (fun z => eq_refl) (fun _ _ => []) append_blocks (fun _ => ux_keep) pick_cells)
    as (g & labels & cells & names & vols & E & F & G & _ & V & HD);
    auto using append_blocks_appends, ux_total, pick_cells_extracts.
  1, 2: apply keep_cleans; lra.
  - intros bs g _. destruct bs as [|b bs]; [discriminate|]. cbn [append_blocks]. intros [= <-] k x [].
  - exists g, labels, cells, names, vols. split; [exact E|]. split; [exact F|]. split; [exact G|]. split; [exact V|].
    destruct HD as (_ & _ & -> & ->). replace (2 * PI / 32) with (PI / 16) by field. field.
Qed.
