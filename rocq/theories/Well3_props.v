From Coq Require Import Reals Lra Sorted.
From Verif Require Import RealAux Volume_model Volume_spec Lines_spec Groups_model SMerge_model Stack6_proof Unstr_model Unstr_spec Unstr4_proof Unstr_props
  Paint_spec Paint_proof MMerge_props Well_model Well_spec Well3_model Well3_spec Well3_proof Well7_proof.
Open Scope nat_scope.

(* C165: the mesh of a well in three dimensions has 7328 cells: above every polygon of load_well_2d ten layers of thickness 3
   from -30 to 0, and above those named Core and Casing three layers of thickness 1 up to 3; the cells have the
   names of their polygons; ColumnId, LayerId and ExtrudeItem tell the polygon, the layer and the part *)
Theorem C165_load_well :
  forall (D : Type) (num : Z -> D) (int : D -> Z) (Hint : forall z, int (num z) = z) areas pvmerge clean pick e1 e2,
  appends pvmerge -> (forall bs, 2 <= length bs -> exists g, pvmerge bs = Ok g) ->
  cleans e1 (clean (/ 10 ^ 8)%R) -> cleans e2 (clean (/ 10 ^ 4)%R) -> extracts pick ->
  (forall bs g, Forall point_rows bs -> pvmerge bs = Ok g -> point_rows g) ->
  (forall t g, point_rows g -> point_rows (clean t g)) ->
  exists g2 groups l g labels place cells names,
    load_well_2d num int areas pvmerge clean = Ok (g2, groups) /\ drawn g2 (map snd l) /\ names_of int g2 groups (map fst l) /\
    load_well_3d num int areas pvmerge clean pick = Ok (g, labels) /\
    cells_of g cells /\ names_of int g labels names /\
    Z.of_nat (length cells) = 7328%Z /\ length names = length cells /\ length place = length cells /\ NoDup place /\ layer_ids num place g /\
    (forall c h, In (c, h) place <->
       exists k ps, nth_error l c = Some (k, ps) /\ (h < 10 \/ h < 13 /\ (k = "Core" \/ k = "Casing")%string)) /\
    forall i c h, nth_error place i = Some (c, h) ->
      exists k ps cell, nth_error l c = Some (k, ps) /\ nth_error names i = Some k /\ nth_error cells i = Some cell /\
        prism e1 (uv_pts g) cell ps (well_height h) (well_height (S h)).
Proof.
  intros D num int Hint areas pvmerge clean pick e1 e2 Hm HT H1 H2 Hp HR HC.
  destruct (load_well_3d_ok num int Hint areas pvmerge Hm HT clean e1 e2 H1 H2 HR HC pick Hp)
    as (g2 & groups & l & g & labels & place & cells & names & A & B & C & E & F & G & L1 & L2 & L3 & K).
  exists g2, groups, l, g, labels, place, cells, names.
  split; [exact A|]. split; [exact B|]. split; [exact C|]. split; [exact E|]. split; [exact F|]. split; [exact G|].
  split; [rewrite L1; reflexivity|]. split; [congruence|]. split; [congruence|]. exact K.
Qed.
Print Assumptions C165_load_well.

(* an extraction filter that keeps all points *)
Definition choose {A} (l : list A) (ids : list nat) : list A :=
  flat_map (fun i => match nth_error l i with Some x => [x] | None => [] end) ids.
Definition pick_cells {D} (ids : list nat) (g : uvol D) : uvol D :=
  let cells := choose (block_cells g) ids in
  mkUvol (uv_pts g) (encode cells) (map vtype cells) (uv_pd g) (map (fun kv => (fst kv, choose (snd kv) ids)) (uv_cd g)) [] [].
Lemma choose_picks {A} (l : list A) ids : (forall i, In i ids -> i < length l) -> picks l ids (choose l ids).
Proof.
  induction ids as [|i ids IH]; intros H; cbn [choose flat_map]; [constructor|].
  destruct (nth_error l i) as [x|] eqn:E; [|apply nth_error_None in E; specialize (H i (or_introl eq_refl)); lia].
  constructor; [exact E|]. apply IH. intros j Hj. apply H. now right.
Qed.
Lemma rename_id c : rename (fun i => i) c = c.
Proof. destruct c as [ty ids|fs]; cbn; [now rewrite map_id|]. f_equal. rewrite <- (map_id fs) at 2. apply map_ext. apply map_id. Qed.
Lemma pick_cells_extracts {D} : extracts (@pick_cells D).
Proof.
  intros ids g cells Hc _ Hi. exists (fun i => i), (choose cells ids).
  assert (Eb : block_cells g = cells) by (unfold block_cells; unfold cells_of in Hc; now rewrite Hc).
  split; [now apply choose_picks|]. split; [|split].
  - unfold cells_of, pick_cells. cbn [uv_types uv_stream]. rewrite Eb.
    rewrite (map_ext _ (fun c => c) rename_id), map_id. apply decode_encoded.
    apply decoded_encodable in Hc. rewrite Forall_forall in Hc |- *. intros c Hin. apply in_flat_map in Hin as (i & _ & Hin).
    destruct (nth_error cells i) as [x|] eqn:E; [|destruct Hin]. destruct Hin as [ <- |[]]. apply Hc. eapply nth_error_In; eauto.
  - auto.
  - intros k x Hk Lx. exists (choose x ids). split.
    + unfold pick_cells. cbn [uv_cd]. revert Hk. induction (uv_cd g) as [|[k' v] r IH]; cbn [Groups_spec.entry_of map fst snd]; [discriminate|].
      destruct (String.eqb k k'); [intros [= ->]; reflexivity|exact IH].
    + apply choose_picks. intros i Hin. rewrite Lx. auto.
Qed.

Example C165_example : exists g labels cells names,
  load_well_3d zz zz (fun _ _ => []) append_blocks (fun _ => ux_keep) pick_cells = Ok (g, labels) /\
  cells_of g cells /\ names_of zz g labels names /\ Z.of_nat (length cells) = 7328%Z.
Proof.
  destruct (C165_load_well Z zz zz (fun z => eq_refl) (fun _ _ => []) append_blocks (fun _ => ux_keep) pick_cells 0 0)
    as (g2 & groups & l & g & labels & place & cells & names & _ & _ & _ & E & F & G & L & _);
    auto using append_blocks_appends, ux_total, pick_cells_extracts.
  1, 2: apply keep_cleans; lra.
  - intros bs g _. destruct bs as [|b bs]; [discriminate|]. cbn [append_blocks]. intros [= <-] k x [].
  - exists g, labels, cells, names. auto.
Qed.
