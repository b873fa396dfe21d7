From Verif Require Import RealAux Perc_model Surface_model Surface_spec Volume_model Volume_spec Groups_model Groups_spec
  Stack_model Stack_spec Stack6_proof Final_model Final_spec Final_props Sweep_model Sweep_spec Sweep_proof.
From Coq Require Import Lra.
Open Scope nat_scope.

(* C160: a structured surface moved along the vectors vs, cut in ns layers each, gives a mesh whose points are the points of
   the surface after the whole moves and a fraction of the last one *)
Theorem C160_points :
  forall (D : Type) (num : Z -> D) (int : D -> Z) (Hint : forall z, int (num z) = z)
    (volumes : shape3 -> list (R * R * R) -> list R) (Hvol : forall dims pts, length (volumes dims pts) = n_cells dims)
    o ax d (m : sbase D) calls vs ns,
  ax <= 2 -> unit_along ax d -> wf_base d m -> calls <> [] -> moves calls vs ns ->
  exists g labels, extrude_program num int volumes o None None m calls = Ok (g, labels) /\
    sg_dims g = setc ax (S (list_sum ns)) d /\ length (sg_pts g) = size3 (sg_dims g) /\
    forall j v n c k p, nth_error vs j = Some v -> nth_error ns j = Some n -> k <= n ->
      in_shape d c -> at_coord d (ss_pts (sb_surf m)) c = Some p ->
      at_coord (sg_dims g) (sg_pts g) (setc ax (list_sum (firstn j ns) + k) c) = Some (moved p vs j v k n).
Proof.
  intros D num int Hint volumes Hvol o ax d m calls vs ns Hax Hu Hw Hne Hmv.
  destruct (sweep_defined num int Hint volumes o ax d Hax Hu m Hw calls vs ns Hne Hmv) as (g & labels & H).
  exists g, labels. split; [exact H|]. exact (sweep_nodes num int volumes o ax d Hax Hu m Hw calls vs ns Hmv g labels H).
Qed.
Print Assumptions C160_points.

(* the cells above a cell of the surface have the name given by the call that made them *)
Theorem C160_groups :
  forall (D : Type) (num : Z -> D) (int : D -> Z) (Hint : forall z, int (num z) = z)
    (volumes : shape3 -> list (R * R * R) -> list R) (Hvol : forall dims pts, length (volumes dims pts) = n_cells dims)
    o ax d (m : sbase D) calls vs ns g labels,
  ax <= 2 -> unit_along ax d -> wf_base d m -> moves calls vs ns ->
  extrude_program num int volumes o None None m calls = Ok (g, labels) ->
  exists cg names, In ("CellGroup"%string, cg) (sg_cd g) /\
    get_cell_group (Some (map int cg)) (Some labels) = Ok (Some (inl names)) /\
    length names = n_cells (sg_dims g) /\
    (forall k, In k (map fst labels) <-> In k names) /\
    forall c, in_shape (cell_shape (sg_dims g)) c ->
      exists j call k, layer_in ns (comp ax c) j /\ nth_error calls j = Some call /\
        at_coord (cell_shape (sg_dims g)) names c = Some k /\
        item_name o (base_view m) (ec_group call) (fidx (cell_shape d) (setc ax 0 c)) k.
Proof.
  intros D num int Hint volumes Hvol o ax d m calls vs ns g labels Hax Hu Hw Hmv H.
  apply (sweep_groups num int Hint volumes Hvol o ax d Hax Hu m Hw calls vs ns Hmv g labels H).
Qed.
Print Assumptions C160_groups.

(* the cells of zero volume are inactive, and the others when the cell of the surface is *)
Theorem C160_inactive :
  forall (D : Type) (num : Z -> D) (int : D -> Z) (Hint : forall z, int (num z) = z)
    (volumes : shape3 -> list (R * R * R) -> list R) (Hvol : forall dims pts, length (volumes dims pts) = n_cells dims)
    o ax d (m : sbase D) calls vs ns g labels,
  ax <= 2 -> unit_along ax d -> wf_base d m -> moves calls vs ns ->
  extrude_program num int volumes o None None m calls = Ok (g, labels) ->
  forall c, in_shape (cell_shape (sg_dims g)) c ->
    exists j v n pts w, layer_in ns (comp ax c) j /\ nth_error vs j = Some v /\ nth_error ns j = Some n /\
      length pts = size3 (setc ax (S n) d) /\
      (forall c' p, in_shape (setc ax (S n) d) c' -> at_coord d (ss_pts (sb_surf m)) (setc ax 0 c') = Some p ->
         at_coord (setc ax (S n) d) pts c' = Some (moved p vs j v (comp ax c') n)) /\
      at_coord (cell_shape (setc ax (S n) d)) (volumes (setc ax (S n) d) pts) (setc ax (comp ax c - list_sum (firstn j ns)) c) = Some w /\
      (w = 0%R -> flag_at (cell_shape (sg_dims g)) (sg_ghost g) c = 32) /\
      (w <> 0%R -> flag_at (cell_shape (sg_dims g)) (sg_ghost g) c =
                   base_flag (cell_shape d) (ss_ghost (sb_surf m)) (setc ax 0 c)).
Proof.
  intros D num int Hint volumes Hvol o ax d m calls vs ns g labels Hax Hu Hw Hmv H.
  apply (sweep_ghosts num int Hint volumes Hvol o ax d Hax Hu m Hw calls vs ns Hmv g labels H).
Qed.
Print Assumptions C160_inactive.

(* two slanted moves, of two layers and of one *)
Definition wx_calls : list ex_call :=
  [mkCall [1; 0; 4]%R (ResInt 2) None None None (GStr "sand"); mkCall [0; 2; 1]%R ResNone None None None (GStr "clay")].
Lemma wx_moves : moves wx_calls [(1, 0, 4); (0, 2, 1)]%R [2; 1].
Proof.
  split; [reflexivity|]. split; [reflexivity|]. intros [|[|[|j]]] c v n Hc Hv Hn; try discriminate;
    injection Hc as <-; injection Hv as <-; injection Hn as <-.
  - repeat (split; [reflexivity|]). split; [right; exists 2%Z; split; reflexivity|right; now exists "sand"%string].
  - repeat (split; [reflexivity|]). split; [left; split; reflexivity|right; now exists "clay"%string].
Qed.

Example C160_example : exists g labels,
  extrude_program zz zz fx_volumes cx_opt None None (fx_base 5) wx_calls = Ok (g, labels) /\ sg_dims g = (3, 2, 4) /\
  at_coord (3, 2, 4) (sg_pts g) (2, 1, 1) = Some (5 / 2, 1, 7)%R /\
  at_coord (3, 2, 4) (sg_pts g) (2, 1, 3) = Some (3, 3, 10)%R /\
  exists cg names, In ("CellGroup"%string, cg) (sg_cd g) /\
    get_cell_group (Some (map zz cg)) (Some labels) = Ok (Some (inl names)) /\
    at_coord (2, 1, 3) names (1, 0, 1) = Some "sand"%string /\ at_coord (2, 1, 3) names (1, 0, 2) = Some "clay"%string.
Proof.
  destruct (C160_points Z zz zz (fun z => eq_refl) fx_volumes fx_vol cx_opt 2 (3, 2, 1) (fx_base 5) wx_calls _ _
    (le_n 2) fx_unit (fx_wf 5) ltac:(discriminate) wx_moves) as (g & labels & H & Hd & _ & HN).
  exists g, labels. split; [exact H|]. cbn in Hd. split; [exact Hd|]. rewrite Hd in HN. split; [|split].
  - pose proof (HN 0 _ 2 (2, 1, 0) 1 _ eq_refl eq_refl ltac:(lia) ltac:(unfold in_shape; lia) eq_refl) as E. cbn in E.
    etransitivity; [exact E|]. f_equal. apply injective_projections; [apply injective_projections|]; cbn [fst snd]; field.
  - pose proof (HN 1 _ 1 (2, 1, 0) 1 _ eq_refl eq_refl ltac:(lia) ltac:(unfold in_shape; lia) eq_refl) as E. cbn in E.
    etransitivity; [exact E|]. f_equal. apply injective_projections; [apply injective_projections|]; cbn [fst snd]; field.
  - destruct (C160_groups Z zz zz (fun z => eq_refl) fx_volumes fx_vol cx_opt 2 (3, 2, 1) (fx_base 5) wx_calls _ _ g labels
      (le_n 2) fx_unit (fx_wf 5) wx_moves H) as (cg & names & H1 & H2 & _ & _ & HG).
    exists cg, names. split; [exact H1|]. split; [exact H2|]. rewrite Hd in HG. split.
    + destruct (HG (1, 0, 1) ltac:(unfold in_shape; cbn; lia)) as (j & call & k & Hj & Hc & Hk & Hn).
      destruct j as [|[|[|j]]]; cbn in Hj, Hc; try (unfold layer_in in Hj; cbn in Hj; lia); try discriminate.
      injection Hc as <-. cbn in Hn. destruct Hn as (_ & _ & Hn).
      rewrite Hn in Hk; [exact Hk|discriminate|cbn; try split; discriminate].
    + destruct (HG (1, 0, 2) ltac:(unfold in_shape; cbn; lia)) as (j & call & k & Hj & Hc & Hk & Hn).
      destruct j as [|[|[|j]]]; cbn in Hj, Hc; try (unfold layer_in in Hj; cbn in Hj; lia); try discriminate.
      injection Hc as <-. cbn in Hn. destruct Hn as (_ & _ & Hn).
      rewrite Hn in Hk; [exact Hk|discriminate|cbn; try split; discriminate].
Qed.
