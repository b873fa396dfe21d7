(* C186: neighbours in volumes between two surfaces *)
From Coq Require Import Reals Lia.
From Verif Require Import Prelude Perc_model Perc_spec Surface_model Volume_model Volume_spec UVol_proof Topo_model Topo_spec Bulk_spec Lattice_spec Strata_spec Strata2_proof Strata3_proof.
From Verif Require Volume_props.
Open Scope nat_scope.

Theorem C186_extruded :
  forall (D : Type) (sa sb : usurf D) r method invert v perc nonzero rg m,
  generate_volume_unstructured sa sb r method invert = Ok v -> resolution_to_perc r method = Ok perc ->
  (forall cells, decode (uv_types v) (uv_stream v) = Some cells -> holds m cells) ->
  let base := us_cells sa in let np := length (us_pts sa) in
  let n := length perc - 1 in let nc := length base in
  (forall b, In b base -> surface_cell np b) -> conforming base ->
  (rg = true -> forall f, layer_face base np n f -> nonzero f = true) ->
  (exists l c l' c', l < n /\ l' < n /\ c < nc /\ c' < nc /\ next_to base l c l' c') ->
  (exists nb, get_neighborhood nonzero rg (DCells m) = Ok nb /\ length nb = n * nc /\
     forall l c, l < n -> c < nc ->
     exists row, nth_error nb (l * nc + c) = Some row /\ NoDup row /\
       forall z, In z row <-> exists l' c', l' < n /\ c' < nc /\ z = Z.of_nat (l' * nc + c') /\ next_to base l c l' c') /\
  exists lines, (forall P (centers : list P), get_connectivity nonzero rg (DCells m) [n * nc; 3] centers = Ok (centers, lines)) /\
    NoDup lines /\
    forall z, In z lines <-> exists l c l' c', l < n /\ c < nc /\ l' < n /\ c' < nc /\
      z = (Z.of_nat (l * nc + c), Z.of_nat (l' * nc + c')) /\ l * nc + c < l' * nc + c' /\ next_to base l c l' c'.
Proof.
  intros D sa sb r method invert v perc nonzero rg m HG HP Hm base np n nc Hb Hc Hz Hex.
  destruct (Volume_props.C11_layers_of_cells D sa sb r method invert v HG) as (perc' & cells & E1 & _ & E2 & E3 & _ & _ & E4).
  rewrite HP in E1. injection E1 as <-.
  apply (strata_neighbors base np n invert Hb Hc m cells (Hm cells E2) E3); [|exact Hex|exact Hz].
  intros l c b Ln Hcb. destruct (E4 l c b Ln Hcb) as (cell & X1 & X2 & _). eauto.
Qed.
Print Assumptions C186_extruded.

(* the surface itself *)
Theorem C186_surface :
  forall nonzero rg base np m,
  surface_mesh m base -> (forall b, In b base -> surface_cell np b) -> conforming base ->
  (rg = true -> forall b u v, In b base -> side b u v -> nonzero [u; v] = true) -> (exists c c', touching base c c') ->
  let nc := length base in
  (exists nb, get_neighborhood nonzero rg (DCells m) = Ok nb /\ length nb = nc /\
     forall c row, nth_error nb c = Some row -> NoDup row /\ forall z, In z row <-> exists c', z = Z.of_nat c' /\ touching base c c') /\
  exists lines, (forall P (centers : list P), get_connectivity nonzero rg (DCells m) [nc; 3] centers = Ok (centers, lines)) /\
    NoDup lines /\ forall z, In z lines <-> exists c c', z = (Z.of_nat c, Z.of_nat c') /\ c < c' /\ touching base c c'.
Proof. intros nonzero rg base np m Hm Hb Hc Hz Ht. exact (surface_neighbors base np Hb Hc m Hm nonzero rg Ht Hz). Qed.
Print Assumptions C186_surface.

(* two layers above a triangle and a quadrilateral with a common side *)
Definition two_cells : list (nat * list nat) := [(5, [0; 1; 2]); (9, [1; 3; 4; 2])].
Definition two_layers : vmesh := mkV [13; 12; 13; 12]
  [[0; 1; 2; 5; 6; 7]; [1; 3; 4; 2; 6; 8; 9; 7]; [5; 6; 7; 10; 11; 12]; [6; 8; 9; 7; 11; 13; 14; 12]] [] [].
Lemma two_cells_conforming : conforming two_cells.
Proof.
  assert (H : forall c b, nth_error two_cells c = Some b -> (c = 0 /\ b = (5, [0; 1; 2])) \/ (c = 1 /\ b = (9, [1; 3; 4; 2]))).
  { intros [|[|c]] b E; cbn in E; [injection E as <-; auto|injection E as <-; auto|destruct c; discriminate]. }
  split; [|split].
  - intros c1 c2 c3 b1 b2 b3 u v H1 H2 H3 _ _ _. apply H in H1, H2, H3. lia.
  - intros c1 c2 b1 b2 u v u' v' H1 H2 N S1 S2 S3 S4. apply H in H1 as [[-> ->]|[-> ->]]; apply H in H2 as [[-> ->]|[-> ->]]; try lia;
      unfold side in *; cbn in S1, S2, S3, S4;
      repeat match goal with
             | K : _ \/ _ |- _ => destruct K as [K|K]
             | K : False |- _ => destruct K
             | K : (_, _) = (_, _) |- _ => injection K as ? ?; subst; try discriminate
             end; lia.
  - intros c1 c2 b1 b2 H1 H2 S1. apply H in H1 as [[-> ->]|[-> ->]]; apply H in H2 as [[-> ->]|[-> ->]]; try reflexivity; exfalso.
    + pose proof (proj1 (S1 0) ltac:(cbn; auto)) as Q. cbn in Q. lia.
    + pose proof (proj2 (S1 0) ltac:(cbn; auto)) as Q. cbn in Q. lia.
Qed.
Example C186_example :
  (forall b, In b two_cells -> surface_cell 5 b) /\ conforming two_cells /\ next_to two_cells 0 0 1 0 /\ next_to two_cells 0 0 0 1 /\
  (exists cells, decode [13; 12; 13; 12] (flat_map (fun l => length l :: l) (v_cells two_layers)) = Some cells /\ holds two_layers cells) /\
  get_neighborhood (fun _ => true) true (DCells two_layers) = Ok [[2; 1]; [0; 3]; [0; 3]; [1; 2]]%Z.
Proof.
  split; [|split; [exact two_cells_conforming|split; [|split; [|split]]]].
  - intros b [<-|[<-|[]]]; (split; [left; unfold small_base; cbn; lia|]); (split; [repeat constructor; cbn; lia|]); cbn; intros u; lia.
  - left. split; [reflexivity|]. left. reflexivity.
  - right. split; [reflexivity|]. split; [lia|]. exists (5, [0; 1; 2]), (9, [1; 3; 4; 2]), 1, 2. do 2 (split; [reflexivity|]). split; [left; cbn; auto|right; cbn; auto 10].
  - eexists. split; [reflexivity|]. split; [split; cbn; lia|]. split; [reflexivity|]. intros i cell.
    do 4 (destruct i as [|i]; [cbn; intros [= <-]; split; [reflexivity|]; eexists; (split; [reflexivity|]); right; split; [left; cbn; lia|reflexivity]|]). destruct i; discriminate.
  - reflexivity.
Qed.

Example C186_surface_example :
  surface_mesh (mkV [5; 9] [[0; 1; 2]; [1; 3; 4; 2]] [] []) two_cells /\ touching two_cells 0 1 /\
  get_neighborhood (fun _ => true) true (DCells (mkV [5; 9] [[0; 1; 2]; [1; 3; 4; 2]] [] [])) = Ok [[1]; [0]]%Z.
Proof.
  split; [split; [reflexivity|split; [reflexivity|cbn; lia]]|]. split; [|reflexivity].
  split; [lia|]. exists (5, [0; 1; 2]), (9, [1; 3; 4; 2]), 1, 2. do 2 (split; [reflexivity|]). split; [left; cbn; auto|right; cbn; auto 10].
Qed.
