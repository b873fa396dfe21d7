(* C187: faces of volumes between two surfaces, edges of surfaces *)
From Coq Require Import Reals Lia.
From Verif Require Import Prelude Perc_model Perc_spec Surface_model Volume_model Volume_spec UVol_proof Topo_model Topo_spec Bulk_spec Lattice_spec Strata_spec Strata2_proof Strata3_proof
  Sides_spec Sides_proof.
From Verif Require Volume_props Strata_props.
Open Scope nat_scope.

Theorem C187_extruded :
  forall (D : Type) (sa sb : usurf D) r method invert v perc nonzero rg m es,
  generate_volume_unstructured sa sb r method invert = Ok v -> resolution_to_perc r method = Ok perc ->
  (forall cells, decode (uv_types v) (uv_stream v) = Some cells -> holds m cells) ->
  let base := us_cells sa in let np := length (us_pts sa) in
  let n := length perc - 1 in let nc := length base in
  (forall b, In b base -> surface_cell np b) -> conforming base -> all_sides base es ->
  (rg = true -> forall f, layer_face base np n f -> nonzero f = true) ->
  (exists l c l' c', l < n /\ l' < n /\ c < nc /\ c' < nc /\ next_to base l c l' c') ->
  exists g, extract_cell_geometry nonzero rg (DCells m) = Ok g /\
    length (g_faces g) = S n * nc + n * length es /\ length (g_rows g) = length (g_faces g) /\
    (forall c b l, nth_error base c = Some b -> l <= n ->
       listed_once g (lift l np (corners b)) (beside n (fun t => t * nc + c) l)) /\
    (forall u v l, In (u, v) es -> l < n ->
       listed_once g [u + l * np; v + l * np; v + S l * np; u + S l * np] (side_row base (fun c => l * nc + c) u v)).
Proof.
  intros D sa sb r method invert v perc nonzero rg m es HG HP Hm base np n nc Hb Hc He Hz Hex.
  destruct (Volume_props.C11_layers_of_cells D sa sb r method invert v HG) as (perc' & cells & E1 & _ & E2 & E3 & _ & _ & E4).
  rewrite HP in E1. injection E1 as <-.
  apply (strata_faces base np es Hb Hc He n invert m cells (Hm cells E2) E3); [|exact Hex|exact Hz].
  intros l c b Ln Hcb. destruct (E4 l c b Ln Hcb) as (cell & X1 & X2 & _). eauto.
Qed.
Print Assumptions C187_extruded.

Theorem C187_surface :
  forall nonzero rg base np m es,
  surface_mesh m base -> (forall b, In b base -> surface_cell np b) -> conforming base -> all_sides base es ->
  (rg = true -> forall b u v, In b base -> side b u v -> nonzero [u; v] = true) -> (exists c c', touching base c c') ->
  exists g, extract_cell_geometry nonzero rg (DCells m) = Ok g /\ length (g_faces g) = length es /\ length (g_rows g) = length es /\
    forall u v, In (u, v) es -> listed_once g [u; v] (side_row base (fun c => c) u v).
Proof. intros nonzero rg base np m es Hm Hb Hc He Hz Ht. exact (surface_edges base np es Hb Hc He nonzero rg m Hm Ht Hz). Qed.
Print Assumptions C187_surface.

(* every surface has such a list of sides *)
Theorem C187_sides : forall base, exists es, all_sides base es.
Proof. exact sides_exist. Qed.
Print Assumptions C187_sides.

(* two layers above a triangle and a quadrilateral with a common side: 3 levels of 2 cells, 2 layers of 6 sides *)
Definition six_sides : list (nat * nat) := [(0, 1); (1, 2); (0, 2); (1, 3); (3, 4); (2, 4)].
Example C187_example :
  (forall b, In b Strata_props.two_cells -> surface_cell 5 b) /\ conforming Strata_props.two_cells /\ all_sides Strata_props.two_cells six_sides /\
  side_row Strata_props.two_cells (fun c => 1 * 2 + c) 1 2 [2; 3]%Z /\
  exists g, extract_cell_geometry (fun _ => true) true (DCells Strata_props.two_layers) = Ok g /\ length (g_faces g) = 3 * 2 + 2 * 6 /\
    g_rows g = [[0; -1]; [0; 2]; [0; -1]; [0; 1]; [0; -1]; [1; -1]; [1; 3]; [1; -1]; [1; -1]; [1; -1]; [2; -1]; [2; -1]; [2; 3]; [2; -1]; [3; -1]; [3; -1]; [3; -1]; [3; -1]]%Z.
Proof.
  split; [exact (proj1 Strata_props.C186_example)|]. split; [exact Strata_props.two_cells_conforming|]. split; [|split].
  - split; [repeat constructor; cbn; intuition congruence|]. intros u v. split.
    + intros H. cbn in H. repeat (destruct H as [H|H]; [injection H as <- <-; (split; [lia|]); first [exists (5, [0; 1; 2]); split; [cbn; auto|]; unfold side; cbn; tauto|exists (9, [1; 3; 4; 2]); split; [cbn; auto|]; unfold side; cbn; tauto]|]). destruct H.
    + intros (L & b & B & S1). cbn in B. destruct B as [<-|[<-|[]]]; unfold side in S1; cbn in S1;
        repeat match goal with K : _ \/ _ |- _ => destruct K as [K|K] | K : False |- _ => destruct K | K : (_, _) = (_, _) |- _ => injection K as ? ?; subst end; try lia; cbn; tauto.
  - apply (sr_inner _ (fun c => 1 * 2 + c) 1 2 0 1 (5, [0; 1; 2]) (9, [1; 3; 4; 2])); try reflexivity; [lia|unfold side; cbn; tauto|unfold side; cbn; tauto].
  - eexists. split; [vm_compute; reflexivity|]. split; reflexivity.
Qed.
