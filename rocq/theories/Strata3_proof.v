From Coq Require Import Reals Permutation Sorted Lia.
From Verif Require Import Prelude Volume_spec Topo_model Topo_spec Topo_proof Topo2_proof Topo3_proof Topo4_proof Bulk_spec Bulk_proof Lattice_spec Lattice_proof Lattice4_proof Flat_proof
  Ring_proof Strata_spec Strata_proof Strata2_proof.
Open Scope nat_scope.

Lemma dims_surface types : (forall t, In t types -> In t [5; 7; 8; 9]) -> mapM dim_of types = Ok (repeat 2%Z (length types)).
Proof.
  induction types as [|t types IH]; intros H; [reflexivity|]. cbn [mapM length repeat].
  assert (E : dim_of t = Ok 2%Z) by (destruct (H t ltac:(now left)) as [<-|[<-|[<-|[<-|[]]]]]; reflexivity). rewrite E. cbn [bind]. rewrite IH; [reflexivity|]. intros; apply H; now right.
Qed.

Section Strata3.
Context (base : list (nat * list nat)) (np : nat).
Context (Hb : forall b, In b base -> surface_cell np b) (Hc : conforming base).
Notation nc := (length base).
Context (m : vmesh) (Hm : surface_mesh m base).
Definition eset (k : nat * nat) : list nat := [fst k; snd k].
Definition ehas (c : nat) (k : nat * nat) : Prop := exists b, nth_error base c = Some b /\ fst k < snd k /\ side b (fst k) (snd k).
Definition ordered (e : nat * nat) : nat * nat := (min (fst e) (snd e), max (fst e) (snd e)).

Lemma eset_inj c c' k k' : ehas c k -> ehas c' k' -> same_set (eset k) (eset k') -> k = k'.
Proof.
  intros (b & _ & L & _) (b' & _ & L' & _) Hs. destruct k as [u v], k' as [u' v']. cbn [fst snd eset] in *.
  pose proof (proj1 (Hs u) ltac:(cbn; auto)). pose proof (proj1 (Hs v) ltac:(cbn; auto)). pose proof (proj2 (Hs u') ltac:(cbn; auto)). pose proof (proj2 (Hs v') ltac:(cbn; auto)).
  cbn in *. assert (u = u') by lia. assert (v = v') by lia. congruence.
Qed.
Lemma etwo c1 c2 c3 k : ehas c1 k -> ehas c2 k -> ehas c3 k -> c1 = c2 \/ c2 = c3 \/ c1 = c3.
Proof. intros (b1 & C1 & _ & S1) (b2 & C2 & _ & S2) (b3 & C3 & _ & S3). exact (proj1 Hc c1 c2 c3 b1 b2 b3 _ _ C1 C2 C3 S1 S2 S3). Qed.
Lemma eone c c' k k' : c <> c' -> ehas c k -> ehas c' k -> ehas c k' -> ehas c' k' -> k = k'.
Proof.
  intros N (b1 & C1 & L & S1) (b2 & C2 & _ & S2) (b3 & C3 & L' & S3) (b4 & C4 & _ & S4). rewrite C1 in C3. injection C3 as <-. rewrite C2 in C4. injection C4 as <-.
  destruct k as [u v], k' as [u' v']. cbn [fst snd] in *. destruct (proj1 (proj2 Hc) c c' b1 b2 u v u' v' C1 C2 N S1 S2 S3 S4) as [[-> ->]|[-> ->]]; [reflexivity|lia].
Qed.

Lemma surface_types t : In t (v_types m) -> In t [5; 7; 8; 9].
Proof.
  destruct Hm as (-> & _). intros H. apply in_map_iff in H as ([t' ids] & <- & Hin). destruct (Hb _ Hin) as ([[[E _]|[[E|E] _]]|[E _]] & _); cbn [fst] in *; subst; cbn; auto.
Qed.
Lemma surface_wf : wf_mesh m.
Proof. destruct Hm as (E1 & E2 & E3). split; [now rewrite E1, E2, !map_length|now rewrite E1, map_length]. Qed.
Lemma surface_dimension : 0 < nc -> get_dimension (DCells m) = Ok 2%Z.
Proof. intros H. cbn [get_dimension]. rewrite (dims_surface _ surface_types). cbn [bind]. apply zmax_repeat. destruct Hm as (-> & _). now rewrite map_length. Qed.
Lemma surface_conn c t ids cn : nth_error base c = Some (t, ids) -> cell_conn m c cn <-> cn = CIds ids.
Proof.
  intros Hcb. pose proof surface_types as Ht. destruct Hm as (E1 & E2 & E3). assert (En : nth_error (v_cells m) c = Some ids) by (rewrite E2, nth_error_map, Hcb; reflexivity).
  assert (N : ~ In 42 (v_types m)) by (intros H; apply Ht in H; cbn in H; lia). split.
  - intros (ids' & E & [(H & _)|(_ & ->)]); [now destruct N|]. congruence.
  - intros ->. exists ids. split; [exact En|]. right. auto.
Qed.
Lemma edges_ring rg b fs : surface_cell np b -> edges_of rg (fst b) (snd b) fs -> fs = map (fun '(u, v) => [u; v]) (ring_edges (corners b)).
Proof.
  destruct b as [t ids]. intros (H & _) HE. cbn [fst snd] in *. inversion HE as [t' ids' Ht|a b c d l E1 E2|t' ids' Ht| |]; subst.
  - destruct H as [[[E L]|[[E|E] L]]|[E L]]; cbn in E; lia.
  - destruct H as [[[E L]|[_ L]]|[E L]]; cbn in *; try discriminate. destruct l; [reflexivity|discriminate].
  - f_equal. f_equal. cbn in Ht. destruct Ht as [<-|[<-|[<-|[]]]]; reflexivity.
  - destruct H as [[[E L]|[[E|E] L]]|[E L]]; cbn in E; lia.
  - destruct H as [[[E L]|[[E|E] L]]|[E L]]; cbn in E; lia.
Qed.
Lemma ring_edges_of rg b : surface_cell np b -> edges_of rg (fst b) (snd b) (map (fun '(u, v) => [u; v]) (ring_edges (corners b))).
Proof.
  destruct b as [t ids]. intros (H & _). destruct H as [[[E L]|[[E|E] L]]|[E L]]; cbn [fst snd] in *; subst t; try (apply eo_ring; cbn; auto; fail).
  destruct ids as [|a [|b [|c [|d [|]]]]]; try discriminate. apply eo_pixel.
Qed.
Lemma surface_keyed rg faces : mesh_faces rg m 2 faces -> forall c fs, nth_error faces c = Some fs ->
  exists ks, Forall2 (fun f k => same_set f (eset k)) fs ks /\ NoDup ks /\ forall k, In k ks <-> ehas c k.
Proof.
  intros [M1 M2] c fs Hf. assert (Lc : c < nc) by (destruct Hm as (E & _); rewrite E, map_length in M1; rewrite <- M1; apply nth_error_Some; congruence).
  destruct (nth_error base c) as [[t ids]|] eqn:Hcb; [|apply nth_error_None in Hcb; lia].
  assert (Ht : nth_error (v_types m) c = Some t) by (destruct Hm as (-> & _); rewrite nth_error_map, Hcb; reflexivity).
  destruct (M2 _ _ Ht) as (cn & fs' & C1 & C2 & C3). cbn in C3. rewrite Hf in C2. injection C2 as <-. destruct C3 as (ids' & -> & C3).
  apply (surface_conn c t ids _ Hcb) in C1. injection C1 as ->. pose proof (Hb _ (nth_error_In _ _ Hcb)) as Hs. rewrite (edges_ring rg (t, ids) fs Hs C3).
  destruct (corners_form np _ Hs) as (ND & L3 & _). exists (map ordered (ring_edges (corners (t, ids)))). split; [|split].
  - clear. induction (ring_edges (corners (t, ids))) as [|[u v] es IH]; constructor; [|exact IH]. intros x. unfold ordered, eset. cbn [fst snd In]. lia.
  - pose proof (ekeys_nodup 0 _ ND L3) as NE. revert NE. generalize (ring_edges (corners (t, ids))) as es. clear. induction es as [|e es IH]; cbn [map]; intros NE; constructor; inversion NE as [|? ? N NE']; subst.
    + intros Hin. apply N. apply in_map_iff in Hin as (e' & E & Hin). apply in_map_iff. exists e'. split; [|exact Hin]. unfold ordered in E. unfold ekey. congruence.
    + now apply IH.
  - intros [u v]. split.
    + intros Hin. apply in_map_iff in Hin as ([x y] & E & Hin). exists (t, ids). split; [exact Hcb|]. unfold ordered in E. cbn [fst snd] in *. injection E as <- <-.
      assert (x <> y) by (intros <-; exact (ring_edges_asym _ x x ND L3 Hin Hin)). split; [lia|]. unfold side.
      destruct (Nat.le_gt_cases x y); [rewrite Nat.min_l, Nat.max_r by lia|rewrite Nat.min_r, Nat.max_l by lia]; auto.
    + intros (b & E & L & [S1|S1]); rewrite Hcb in E; injection E as <-; cbn [fst snd] in *; apply in_map_iff; [exists (u, v)|exists (v, u)]; (split; [|exact S1]); unfold ordered; cbn [fst snd]; f_equal; lia.
Qed.
Lemma surface_faces_exist rg : exists faces, mesh_faces rg m 2 faces.
Proof.
  exists (map (fun b => map (fun '(u, v) => [u; v]) (ring_edges (corners b))) base). pose proof Hm as (E1 & _). split; [now rewrite E1, !map_length|].
  intros i t Ht. rewrite E1, nth_error_map in Ht. destruct (nth_error base i) as [[t' ids]|] eqn:Hcb; [|discriminate]. cbn in Ht. injection Ht as ->.
  exists (CIds ids), (map (fun '(u, v) => [u; v]) (ring_edges (corners (t, ids)))). split; [apply (surface_conn i t ids _ Hcb); reflexivity|].
  split; [rewrite nth_error_map, Hcb; reflexivity|]. cbn. exists ids. split; [reflexivity|]. exact (ring_edges_of rg (t, ids) (Hb _ (nth_error_In _ _ Hcb))).
Qed.
Lemma edge_key rg faces f : mesh_faces rg m 2 faces -> In f (concat faces) -> exists b u v, In b base /\ side b u v /\ f = [u; v].
Proof.
  intros [M1 M2] Hf. apply in_concat in Hf as (fs & Hfs & Hf). apply In_nth_error in Hfs as (c & Hfc).
  assert (Lc : c < nc) by (destruct Hm as (E & _); rewrite E, map_length in M1; rewrite <- M1; apply nth_error_Some; congruence).
  destruct (nth_error base c) as [[t ids]|] eqn:Hcb; [|apply nth_error_None in Hcb; lia].
  assert (Ht : nth_error (v_types m) c = Some t) by (destruct Hm as (-> & _); rewrite nth_error_map, Hcb; reflexivity).
  destruct (M2 _ _ Ht) as (cn & fs' & C1 & C2 & C3). cbn in C3. rewrite Hfc in C2. injection C2 as <-. destruct C3 as (ids' & -> & C3).
  apply (surface_conn c t ids _ Hcb) in C1. injection C1 as ->. rewrite (edges_ring rg (t, ids) fs (Hb _ (nth_error_In _ _ Hcb)) C3) in Hf.
  apply in_map_iff in Hf as ([u v] & <- & Hin). exists (t, ids), u, v. split; [eapply nth_error_In, Hcb|]. split; [left; exact Hin|reflexivity].
Qed.
Lemma surface_geometry nonzero rg : 0 < nc -> (rg = true -> forall b u v, In b base -> side b u v -> nonzero [u; v] = true) ->
  exists g w faces, extract_cell_geometry nonzero rg (DCells m) = Ok g /\ lists_once (incidences faces) g /\ common_width w g /\ length faces = nc /\
    forall c fs, nth_error faces c = Some fs -> exists ks, Forall2 (fun f k => same_set f (eset k)) fs ks /\ NoDup ks /\ forall k, In k ks <-> ehas c k.
Proof.
  intros Hpos Hz. pose proof (surface_dimension Hpos) as HD. destruct (surface_faces_exist rg) as (faces0 & M0). pose proof surface_wf as W.
  destruct (geometry_defined (fun _ => true) rg (DCells m) 2%Z faces0 W HD M0) as (g & Eg).
  - intros E. destruct (nth_error faces0 0) as [fs|] eqn:E0.
    + destruct (surface_keyed rg faces0 M0 0 fs E0) as (ks & F & _ & Hk). destruct (nth_error base 0) as [b|] eqn:Hcb; [|apply nth_error_None in Hcb; lia].
      destruct (corners_form np _ (Hb _ (nth_error_In _ _ Hcb))) as (ND & L3 & _).
      assert (exists x y, In (x, y) (ring_edges (corners b))) as (x & y & Hxy).
      { destruct (corners b) as [|x [|y r]]; cbn in L3; try lia. exists x, y. now left. }
      assert (x <> y) by (intros <-; exact (ring_edges_asym _ x x ND L3 Hxy Hxy)).
      assert (K : In (ordered (x, y)) ks).
      { apply Hk. exists b. split; [exact Hcb|]. unfold ordered, side. cbn [fst snd]. split; [lia|].
        destruct (Nat.le_gt_cases x y); [rewrite Nat.min_l, Nat.max_r by lia|rewrite Nat.min_r, Nat.max_l by lia]; auto. }
      destruct F as [|f k fs ks S1 F]; [destruct K|].
      assert (Q : In f (concat faces0)) by (apply in_concat; exists (f :: fs); split; [eapply nth_error_In, E0|now left]). rewrite E in Q. destruct Q.
    + apply nth_error_None in E0. rewrite (proj1 M0) in E0. change (cast (DCells m)) with m in *. destruct Hm as (E1 & _). rewrite E1, map_length in E0. lia.
  - auto.
  - destruct (extract_Ok _ rg (DCells m) g W Eg) as (k & faces & g0 & HD' & M & Ep & Ed). rewrite HD in HD'. injection HD' as <-. change (cast (DCells m)) with m in *.
    assert (g0 = g) as -> by (destruct rg; [rewrite drop_nothing in Ed|]; congruence). destruct (get_polydata_once _ _ Ep) as (Ho & w & Hw).
    exists g, w, faces. split; [|split; [exact Ho|]; split; [exact Hw|]; split; [|eapply surface_keyed; eauto]].
    2:{ rewrite (proj1 M). destruct Hm as (E1 & _). now rewrite E1, map_length. }
    assert (Hk : rg = true -> forall f, In f (g_faces g) -> nonzero f = true).
    { intros Er f Hf. destruct (once_faces_in _ _ _ Ho Hf) as (i & Hi). apply incidences_concat in Hi. destruct (edge_key rg faces f M Hi) as (b & u & v & B1 & B2 & ->). now apply (Hz Er b). }
    revert Eg. unfold extract_cell_geometry. destruct (get_dimension (DCells m)) as [d|]; [|discriminate]. cbn [bind].
    destruct (get_cell_connectivity (cast (DCells m))) as [cells'|]; [|discriminate]. cbn [bind].
    match goal with |- (let! g := ?x in _) = _ -> _ => destruct x as [g1|]; [|discriminate] end. cbn [bind]. destruct rg; [|auto]. rewrite drop_nothing. intros [= ->].
    apply drop_kept. auto.
Qed.
Lemma touching_keys c c' : touching base c c' <-> c <> c' /\ exists k, ehas c k /\ ehas c' k.
Proof.
  split.
  - intros (N & b & b' & u & v & B & B' & S1 & S2). split; [exact N|].
    assert (Nuv : u <> v).
    { intros <-. destruct (corners_form np b (Hb _ (nth_error_In _ _ B))) as (ND & L3 & _). destruct S1 as [S1|S1]; exact (ring_edges_asym _ u u ND L3 S1 S1). }
    assert (Sw : forall x, side x u v -> side x (min u v) (max u v)).
    { intros x Hx. unfold side in *. destruct (Nat.le_gt_cases u v); [rewrite Nat.min_l, Nat.max_r by lia|rewrite Nat.min_r, Nat.max_l by lia]; tauto. }
    exists (min u v, max u v). split; [exists b|exists b']; cbn [fst snd]; (split; [assumption|]); (split; [lia|]); auto.
  - intros (N & [u v] & (b & B & _ & S1) & (b' & B' & _ & S2)). split; [exact N|]. exists b, b', u, v. auto.
Qed.

Lemma surface_neighbors nonzero rg : (exists c c', touching base c c') -> (rg = true -> forall b u v, In b base -> side b u v -> nonzero [u; v] = true) ->
  (exists nb, get_neighborhood nonzero rg (DCells m) = Ok nb /\ length nb = nc /\
    forall c row, nth_error nb c = Some row -> NoDup row /\ forall z, In z row <-> exists c', z = Z.of_nat c' /\ touching base c c') /\
  exists lines, (forall P (centers : list P), get_connectivity nonzero rg (DCells m) [nc; 3] centers = Ok (centers, lines)) /\ NoDup lines /\
    forall z, In z lines <-> exists c c', z = (Z.of_nat c, Z.of_nat c') /\ c < c' /\ touching base c c'.
Proof.
  intros (c0 & c0' & T0) Hz. assert (Hpos : 0 < nc) by (destruct T0 as (_ & b & _ & _ & _ & B & _); apply at_lt in B; lia).
  destruct (surface_geometry nonzero rg Hpos Hz) as (g & w & faces & Ex & Ho & Hw & Len & HK).
  assert (Dom : forall i k, ehas i k -> i < length faces) by (intros i k (b & B & _); rewrite Len; eapply at_lt; eauto).
  destruct (keyed_neighbors faces ehas eset HK Dom eset_inj etwo eone g w Ho Hw) as (nb & En & Ln & H).
  { apply touching_keys in T0 as (N & k & K1 & K2). eauto 10. }
  assert (El : length (v_types m) = nc) by (destruct Hm as (-> & _); apply map_length).
  split.
  { exists nb. unfold get_neighborhood. rewrite Ex. cbn [bind cast]. rewrite El, <- Len. split; [exact En|]. split; [exact Ln|]. intros c row Hr. destruct (H _ _ Hr) as (ND & Hin). split; [exact ND|].
    intros z. rewrite (Hin z). split; intros (c' & -> & Hx); exists c'; (split; [reflexivity|]); now apply touching_keys. }
  destruct (neighbor_loop_Ok _ _ _ En) as (_ & H2 & _). destruct (connectivity_lines_def _ H2) as (lines & El').
  destruct (keyed_lines faces ehas eset HK Dom eset_inj eone g lines Ho El') as (ND & HL). exists lines. split; [|split; [exact ND|]].
  - intros P centers. unfold get_connectivity. cbn [cast]. rewrite El. replace (list_eqb [nc; 3] [nc; 3]) with true by (symmetry; now apply list_eqb_eq). cbn [negb]. rewrite Ex. cbn [bind]. rewrite El'. reflexivity.
  - intros z. rewrite (HL z). split.
    + intros (i & j & -> & Lt & Hx). exists i, j. split; [reflexivity|]. split; [exact Lt|]. apply touching_keys. split; [lia|exact Hx].
    + intros (i & j & -> & Lt & Hx). apply touching_keys in Hx as (_ & Hx). exists i, j. auto.
Qed.
End Strata3.
