(* Unsupported cells, ghost arrays and counterexamples. *)
From Coq Require Import Reals Lra Permutation Sorted.
From Verif Require Import Topo_model Volume_spec Topo_spec Topo_proof Topo2_proof Topo3_proof Topo4_proof Topo5_proof.
Open Scope nat_scope.

Lemma dim_no_poly m n : get_dimension (DCells m) = Ok n -> (n <= 2)%Z -> ~ In 42 (v_types m).
Proof.
  unfold get_dimension. destruct (mapM dim_of (v_types m)) as [ds|] eqn:E; [|discriminate]; cbn [bind]. intros H Hn Hin.
  apply zmax_spec in H as [_ H]. apply mapM_Ok in E. apply In_nth_error in Hin as [i Hi].
  destruct (Forall2_nth_error _ _ _ _ _ E Hi) as (d & Hd & Hdim).
  assert (d = 3%Z) by (vm_compute in Hdim; congruence). subst d.
  apply nth_error_In in Hd. apply H in Hd. lia.
Qed.

Theorem unsupported_2d nonzero rg m n t : get_dimension (DCells m) = Ok n -> n = 1%Z \/ n = 2%Z ->
  In t (v_types m) -> ~ In t [0; 3; 4; 5; 7; 8; 9] ->
  extract_cell_geometry nonzero rg (DCells m) = Err NotImplementedError.
Proof.
  intros Hn H12 Ht Hs. unfold extract_cell_geometry. rewrite Hn; cbn [bind cast].
  assert (H42 : ~ In 42 (v_types m)) by (apply dim_no_poly with n; auto; lia).
  unfold get_cell_connectivity.
  assert (existsb (Nat.eqb 42) (v_types m) = false) as ->.
  { destruct (existsb (Nat.eqb 42) (v_types m)) eqn:E; auto. apply existsb_42 in E; tauto. }
  cbn [bind].
  assert (((n =? 1) || (n =? 2))%Z = true) as -> by (destruct H12 as [-> | ->]; auto).
  assert (forallb (fun t => existsb (Nat.eqb t) supported2d) (v_types m) = false) as ->.
  { destruct (forallb _ (v_types m)) eqn:E; auto. exfalso. rewrite forallb_forall in E. apply E in Ht.
    apply existsb_exists in Ht as (x & Hx & Heq). apply Nat.eqb_eq in Heq; subst x.
    apply Hs. simpl in *. tauto. }
  reflexivity.
Qed.

Theorem extract_cells_spec {D} extract (m : cmesh D) out after : extract_cells extract m = (out, after) ->
  after = m /\
  (forall ids gh, out = Ok (ids, gh) -> extract (mkC (cm_data m) None) = Ok ids /\
     (cm_ghost m = None -> gh = None) /\
     forall g, cm_ghost m = Some g -> exists v, gh = Some v /\ Forall2 (fun i x => nth_error g i = Some x) ids v).
Proof.
  unfold extract_cells. intros H. apply pair_equal_spec in H as [H1 H2]. split.
  - subst after. destruct m as [data [g|]]; auto.
  - intros ids gh ->. destruct (extract (mkC (cm_data m) None)) as [ids'|] eqn:E; [|discriminate]; cbn [bind] in H1.
    destruct (cm_ghost m) as [g|].
    + destruct (mapM _ ids') as [v|] eqn:Em; [|discriminate]; cbn [bind] in H1.
      apply Ok_inj in H1. apply pair_equal_spec in H1 as [<- <-]. split; auto. split; [discriminate|].
      intros g' [= <-]. exists v; split; auto. apply mapM_Ok in Em. eapply Forall2_impl; [|exact Em].
      intros i x Hi. simpl in Hi. destruct (nth_error g i); congruence.
    + apply Ok_inj in H1. apply pair_equal_spec in H1 as [<- <-]. split; auto. split; auto. discriminate.
Qed.

Theorem extract_cells_defined {D} extract (m : cmesh D) ids : extract (mkC (cm_data m) None) = Ok ids ->
  (forall g i, cm_ghost m = Some g -> In i ids -> i < length g) ->
  exists gh, fst (extract_cells extract m) = Ok (ids, gh).
Proof.
  intros E H. unfold extract_cells. cbn [fst]. rewrite E; cbn [bind]. destruct (cm_ghost m) as [g|]; [|eauto].
  destruct (mapM_def (fun i => match nth_error g i with Some x => Ok x | None => Err IndexError end) ids) as [v Hv].
  { intros i Hi. specialize (H g i eq_refl Hi). apply nth_error_Some in H. destruct (nth_error g i); [eauto|congruence]. }
  rewrite Hv; cbn [bind]; eauto.
Qed.

(* ---- counterexamples ---- *)
(* an edge is collapsed when its ends are the same vertex *)
Definition edge_nonzero (f : list nat) : bool := match f with [a; b] => negb (a =? b) | _ => true end.

(* a quad, a line on one of its edges and a line of length zero *)
Definition m_collapsed : vmesh := mkV [9; 3; 3] [[0; 1; 2; 3]; [0; 1]; [2; 2]] [] [].

Theorem geometry_refuted : exists nonzero d g faces,
  wf_mesh (cast d) /\ mesh_faces true (cast d) 2 faces /\ get_dimension d = Ok 2%Z /\
  extract_cell_geometry nonzero true d = Ok g /\
  (* cells 0 and 1 have edge 0-1; its row is [1] *)
  In (0, [0; 1]) (incidences faces) /\ nth_error (g_faces g) 0 = Some [0; 1] /\ nth_error (g_rows g) 0 = Some [1%Z].
Proof.
  exists edge_nonzero, (DCells m_collapsed), (mkGeom [[0; 1]; [1; 2]; [2; 3]; [3; 0]] [[1]; [-1]; [-1]; [-1]]%Z).
  exists [[[0; 1]; [1; 2]; [2; 3]; [3; 0]]; [[0; 1]]; [[2; 2]]].
  split; [split; simpl; lia|]. split; [|repeat split; auto; simpl; auto].
  split; [reflexivity|]. intros i t Ht.
  assert (Hc : forall ids, nth_error (v_cells m_collapsed) i = Some ids -> cell_conn m_collapsed i (CIds ids)).
  { intros ids H. exists ids; split; auto. right; split; auto. left. simpl. lia. }
  destruct i as [|[|[|i]]]; simpl in Ht; try (destruct i; discriminate); injection Ht as <-.
  - exists (CIds [0; 1; 2; 3]), [[0; 1]; [1; 2]; [2; 3]; [3; 0]]. split; [apply Hc; auto|]. split; auto.
    exists [0; 1; 2; 3]. split; auto. apply (eo_ring true 9 [0; 1; 2; 3]); simpl; auto.
  - exists (CIds [0; 1]), [[0; 1]]. split; [apply Hc; auto|]. split; auto.
    exists [0; 1]. split; auto. apply (eo_line true 3 [0; 1]); auto.
  - exists (CIds [2; 2]), [[2; 2]]. split; [apply Hc; auto|]. split; auto.
    exists [2; 2]. split; auto. apply (eo_line true 3 [2; 2]); auto.
Qed.

Theorem neighborhood_refuted : exists nonzero d n faces,
  wf_mesh (cast d) /\ get_dimension d = Ok n /\ mesh_faces true (cast d) n faces /\
  used 2 faces /\ ~ used 3 faces /\ share faces 0 1 /\
  get_neighborhood nonzero true d = Err TypeError.
Proof.
  assert (W : wf_mesh m_collapsed) by (split; simpl; lia).
  assert (E : exists g, extract_cell_geometry edge_nonzero false (DCells m_collapsed) = Ok g) by (eexists; reflexivity).
  destruct E as [g E]. destruct (neighborhood_iff edge_nonzero false (DCells m_collapsed) g W E) as (n & faces & Hn & Hf & Hiff).
  assert (Hok : get_neighborhood edge_nonzero false (DCells m_collapsed) = Ok [[1%Z]; [0%Z]; []]) by reflexivity.
  destruct (neighborhood_spec edge_nonzero false (DCells m_collapsed) _ W Hok) as (n' & faces' & Hn' & Hf' & Hspec).
  rewrite Hn in Hn'. apply Ok_inj in Hn'; subst n'.
  exists edge_nonzero, (DCells m_collapsed), n, faces.
  destruct (proj1 (Hiff ltac:(intros ?; discriminate)) (ex_intro _ _ Hok)) as [U2 U3].
  assert (n = 2%Z) by (vm_compute in Hn; congruence). subst n.
  split; auto. split; auto. split; [|split; auto; split; auto; split; [|reflexivity]].
  - destruct Hf as [H1 H2]. split; auto. intros i t Ht. destruct (H2 i t Ht) as (c & fs & A & B & C).
    exists c, fs; split; auto; split; auto. cbn in C |- *. destruct C as (ids & -> & C). exists ids; split; auto.
    assert (t <> 0) by (intros ->; destruct i as [|[|[|i]]]; simpl in Ht; try discriminate; destruct i; discriminate).
    destruct C; [constructor; auto|constructor|constructor 3; auto|congruence|congruence].
  - assert (faces' = faces) as <-.
    { apply nth_error_ext. intros i. destruct Hf as [L1 H1], Hf' as [L2 H2].
      destruct (nth_error (v_types m_collapsed) i) as [t|] eqn:Ht.
      - destruct (H1 i t Ht) as (c & fs & A & -> & C), (H2 i t Ht) as (c' & fs' & A' & -> & C').
        rewrite (cell_conn_fun _ _ _ _ A' A) in C'. cbn in C, C'. destruct C as (ids & -> & C), C' as (ids' & [= <-] & C').
        f_equal. assert (t = 9 \/ t = 3) as Ht2 by (destruct i as [|[|[|i]]]; simpl in Ht; try (injection Ht as <-; auto); destruct i; discriminate).
        destruct Ht2 as [-> | ->]; inversion C; inversion C'; subst; auto; simpl in *; try lia.
      - apply nth_error_None in Ht. cbn [cast] in *.
        rewrite (proj2 (nth_error_None faces i)), (proj2 (nth_error_None faces' i)); auto; lia. }
    destruct (Hspec ltac:(intros ?; discriminate)) as (_ & Hs & _).
    destruct (proj1 (Hs 0 [1%Z] eq_refl 1%Z) (or_introl eq_refl)) as (j & Ej & Hsh).
    assert (j = 1) by lia. subst; auto.
Qed.

Theorem total_refuted : exists d, wf_mesh (cast d) /\
  (forall t, In t (v_types (cast d)) -> In t [5; 9; 10; 12]) /\
  forall nonzero rg, (forall f, nonzero f = true) -> get_neighborhood nonzero rg d = Err TypeError.
Proof.
  exists (DCells (mkV [9] [[0; 1; 2; 3]] [] [])). split; [split; simpl; lia|]. split; [simpl; lia|].
  intros nonzero rg H. unfold get_neighborhood, extract_cell_geometry. cbn -[drop_collapsed].
  destruct rg; auto. unfold drop_collapsed; cbn. rewrite !H; reflexivity.
Qed.

Theorem connectivity_refuted : exists nonzero d faces lines,
  wf_mesh (cast d) /\ get_dimension d = Ok 2%Z /\ mesh_faces true (cast d) 2 faces /\ share faces 0 1 /\
  get_connectivity nonzero true d [length (v_types (cast d)); 3] (seq 0 4) = Ok (seq 0 4, lines) /\
  ~ exists j, In (0%Z, j) lines \/ In (j, 0%Z) lines.
Proof.
  set (m := mkV [9; 3; 3; 3] [[0; 1; 2; 3]; [0; 1]; [0; 1]; [2; 2]] [] []).
  exists edge_nonzero, (DCells m), [[[0; 1]; [1; 2]; [2; 3]; [3; 0]]; [[0; 1]]; [[0; 1]]; [[2; 2]]], [(1, 2)%Z].
  split; [split; simpl; lia|]. split; [reflexivity|]. split; [|split; [|split; [reflexivity|]]].
  - split; [reflexivity|]. intros i t Ht.
    assert (Hc : forall ids, nth_error (v_cells m) i = Some ids -> cell_conn m i (CIds ids)).
    { intros ids H. exists ids; split; auto. right; split; auto. left. simpl. lia. }
    destruct i as [|[|[|[|i]]]]; simpl in Ht; try (destruct i; discriminate); injection Ht as <-.
    + exists (CIds [0; 1; 2; 3]), [[0; 1]; [1; 2]; [2; 3]; [3; 0]]. split; [apply Hc; auto|]. split; auto.
      exists [0; 1; 2; 3]. split; auto. apply (eo_ring true 9 [0; 1; 2; 3]); simpl; auto.
    + exists (CIds [0; 1]), [[0; 1]]. split; [apply Hc; auto|]. split; auto.
      exists [0; 1]. split; auto. apply (eo_line true 3 [0; 1]); auto.
    + exists (CIds [0; 1]), [[0; 1]]. split; [apply Hc; auto|]. split; auto.
      exists [0; 1]. split; auto. apply (eo_line true 3 [0; 1]); auto.
    + exists (CIds [2; 2]), [[2; 2]]. split; [apply Hc; auto|]. split; auto.
      exists [2; 2]. split; auto. apply (eo_line true 3 [2; 2]); auto.
  - exists 0, 4, [0; 1], [0; 1]. repeat split; auto.
  - intros (j & [[H|[]]|[H|[]]]); discriminate.
Qed.

Theorem dimension_refuted : exists m, (forall t, In t (v_types m) -> vtk_dimension t = Some 3%Z) /\ v_types m <> [] /\
  get_dimension (DCells m) = Ok 0%Z.
Proof.
  exists (mkV [41] [[0; 1; 2; 3]] [] []). split; [|split; [discriminate|reflexivity]].
  intros t [<-|[]]; reflexivity.
Qed.

Theorem extraction_refuted : exists d ids i, (forall t, In t (v_types (cast d)) -> known_type t) /\
  extract_cells_by_dimension d (Some 1%Z) "lower" false = Ok ids /\ In i ids /\ nth_error (v_types (cast d)) i = Some 0.
Proof.
  exists (DCells (mkV [9; 3; 0] [[0; 1; 2; 3]; [0; 1]; []] [] [])), [1; 2], 2.
  repeat split; simpl; auto. intros t Ht. unfold known_type.
  destruct Ht as [<-|[<-|[<-|[]]]]; auto; right; discriminate.
Qed.

Theorem unsupported_refuted : exists m1 m2, wf_mesh m1 /\ wf_mesh m2 /\
  v_types m1 = [24] /\ v_types m2 = [12; 24] /\
  forall nonzero rg,
    extract_cell_geometry nonzero rg (DCells m1) = Err KeyError /\
    extract_cell_geometry nonzero rg (DCells m2) = Err AttributeError.
Proof.
  exists (mkV [24] [seq 0 10] [] []), (mkV [12; 24] [seq 0 8; seq 0 10] [] []).
  repeat split; simpl; auto; lia.
Qed.
