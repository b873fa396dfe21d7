(* Meshes whose faces are all collapsed. *)
From Verif Require Import Prelude Topo_model.
Open Scope nat_scope.

Lemma get_polydata_faces cells g : get_polydata cells = Ok g -> g_faces g <> [].
Proof. unfold get_polydata. destruct (add_cells 0 cells []) as [|e l]; [discriminate|]. intros [= <-]. discriminate. Qed.
Lemma mask_get_none {A} mask (l : list A) : forallb negb mask = true -> mask_get mask l = [].
Proof. revert l. induction mask as [|b mask IH]; intros [|x l] H; try reflexivity. cbn in H. destruct b; [discriminate|]. cbn. now apply IH. Qed.
Lemma drop_all nonzero g : g_faces g <> [] -> (forall f, In f (g_faces g) -> nonzero f = false) -> drop_collapsed nonzero g = Err ValueError.
Proof.
  intros N H. unfold drop_collapsed. assert (F : forallb negb (map nonzero (g_faces g)) = true).
  { apply forallb_forall. intros b Hb. apply in_map_iff in Hb as (f & <- & Hf). now rewrite (H f Hf). }
  rewrite (mask_get_none _ _ F). destruct (g_faces g) as [|f l]; [congruence|]. cbn [map forallb]. rewrite (H f) by now left. reflexivity.
Qed.
Lemma drop_nothing g : drop_collapsed (fun _ => true) g = Ok g.
Proof. unfold drop_collapsed. replace (forallb (fun b => b) (map (fun _ => true) (g_faces g))) with true; [reflexivity|]. symmetry. now induction (g_faces g). Qed.

Lemma all_collapsed nonzero d g : extract_cell_geometry (fun _ => true) true d = Ok g -> (forall f, In f (g_faces g) -> nonzero f = false) ->
  extract_cell_geometry nonzero true d = Err ValueError.
Proof.
  unfold extract_cell_geometry. destruct (get_dimension d) as [n|]; [|discriminate]. cbn [bind]. destruct (get_cell_connectivity (cast d)) as [cells|]; [|discriminate]. cbn [bind].
  destruct ((n =? 1)%Z || (n =? 2)%Z).
  - destruct (negb (forallb (fun t => existsb (Nat.eqb t) supported2d) (v_types (cast d)))); [discriminate|].
    destruct (mapM (fun ct => let! ids := ids_of_conn (fst ct) in cell_edges true (snd ct) ids) (combine cells (v_types (cast d)))) as [ce|]; [|discriminate]. cbn [bind].
    destruct (get_polydata ce) as [g'|] eqn:E; [|discriminate]. cbn [bind]. rewrite drop_nothing. intros [= <-]. apply drop_all. eapply get_polydata_faces, E.
  - destruct (cell_faces (v_types (cast d)) cells) as [cf|]; [|discriminate]. cbn [bind].
    destruct (get_polydata cf) as [g'|] eqn:E; [|discriminate]. cbn [bind]. rewrite drop_nothing. intros [= <-]. apply drop_all. eapply get_polydata_faces, E.
Qed.
