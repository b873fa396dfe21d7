(* Extraction of faces with collapsed faces. *)
From Coq Require Import Sorted.
From Verif Require Import Topo_model Volume_spec Topo_spec Topo_proof Topo2_proof Topo3_proof Topo4_proof.
Open Scope nat_scope.

Lemma once_row_form occ g r : lists_once occ g -> In r (g_rows g) -> row_form r.
Proof.
  intros (pos & L1 & L2 & _ & H & _) Hr. apply In_nth_error in Hr as [k Hk].
  assert (k < length pos) by (rewrite <- L2; apply nth_error_Some; congruence).
  destruct (nth_error pos k) as [p|] eqn:Ep; [|apply nth_error_None in Ep; lia].
  destruct (H k p Ep) as (i & f & Ho & _ & _ & sel & n & Er & keep & -> & Hkeep). rewrite Hk in Er. injection Er as ->.
  exists (map fst (filter keep occ)), n. split; [now rewrite map_map|].
  assert (In (i, f) (filter keep occ)).
  { apply filter_In. split; [eapply nth_error_In; eauto|]. apply Hkeep. cbn. intros x. reflexivity. }
  destruct (filter keep occ); [contradiction|discriminate].
Qed.

Theorem geometry_collapsed nonzero d g : wf_mesh (cast d) -> extract_cell_geometry nonzero true d = Ok g ->
  exists n faces g0 w, get_dimension d = Ok n /\ mesh_faces true (cast d) n faces /\
    lists_once (incidences faces) g0 /\ common_width w g0 /\
    ((exists f1 r1 f2 r2, In (f1, r1) (combine (g_faces g0) (g_rows g0)) /\ In (f2, r2) (combine (g_faces g0) (g_rows g0)) /\
       nonzero f1 = true /\ nonzero f2 = true /\ nth 0 r1 (-1)%Z <> nth 0 r2 (-1)%Z) ->
     (exists f1 r1, In (f1, r1) (combine (g_faces g0) (g_rows g0)) /\ nonzero f1 = true /\ nth 1 r1 (-1)%Z = (-1)%Z) ->
     g_faces g = filter nonzero (g_faces g0) /\
     exists n, map (fun r => r ++ repeat (-1)%Z n) (g_rows g) =
       map snd (filter (fun fr => nonzero (fst fr)) (combine (g_faces g0) (g_rows g0)))).
Proof.
  intros W H. destruct (extract_Ok _ _ _ _ W H) as (n & faces & g0 & H1 & H2 & H3 & H4).
  destruct (get_polydata_once _ _ H3) as [Ho [w Hw]]. exists n, faces, g0, w.
  split; [auto|]. split; [auto|]. split; [auto|]. split; [auto|]. intros A B.
  eapply (drop_collapsed_spec nonzero g0 g w); eauto.
  - destruct Ho as (pos & L1 & L2 & _). congruence.
  - intros r Hr. split; [now apply Hw|eapply once_row_form; eauto].
Qed.
