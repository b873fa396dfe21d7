(* C174: errors raised on degenerate inputs. *)
From Coq Require Import Reals.
From Verif Require Import Prelude Perc_model Surface_model Lines_model Groups_model Groups_spec Groups_proof Objects_model Objects_spec Objects2_proof
  Interactive_model Interactive_spec Interactive_proof Voronoi_model VFinal_model.
From Verif Require Input2_proof Topo_model Flat_proof.
Open Scope nat_scope.

(* a mesh without cells, a closed line without points *)
Theorem C174_empty :
  (forall points, quadraticize points [] = Err ValueError) /\
  (forall fuel start tol, reconstruct_line fuel [] start true tol = Some (Err IndexError)).
Proof. split; reflexivity. Qed.
Print Assumptions C174_empty.

Lemma aget_none {X} (k : string) (l : list (string * X)) : entry_of k l = None -> aget k l = None.
Proof. induction l as [|[k' v] l IH]; cbn; [reflexivity|]. destruct (String.eqb k k'); [discriminate|exact IH]. Qed.

(* an array that is not there: the meshes stay as they are *)
Theorem C174_missing_array :
  forall h mesh m key ms pref inplace,
  nth_error h mesh = Some m ->
  (pref = "cell"%string /\ entry_of key (cm_cell m) = None \/ pref = "point"%string /\ entry_of key (cm_point m) = None) ->
  remap_categorical_data h mesh key ms pref inplace = (Err KeyError, h).
Proof.
  intros h mesh m key ms pref inplace Hm HK. unfold remap_categorical_data. rewrite Hm.
  destruct HK as [[-> E]|[-> E]]; cbn [String.eqb Ascii.eqb Bool.eqb]; rewrite (aget_none _ _ E); reflexivity.
Qed.
Print Assumptions C174_missing_array.

(* a selection without original ids; the previous picks have some *)
Theorem C174_no_ids :
  forall known_view view preference events e rest,
  (forall v, view = Some v -> v <> ""%string -> names_view known_view v) ->
  let ids := fun e => if String.eqb preference "cell" then ev_cells e else ev_points e in
  Forall (fun e => ids e <> []) events -> ids e = [] ->
  interactive_selection known_view view preference (events ++ e :: rest) = Err IndexError.
Proof.
  intros known_view view preference events e rest HV ids HF HE. unfold interactive_selection.
  rewrite (camera_spec _ _ HV). cbn [bind]. rewrite map_app. cbn [map].
  change (if String.eqb preference "cell" then ev_cells e else ev_points e) with (ids e). rewrite HE.
  change (map (fun e => if String.eqb preference "cell" then ev_cells e else ev_points e) events) with (map ids events).
  assert (HL : exists clicks, map ids events = map (fun c : Z * list Z => fst c :: snd c) clicks).
  { clear - HF. induction HF as [|e es He _ (clicks & IH)]; [exists []; reflexivity|].
    destruct (ids e) as [|c r] eqn:E; [congruence|]. exists ((c, r) :: clicks). cbn [map fst snd]. now rewrite E, IH. }
  destruct HL as (clicks & ->).
  destruct (selection_loop clicks [] (mkPick [] [] 0)) as (st & E & _).
  { unfold good. cbn. repeat split; try constructor; try tauto; try discriminate.
    intros x y a b (p & q & _ & H & _). destruct p; discriminate. }
  assert (HA : forall l l' st0 st1, picks_loop st0 l = Ok st1 -> picks_loop st0 (l ++ l') = picks_loop st1 l').
  { induction l as [|x l IH]; intros l' st0 st1 H; cbn [picks_loop app] in *; [now injection H as ->|].
    destruct (callback st0 x) as [st2|]; cbn [bind] in *; [now apply IH|discriminate]. }
  rewrite (HA _ _ _ _ E). reflexivity.
Qed.
Print Assumptions C174_no_ids.

(* less than four corners *)
Theorem C174_quadrilateral :
  forall areas xs ys center,
  (forall points, length points < 2 -> Quadrilateral areas (Some points) xs ys center = Err IndexError) /\
  (forall a b A B rest px, length rest < 2 -> row a A -> row b B -> length a = length b -> subdivides xs px -> 2 <= length px ->
     Quadrilateral areas (Some (a :: b :: rest)) xs ys center = Err IndexError).
Proof.
  intros areas xs ys center. split.
  - intros [|a [|b rest]] H; try reflexivity. cbn in H. lia.
  - intros a b A B rest px Hr Ra Rb L Sx Lx. unfold Quadrilateral.
    destruct (line_pts_ok a b xs px A B Ra Rb L Sx Lx) as (l & -> & _). cbn [bind].
    destruct rest as [|c [|d rest]]; try reflexivity. cbn in Hr. lia.
Qed.
Print Assumptions C174_quadrilateral.

(* a Voronoi mesh without vertices *)
Theorem C174_no_vertices :
  forall (A : Type) (g : vgeo A) o b items fuse vo t m,
  voronoi_mesh g o b items vo = Ok m -> vm_points m = [] -> generate_voronoi g o b items fuse vo t = Err ValueError.
Proof. intros A g o b items fuse vo t m Hm Hp. unfold generate_voronoi. rewrite Hm. cbn [bind]. unfold polygon_mesh. now rewrite Hp. Qed.
Print Assumptions C174_no_vertices.

(* all faces of the mesh have no measure *)
Theorem C174_collapsed :
  forall nonzero d g, Topo_model.extract_cell_geometry (fun _ => true) true d = Ok g ->
  (forall f, In f (Topo_model.g_faces g) -> nonzero f = false) ->
  Topo_model.extract_cell_geometry nonzero true d = Err ValueError /\
  Topo_model.get_neighborhood nonzero true d = Err ValueError /\
  forall P shape (centers : list P), Topo_model.get_connectivity nonzero true d shape centers = Err ValueError.
Proof.
  intros nonzero d g E H. pose proof (Flat_proof.all_collapsed _ _ _ E H) as F. split; [exact F|]. split.
  - unfold Topo_model.get_neighborhood. now rewrite F.
  - intros P shape centers. unfold Topo_model.get_connectivity. rewrite F.
    now destruct (Topo_model.list_eqb shape [length (Topo_model.v_types (Topo_model.cast d)); 3]).
Qed.
Print Assumptions C174_collapsed.
Example C174_collapsed_example : exists g,
  Topo_model.extract_cell_geometry (fun _ => true) true (Topo_model.DCells (Topo_model.mkV [9] [[0; 1; 2; 3]] [] [])) = Ok g /\ length (Topo_model.g_faces g) = 4.
Proof. eexists. split; reflexivity. Qed.

Example C174_example :
  remap_categorical_data [mkC [("G"%string, AInt [0; 1]%Z)] [] []] 0 "H" [] "cell" true = (Err KeyError, [mkC [("G"%string, AInt [0; 1]%Z)] [] []]) /\
  interactive_selection (fun _ => true) None "cell" [mkEv [4%Z] []; mkEv [] [5%Z]; mkEv [4%Z] []] = Err IndexError /\
  (forall areas ys, Quadrilateral areas (Some [[0; 0]; [1; 0]; [1; 1]]%R) (mkSub ResNone None) ys None = Err IndexError).
Proof.
  split; [eapply C174_missing_array; [reflexivity|left; split; reflexivity]|]. split.
  - apply (C174_no_ids (fun _ => true) None "cell" [mkEv [4%Z] []] (mkEv [] [5%Z]) [mkEv [4%Z] []]); [discriminate| |reflexivity].
    constructor; [discriminate|constructor].
  - intros areas ys. apply (proj2 (C174_quadrilateral areas (mkSub ResNone None) ys None) [0; 0]%R [1; 0]%R (0, 0, 0)%R (1, 0, 0)%R [[1; 1]%R] [0; 1]%R);
      try constructor. exact Input2_proof.perc_default.
Qed.
