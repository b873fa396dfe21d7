From Coq Require Import Reals Lra Permutation Sorted.
From Verif Require Import Prelude Groups_model Groups_spec Surface_model Lines_spec Voronoi_model Voronoi_spec Voronoi_props
  Voronoi6_proof VFinal_model VFinal_spec VFinal_props VDef_spec VDef_proof.
Open Scope nat_scope.

(* C180: with the diagram of scipy, the mesh of the polygons exists or one of them is invalid (ValueError) *)
Theorem C180_mesh :
  forall A (g : vgeo A) o b items vo,
  well_formed b items -> (forall it, In it items -> gm_cells (vi_mesh it) <> [] \/ vi_poly it = true) ->
  (forall S, candidates g b items S -> exists s, In s S /\ ~ covered g b items s) ->
  tessellates vo -> sorts (v_argsort vo) -> close_pairs vo -> v_boundary vo = true ->
  (exists m, voronoi_mesh g o b items vo = Ok m /\
     ((forall vs, v_pairs vo vs = None) -> (forall ps, v_clip vo ps <> []) -> vm_points m <> [])) \/
  voronoi_mesh g o b items vo = Err ValueError /\ exists ps, v_valid vo ps = false.
Proof. exact @voronoi_defined. Qed.
Print Assumptions C180_mesh.

(* [C180] generate_mesh without plain circles: the mesh, or ValueError *)
Theorem C180_defined :
  forall A (g : vgeo A) o b items vo t,
  well_formed b items -> (forall it, In it items -> gm_cells (vi_mesh it) <> [] \/ vi_poly it = true) ->
  (forall S, candidates g b items S -> exists s, In s S /\ ~ covered g b items s) ->
  tessellates vo -> sorts (v_argsort vo) -> close_pairs vo -> v_boundary vo = true ->
  (forall vpts, length (d_point_region (v_diagram vo vpts)) = length vpts) ->
  (exists r, generate_voronoi g o b items [] vo t = Ok r) \/
  generate_voronoi g o b items [] vo t = Err ValueError /\
    ((exists ps, v_valid vo ps = false) \/ (exists ps, v_clip vo ps = []) \/ (exists vs, v_pairs vo vs <> None)).
Proof. exact @generate_defined. Qed.
Print Assumptions C180_defined.

(* a triangle for every point; points are averaged when there are six vertices or more *)
Definition dx_vo (average : bool) : voptions :=
  mkVO 2 None 1%R "CCW" (v_diagram rx_vo) ex_argsort (fun _ _ => 0%R)
    (fun vs => if average then Some (if 6 <=? length vs then [(0, 3); (1, 4)] else []) else None) true (fun _ => true)
    (fun l => [(0, 0); (1, 0); (0, 1)]%R ++ l).
Lemma dx_region vpts p r : region_of (v_diagram rx_vo vpts) p r -> r = map Z.of_nat (seq (3 * p) 3) /\ p < length vpts.
Proof.
  intros (k & H1 & _ & H2). cbn [v_diagram rx_vo d_point_region d_regions] in H1, H2.
  rewrite nth_error_map in H1, H2. destruct (nth_error (seq 0 (length vpts)) p) as [i|] eqn:E; [|discriminate]. cbn in H1. injection H1 as <-.
  assert (Hp : p < length vpts) by (rewrite <- (seq_length (length vpts) 0); apply nth_error_Some; congruence).
  rewrite Nat2Z.id in H2. rewrite (nth_error_nth' _ 0), seq_nth in E by (rewrite ?seq_length; lia). injection E as <-. cbn [Nat.add] in H2.
  rewrite (nth_error_nth' _ 0), seq_nth in H2 by (rewrite ?seq_length; lia). injection H2 as <-. auto.
Qed.
Lemma dx_vertices n : length (flat_map rx_tri (seq 0 n)) = 3 * n.
Proof.
  assert (H : forall a, length (flat_map rx_tri (seq a n)) = 3 * n); [|apply H].
  induction n as [|n IH]; intros a; [reflexivity|]. cbn [seq flat_map]. rewrite app_length, IH. cbn [rx_tri length]. lia.
Qed.
Lemma dx_tessellates av : tessellates (dx_vo av).
Proof.
  intros vpts _. cbn zeta. change (v_diagram (dx_vo av) vpts) with (v_diagram rx_vo vpts). split; [|split; [reflexivity|]].
  - unfold proper_diagram. cbn [v_diagram rx_vo d_ridge_vertices d_ridge_points d_point_region d_points d_regions]. split; [reflexivity|].
    split; [now rewrite map_length, seq_length|]. split; [constructor|]. split; [constructor|]. split.
    + apply Forall_forall. intros r Hr. apply in_map_iff in Hr as (i & <- & Hi). apply in_seq in Hi. apply Forall_forall. intros v Hv.
      apply in_map_iff in Hv as (j & <- & Hj). apply in_seq in Hj. left. unfold vertex_ok. cbn [d_vertices]. rewrite dx_vertices. lia.
    + apply Forall_forall. intros z Hz. apply in_map_iff in Hz as (i & <- & Hi). apply in_seq in Hi. rewrite map_length, seq_length. lia.
  - intros p r Hr. apply dx_region in Hr as [-> _]. split; [discriminate|]. intros Hin. apply in_map_iff in Hin as (j & Hj & _). lia.
Qed.
Lemma dx_pairs av : close_pairs (dx_vo av).
Proof.
  intros verts pairs i j. cbn [v_pairs dx_vo]. destruct av; [|discriminate]. destruct (Nat.leb_spec 6 (length verts)) as [H|H]; intros [= <-] Hin.
  - destruct Hin as [[= <- <-]|[[= <- <-]|[]]]; lia.
  - destruct Hin.
Qed.
Lemma dx_uncovered {A} (g : vgeo A) b : gm_cells (vb_mesh b) <> [] -> vb_pref b = PrefCell ->
  forall S, candidates g b [] S -> exists s, In s S /\ ~ covered g b [] s.
Proof.
  intros Hc Hpref S (order & l0 & ls & _ & (_ & _ & Hb) & _ & ->). rewrite Hpref in Hb.
  destruct l0 as [|s l0]; [destruct (gm_cells (vb_mesh b)); [contradiction|discriminate]|].
  exists s. split; [now left|]. intros (i & it & Hi & _). destruct i; discriminate.
Qed.

Example C180_example : well_formed ibase [] /\ tessellates (dx_vo true) /\ sorts (v_argsort (dx_vo true)) /\ close_pairs (dx_vo true) /\
  (forall S, candidates igeo ibase [] S -> exists s, In s S /\ ~ covered igeo ibase [] s) /\
  (exists m, voronoi_mesh igeo iopt ibase [] (dx_vo true) = Ok m) /\
  (exists r, generate_voronoi igeo iopt ibase [] [] (dx_vo false) rx_tools = Ok r).
Proof.
  assert (HU : forall S, candidates igeo ibase [] S -> exists s, In s S /\ ~ covered igeo ibase [] s) by (apply dx_uncovered; [discriminate|reflexivity]).
  split; [exact ex_base_formed|]. split; [apply dx_tessellates|]. split; [exact ex_sorts|]. split; [apply dx_pairs|]. split; [exact HU|]. split.
  - destruct (C180_mesh Z igeo iopt ibase [] (dx_vo true) ex_base_formed ltac:(intros ? []) HU (dx_tessellates true) ex_sorts (dx_pairs true) eq_refl)
      as [(m & E & _)|(_ & ps & Hv)]; [eauto|discriminate].
  - destruct (C180_defined Z igeo iopt ibase [] (dx_vo false) rx_tools ex_base_formed ltac:(intros ? []) HU (dx_tessellates false) ex_sorts (dx_pairs false) eq_refl rx_diagram)
      as [H|[_ [(ps & H)|[(ps & H)|(vs & H)]]]]; [exact H|discriminate|discriminate|now destruct H].
Qed.
