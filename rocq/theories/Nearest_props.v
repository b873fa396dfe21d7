(* C183: the cells of a Voronoi mesh and the points nearest to their seeds. *)
From Coq Require Import Reals Lra Lia Psatz Permutation Sorted.
From Verif Require Import Prelude Surface_model Groups_model Groups_spec Lines_spec Voronoi_model Voronoi_spec Voronoi3_proof Voronoi6_proof Voronoi_props
  Nearest_spec Nearest_proof.
Open Scope R_scope.

(* C183: the region returned for a point, closed at a finite distance, only contains points that are at least as near to it as to any other
   point of the diagram *)
Theorem C183_nearest_partial :
  forall d, proper_diagram d -> voronoi_diagram d -> forall argsort atan2 infinity ptp, sorts argsort -> d_points d <> [] ->
  (forall p r, region_of d p r -> In (-1)%Z r -> open_ridges d p <> []) -> 0 < ptp -> (forall r, infinity = Some r -> 0 <= r) ->
  exists outs verts, tessellation argsort atan2 d infinity ptp = Ok (outs, verts) /\ length outs = length (d_points d) /\
    forall p a out ps x, nth_error (d_points d) p = Some a -> nth_error outs p = Some out ->
      Forall2 (fun v q => nth_error verts (Z.to_nat v) = Some q) out ps -> in_hull ps x -> nearest (d_points d) a x.
Proof. exact tessellation_nearest. Qed.
Print Assumptions C183_nearest_partial.

Example ex_voronoi : voronoi_diagram ex_diagram.
Proof.
  assert (H : forall a, In a (d_points ex_diagram) -> nearest (d_points ex_diagram) a (/ 2, / 2)).
  { intros a Ha q Hq. cbn in Ha, Hq. unfold dist2.
    destruct Ha as [<-|[<-|[<-|[]]]]; destruct Hq as [<-|[<-|[<-|[]]]]; cbn; lra. }
  assert (G : forall v w, nth_error (d_vertices ex_diagram) (Z.to_nat v) = Some w -> w = (/ 2, / 2)).
  { intros v w Hw. cbn in Hw. destruct (Z.to_nat v) as [|[|n]]; cbn in Hw; congruence. }
  split.
  - intros p a r v w Ha _ _ _ Hw. rewrite (G v w Hw). apply H. eapply nth_error_In, Ha.
  - intros p a q b v w Ha Hq Hb Hw. rewrite (G v w Hw). split; [apply H; eapply nth_error_In, Ha|].
    unfold one_side, cross, minus. destruct p as [|[|[|p]]]; cbn in Ha; [| | |destruct p; discriminate]; injection Ha as <-; cbn in Hq;
      (destruct Hq as [[= <- <-]|[[= <- <-]|[]]]; cbn in Hb; injection Hb as <-).
    all: first [left; intros s [<-|[<-|[<-|[]]]]; cbn; lra | right; intros s [<-|[<-|[<-|[]]]]; cbn; lra].
Qed.
Example C183_example : proper_diagram ex_diagram /\ voronoi_diagram ex_diagram /\ sorts ex_argsort /\ d_points ex_diagram <> [] /\
  (forall p r, region_of ex_diagram p r -> In (-1)%Z r -> open_ridges ex_diagram p <> []).
Proof.
  destruct C69_example as [H1 H2]. split; [exact H1|]. split; [exact ex_voronoi|]. split; [exact ex_sorts|]. split; [discriminate|exact H2].
Qed.

(* C183: same for the polygons of the mesh, clipped or not, when their vertices are not merged *)
Theorem C183_mesh :
  forall A (g : vgeo A) o b items vo m, well_formed b items ->
  (forall vpts, vpts <> [] -> proper_diagram (v_diagram vo vpts) /\ d_points (v_diagram vo vpts) = vpts /\
     forall p r, region_of (v_diagram vo vpts) p r -> In (-1)%Z r -> open_ridges (v_diagram vo vpts) p <> []) ->
  sorts (v_argsort vo) -> (forall vs, v_pairs vo vs = None) ->
  (forall vpts, length (d_point_region (v_diagram vo vpts)) = length vpts) ->
  (forall ps q, In q (v_clip vo ps) -> in_hull ps q) ->
  0 < v_ptp vo -> (forall r, v_infinity vo = Some r -> 0 <= r) ->
  voronoi_mesh g o b items vo = Ok m -> voronoi_diagram (v_diagram vo (map (planar (v_axis vo)) (vm_xyz m))) ->
  forall k cell s qs x, nth_error (vm_cells m) k = Some cell -> nth_error (vm_xyz m) k = Some s -> picks (vm_points m) cell qs -> in_hull qs x ->
    nearest (map (planar (v_axis vo)) (vm_xyz m)) (planar (v_axis vo) s) x.
Proof. exact @mesh_nearest. Qed.
Print Assumptions C183_mesh.

(* three strips around the seeds of the example of C94 *)
Definition strips (v : list pt2) : diagram :=
  match v with
  | [_; _; _] => mkD v [] [] [0; 1; 2]%Z [[0; 2; 3; 1]; [2; 4; 5; 3]; [4; 6; 7; 5]]%Z
                     [(0, -1); (0, 1); (1, -1); (1, 1); (2, -1); (2, 1); (3, -1); (3, 1)]
  | _ => mkD v [] [] (repeat 0%Z (length v)) [[]] []
  end.
Definition ex_vo3 : voptions :=
  mkVO 2 None 1%R "CCW" strips ex_argsort (fun _ _ => 0%R) (fun _ => None) true (fun _ => true) (fun l => l).

Example C183_mesh_example : well_formed ibase ex_items /\
  (forall vpts, vpts <> [] -> proper_diagram (v_diagram ex_vo3 vpts) /\ d_points (v_diagram ex_vo3 vpts) = vpts /\
     forall p r, region_of (v_diagram ex_vo3 vpts) p r -> In (-1)%Z r -> open_ridges (v_diagram ex_vo3 vpts) p <> []) /\
  (forall vpts, length (d_point_region (v_diagram ex_vo3 vpts)) = length vpts) /\
  (forall ps q, In q (v_clip ex_vo3 ps) -> in_hull ps q) /\
  exists m, voronoi_mesh igeo iopt ibase ex_items ex_vo3 = Ok m /\ vm_xyz m = map icenter [0; 1; 2]%Z /\
    voronoi_diagram (v_diagram ex_vo3 (map (planar (v_axis ex_vo3)) (vm_xyz m))).
Proof.
  assert (Three : forall v : list pt2, (exists a b c, v = [a; b; c]) \/ strips v = mkD v [] [] (repeat 0%Z (length v)) [[]] []).
  { intros [|a [|b [|c [|e v]]]]; [now right|now right|now right|left; eauto|now right]. }
  assert (L : forall l, length (orient "CCW" l) = length l).
  { intro l. unfold orient. destruct (_ : bool); [apply rev_length|reflexivity]. }
  split; [exact ex_well_formed|]. split.
  { intros v Hv. cbn [v_diagram ex_vo3]. destruct (Three v) as [(a & b & c & ->)|E].
    - split; [|split; [reflexivity|]].
      + split; [reflexivity|]. split; [reflexivity|]. split; [constructor|]. split; [constructor|]. split.
        * rewrite !Forall_forall. intros r Hr. rewrite Forall_forall. intros x Hx. left. unfold vertex_ok. cbn in Hr. cbn [strips d_vertices length].
          destruct Hr as [<-|[<-|[<-|[]]]]; cbn in Hx; lia.
        * cbn [strips d_point_region d_regions length]. repeat apply Forall_cons; try apply Forall_nil; lia.
      + intros p r (k & _ & _ & Hr) Hm. cbn [strips d_regions] in Hr. apply nth_error_In in Hr. cbn in Hr. destruct Hr as [<-|[<-|[<-|[]]]]; cbn in Hm; lia.
    - rewrite E. split; [|split; [reflexivity|]].
      + split; [reflexivity|]. split; [cbn; apply repeat_length|]. split; [constructor|]. split; [constructor|]. split; [repeat constructor|].
        rewrite Forall_forall. intros x Hx. apply repeat_spec in Hx. subst. cbn. lia.
      + intros p r (k & _ & _ & Hr) Hm. apply nth_error_In in Hr. cbn in Hr. destruct Hr as [<-|[]]. destruct Hm. }
  split.
  { intros v. cbn [v_diagram ex_vo3]. destruct (Three v) as [(a & b & c & ->)|E]; [reflexivity|]. rewrite E. apply repeat_length. }
  split; [intros ps q Hq; apply vertex_hull; exact Hq|].
  eexists. split; [|split].
  - unfold voronoi_mesh, ex_items. run. reflexivity.
  - reflexivity.
  - cbn [vm_xyz]. split.
    + intros p a r v w Ha (k & Hk & _ & Hr) Hv _ Hw q Hq.
      destruct p as [|[|[|p]]]; cbn in Ha, Hk; [| | |destruct p; discriminate]; injection Ha as <-; injection Hk as <-; cbn in Hr; injection Hr as <-;
        cbn in Hv; repeat destruct Hv as [<-|Hv]; try destruct Hv; cbn in Hw; injection Hw as <-; cbn in Hq;
        destruct Hq as [<-|[<-|[<-|[]]]]; unfold dist2, icenter; cbn; lra.
    + intros p a q b v w _ Hq. cbn in Hq. destruct Hq.
Qed.

(* C183: the regions of two points only share points at the same distance of both *)
Theorem C183_overlap :
  forall A (g : vgeo A) o b items vo m, well_formed b items ->
  (forall vpts, vpts <> [] -> proper_diagram (v_diagram vo vpts) /\ d_points (v_diagram vo vpts) = vpts /\
     forall p r, region_of (v_diagram vo vpts) p r -> In (-1)%Z r -> open_ridges (v_diagram vo vpts) p <> []) ->
  sorts (v_argsort vo) -> (forall vs, v_pairs vo vs = None) ->
  (forall vpts, length (d_point_region (v_diagram vo vpts)) = length vpts) ->
  (forall ps q, In q (v_clip vo ps) -> in_hull ps q) ->
  0 < v_ptp vo -> (forall r, v_infinity vo = Some r -> 0 <= r) ->
  voronoi_mesh g o b items vo = Ok m -> voronoi_diagram (v_diagram vo (map (planar (v_axis vo)) (vm_xyz m))) ->
  forall k l ck cl sk sl qk ql x, nth_error (vm_cells m) k = Some ck -> nth_error (vm_cells m) l = Some cl ->
    nth_error (vm_xyz m) k = Some sk -> nth_error (vm_xyz m) l = Some sl -> picks (vm_points m) ck qk -> picks (vm_points m) cl ql ->
    in_hull qk x -> in_hull ql x -> dist2 x (planar (v_axis vo) sk) = dist2 x (planar (v_axis vo) sl).
Proof.
  intros A g o b items vo m WF HD Hs HN HDl Hc Hp Hi E VD k l ck cl sk sl qk ql x C1 C2 S1 S2 P1 P2 X1 X2.
  apply Rle_antisym.
  - apply (mesh_nearest g o b items vo m WF HD Hs HN HDl Hc Hp Hi E VD k ck sk qk x C1 S1 P1 X1), in_map. eapply nth_error_In, S2.
  - apply (mesh_nearest g o b items vo m WF HD Hs HN HDl Hc Hp Hi E VD l cl sl ql x C2 S2 P2 X2), in_map. eapply nth_error_In, S1.
Qed.
Print Assumptions C183_overlap.

(* C183: the region of a point does not always contain the point: a far vertex is at a distance of 1000 times the extent of the mesh from the
   last vertex of the ridge, which is not always enough to go around the point *)
Definition thin : diagram :=
  mkD [(0, 0); (4000, 1); (4000, -1)] [(0, 1); (0, 2); (1, 2)]%nat [(-1, 0); (-1, 0); (-1, 0)]%Z
      [0; 1; 2]%Z [[-1; 0]; [-1; 0]; [-1; 0]]%Z [(16000001 / 8000, 0)].
Example thin_proper : proper_diagram thin /\ forall p r, region_of thin p r -> In (-1)%Z r -> open_ridges thin p <> [].
Proof.
  assert (V : vertex_ok thin 0%Z) by (unfold vertex_ok; cbn; lia).
  split.
  - unfold proper_diagram, thin. cbn [d_ridge_vertices d_ridge_points d_point_region d_points d_regions length].
    split; [reflexivity|]. split; [reflexivity|]. split; [|split; [|split]].
    + apply Forall_cons; [|apply Forall_cons; [|apply Forall_cons; [|apply Forall_nil]]];
        (split; [lia|]; split; [lia|]; split; [lia|]; cbn; intros [=]; lra).
    + apply Forall_cons; [|apply Forall_cons; [|apply Forall_cons; [|apply Forall_nil]]];
        (split; [now right|]; split; [now left|]; lia).
    + apply Forall_cons; [|apply Forall_cons; [|apply Forall_cons; [|apply Forall_nil]]];
        (apply Forall_cons; [now right|]; apply Forall_cons; [now left|]; apply Forall_nil).
    + apply Forall_cons; [lia|]. apply Forall_cons; [lia|]. apply Forall_cons; [lia|]. apply Forall_nil.
  - intros p r (k & Hp & _ & _) _. destruct p as [|[|[|p]]]; try (cbn; discriminate).
    cbn in Hp. destruct p; discriminate.
Qed.
Example thin_voronoi : voronoi_diagram thin.
Proof.
  assert (H : forall a, In a (d_points thin) -> nearest (d_points thin) a (16000001 / 8000, 0)).
  { intros a Ha q Hq. cbn in Ha, Hq. unfold dist2.
    destruct Ha as [<-|[<-|[<-|[]]]]; destruct Hq as [<-|[<-|[<-|[]]]]; cbn [fst snd]; lra. }
  assert (G : forall v w, nth_error (d_vertices thin) (Z.to_nat v) = Some w -> w = (16000001 / 8000, 0)).
  { intros v w Hw. cbn [thin d_vertices] in Hw. destruct (Z.to_nat v) as [|[|n]]; cbn [nth_error] in Hw; congruence. }
  split.
  - intros p a r v w Ha _ _ _ Hw. rewrite (G v w Hw). apply H. eapply nth_error_In, Ha.
  - intros p a q b v w Ha Hq Hb Hw. rewrite (G v w Hw). split; [apply H; eapply nth_error_In, Ha|].
    unfold one_side, cross, minus. destruct p as [|[|[|p]]]; cbn in Ha; [| | |destruct p; discriminate]; injection Ha as <-; cbn in Hq;
      (destruct Hq as [[= <- <-]|[[= <- <-]|[]]]; cbn in Hb; injection Hb as <-).
    all: first [left; intros s [<-|[<-|[<-|[]]]]; cbn [fst snd]; lra | right; intros s [<-|[<-|[<-|[]]]]; cbn [fst snd]; lra].
Qed.
Theorem C183_contains_refuted :
  exists d, proper_diagram d /\ voronoi_diagram d /\ (forall p r, region_of d p r -> In (-1)%Z r -> open_ridges d p <> []) /\
    (forall q, In q (d_points d) -> 0 <= fst q <= 4000 /\ -1 <= snd q <= 1) /\
    forall argsort atan2, sorts argsort ->
      exists outs verts out ps a, tessellation argsort atan2 d None 4001 = Ok (outs, verts) /\ nth_error (d_points d) 0 = Some a /\
        nth_error outs 0 = Some out /\ Forall2 (fun v q => nth_error verts (Z.to_nat v) = Some q) out ps /\ ~ in_hull ps a.
Proof.
  exists thin. destruct thin_proper as [PD Hop]. split; [exact PD|]. split; [exact thin_voronoi|]. split; [exact Hop|]. split.
  { intros q [<-|[<-|[<-|[]]]]; cbn [fst snd]; lra. }
  intros argsort atan2 Hs. destruct (tessellation_spec thin PD argsort atan2 None 4001 Hs ltac:(discriminate) Hop)
    as (outs & ext & c & radius & Et & Lo & _ & Hrad & Hr).
  assert (radius = 4001000) as -> by (destruct Hrad as [[H _]|[_ ->]]; [discriminate|lra]). clear Hrad.
  assert (Hreg : region_of thin 0 [-1; 0]%Z) by (exists 0%Z; repeat split; lia).
  destruct (Hr 0%nat _ Hreg) as (out & Hout & [_ S2] & _). destruct (S2 ltac:(now left)) as [(news & HP & HF) (qs & c0 & Hqs & _)].
  exists outs, (d_vertices thin ++ ext), out, qs, (0, 0). split; [exact Et|]. split; [reflexivity|]. split; [exact Hout|]. split; [exact Hqs|].
  intros Hin. pose proof (half_plane_hull 1 0 (-900) qs (0, 0) Hin) as G. cbn [fst snd] in G. enough (0 <= 1 * 0 + 0 * 0 + -900) by lra. apply G. clear G Hin.
  intros w Hw. apply In_nth_error in Hw as (i & Hi). destruct (Stack3_proof.Forall2_nth_error_r _ _ _ _ _ Hqs Hi) as (v & Hv & Hvw).
  pose proof (nth_error_In _ _ Hv) as Hin. apply (Permutation_in _ HP), in_app_or in Hin as [Hin|Hin].
  - cbn in Hin. destruct Hin as [<-|[]]. cbn in Hvw. injection Hvw as <-. cbn [fst snd]. lra.
  - apply In_nth_error in Hin as (j & Hj). destruct (Stack3_proof.Forall2_nth_error_r _ _ _ _ _ HF Hj) as ([q v2] & Hq & a' & b & v' & w' & A1 & A2 & A3 & _ & A5 & R1 & _ & R3 & _).
    rewrite Hvw in A5. injection A5 as <-. cbn in A1. injection A1 as <-. apply nth_error_In in Hq. cbn in Hq.
    assert (v' = (16000001 / 8000, 0)) as -> by (destruct Hq as [[= <- <-]|[[= <- <-]|[]]]; cbn in A3; congruence).
    assert (N : (1 + 16000000) * ((fst w - 16000001 / 8000) * (fst w - 16000001 / 8000)) <= 4001000 * 4001000).
    { unfold dist2 in R3. cbn [fst snd] in R3.
      assert (Es : snd w * snd w = 16000000 * ((fst w - 16000001 / 8000) * (fst w - 16000001 / 8000))); [|lra].
      assert (snd w = 4000 * (fst w - 16000001 / 8000) \/ snd w = - (4000 * (fst w - 16000001 / 8000))) as [-> | ->]; [|ring|ring].
      unfold dot, minus in R1. destruct Hq as [[= <- <-]|[[= <- <-]|[]]]; cbn in A2; injection A2 as <-; cbn [fst snd] in R1; lra. }
    destruct (Rle_or_lt 900 (fst w)) as [P|P]; [lra|]. exfalso. nra.
Qed.
Print Assumptions C183_contains_refuted.
