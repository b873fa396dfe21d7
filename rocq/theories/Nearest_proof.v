From Coq Require Import Reals Lra Lia Psatz Permutation Sorted.
From Verif Require Import Prelude Stack3_proof Lines1_proof Surface_model Groups_model Groups_spec Lines_spec Voronoi_model Voronoi_spec Voronoi1_proof Voronoi3_proof Voronoi4_proof Voronoi5_proof
  Voronoi6_proof Regions_proof VFinal_model VFinal_spec Nearest_spec.
Open Scope R_scope.

(* a half plane that contains the points contains their hull *)
Lemma half_plane_hull (u v e : R) ps x : in_hull ps x -> (forall p, In p ps -> 0 <= u * fst p + v * snd p + e) -> 0 <= u * fst x + v * snd x + e.
Proof.
  intros (ws & L & Hw & Hs & Ex & Ey) H.
  assert (G : forall ws ps, length ws = length ps -> Forall (fun w => 0 <= w) ws -> (forall p, In p ps -> 0 <= u * fst p + v * snd p + e) ->
    0 <= u * weighted ws (map fst ps) + v * weighted ws (map snd ps) + e * fold_right Rplus 0 ws).
  { clear. unfold weighted. induction ws as [|w ws IH]; intros [|p ps] L Hw H; try discriminate; cbn [map combine fold_right]; [lra|].
    apply Forall_cons_iff in Hw as [Hw0 Hw]. assert (H1 := H p (or_introl eq_refl)). assert (H2 := IH ps ltac:(now injection L) ltac:(assumption) (fun q Hq => H q (or_intror Hq))).
    assert (0 <= w * (u * fst p + v * snd p + e)) by (apply Rmult_le_pos; assumption). lra. }
  specialize (G ws ps L Hw H). rewrite Hs in G. rewrite Ex, Ey. lra.
Qed.
Lemma nearest_hull pts a ps x : in_hull ps x -> (forall p, In p ps -> nearest pts a p) -> nearest pts a x.
Proof.
  intros Hx H q Hq. pose proof (half_plane_hull (2 * (fst a - fst q)) (2 * (snd a - snd q)) (fst q * fst q + snd q * snd q - fst a * fst a - snd a * snd a) ps x Hx) as G.
  unfold dist2. enough (0 <= 2 * (fst a - fst q) * fst x + 2 * (snd a - snd q) * snd x + (fst q * fst q + snd q * snd q - fst a * fst a - snd a * snd a)) by lra.
  apply G. intros p Hp. specialize (H p Hp q Hq). unfold dist2 in H. lra.
Qed.
Lemma vertex_hull ps p : In p ps -> in_hull ps p.
Proof.
  intros Hin. assert (Z : forall qs : list R, weighted (map (fun _ => 0) qs) qs = 0).
  { induction qs as [|q qs IH]; [reflexivity|]. unfold weighted in *. cbn [map combine fold_right]. rewrite IH. ring. }
  induction ps as [|q ps IH]; [destruct Hin|]. destruct Hin as [->|Hin].
  - exists (1 :: map (fun _ => 0) ps). cbn [length fold_right]. split; [now rewrite map_length|]. split; [|split].
    + constructor; [lra|]. apply Forall_forall. intros w Hw. apply in_map_iff in Hw as (? & <- & _). lra.
    + enough (fold_right Rplus 0 (map (fun _ : pt2 => 0) ps) = 0) by lra. clear. induction ps; cbn; lra.
    + pose proof (Z (map fst ps)) as Z1. pose proof (Z (map snd ps)) as Z2. rewrite map_map in Z1, Z2. unfold weighted in *. cbn [map combine fold_right]. rewrite Z1, Z2. lra.
  - destruct (IH Hin) as (ws & L & Hw & Hs & Ex & Ey). exists (0 :: ws). cbn [length fold_right]. split; [congruence|]. split; [constructor; [lra|exact Hw]|].
    split; [lra|]. unfold weighted in *. cbn [map combine fold_right]. rewrite <- Ex, <- Ey. lra.
Qed.

(* the center of points on one side *)
Lemma sum_cross u (a : pt2) pts : fold_right Rplus 0 (map (fun q => cross u (minus q a)) pts) =
  fst u * (fold_right Rplus 0 (map snd pts) - INR (length pts) * snd a) - snd u * (fold_right Rplus 0 (map fst pts) - INR (length pts) * fst a).
Proof.
  induction pts as [|q pts IH]; [cbn; ring|]. change (length (q :: pts)) with (S (length pts)). rewrite S_INR. cbn [map fold_right]. rewrite IH. unfold cross, minus. cbn [fst snd]. ring.
Qed.
Lemma sum_nonneg {A} (f : A -> R) l : (forall q, In q l -> 0 <= f q) -> 0 <= fold_right Rplus 0 (map f l) /\
  (fold_right Rplus 0 (map f l) = 0 -> forall q, In q l -> f q = 0).
Proof.
  induction l as [|x l IH]; intros H; cbn [map fold_right]; [split; [lra|intros _ q []]|].
  destruct IH as [I1 I2]; [intros q Hq; apply H; now right|]. pose proof (H x (or_introl eq_refl)) as Hx. split; [lra|].
  intros E q [ <- |Hq]; [lra|]. apply I2; [lra|exact Hq].
Qed.

(* the end of a ray is nearest to its point *)
Lemma ray_nearest pts c r a b v w : barycenter pts c -> 0 < r -> pts <> [] -> a <> b -> one_side pts a b -> nearest pts a v -> ray_end c r a b v w -> nearest pts a w.
Proof.
  intros [Hc1 Hc2] Hr Hne Hab Hs Hv (R1 & R2 & _) q Hq. specialize (Hv q Hq).
  set (n := minus w v) in *. set (u := minus b a) in *.
  assert (Hu : 0 < fst u * fst u + snd u * snd u).
  { unfold u, minus. cbn [fst snd]. destruct a as [ax ay], b as [bx by_]. cbn [fst snd].
    destruct (Req_dec (bx - ax) 0) as [E1|E1]; [|pose proof (Rsqr_pos_lt _ E1) as P; pose proof (Rle_0_sqr (by_ - ay)); unfold Rsqr in *; lra].
    destruct (Req_dec (by_ - ay) 0) as [E2|E2]; [|pose proof (Rsqr_pos_lt _ E2) as P; pose proof (Rle_0_sqr (bx - ax)); unfold Rsqr in *; lra].
    exfalso. apply Hab. f_equal; lra. }
  set (U := fst u * fst u + snd u * snd u) in *.
  (* n is orthogonal to ab *)
  set (k := cross u n). assert (Hdot : forall x, U * dot n x = k * cross u x).
  { intros x. unfold k, U, cross, dot in *. destruct n as [nx ny], u as [ux uy], x as [x y]. cbn [fst snd] in *.
    transitivity ((ux * ny - uy * nx) * (ux * y - uy * x) + (nx * ux + ny * uy) * (ux * x + uy * y)); [ring|]. rewrite R1. ring. }
  assert (G : 0 <= dot n (minus a q)).
  { assert (Ecr : cross u (minus a q) = - cross u (minus q a)) by (unfold cross, minus; cbn [fst snd]; ring).
    assert (Emid : dot n (minus (middle a b) c) = dot n (minus a c)).
    { unfold dot, minus, middle in *. unfold u, minus in R1. cbn [fst snd] in *. lra. }
    assert (HM : 0 <= dot n (minus a c)).
    { rewrite <- Emid. destruct (Rle_or_lt 0 (dot n (minus (middle a b) c))) as [P|P]; [exact P|]. exfalso.
      assert (r * dot n (minus (middle a b) c) < 0) by nra. lra. }
    assert (HN : 0 < INR (length pts)) by (apply lt_0_INR; destruct pts; [congruence|cbn; lia]).
    assert (Hsum : INR (length pts) * cross u (minus c a) = fold_right Rplus 0 (map (fun q => cross u (minus q a)) pts)).
    { rewrite sum_cross, <- Hc1, <- Hc2. unfold cross, minus. cbn [fst snd]. ring. }
    assert (Eca : cross u (minus a c) = - cross u (minus c a)) by (unfold cross, minus; cbn [fst snd]; ring).
    pose proof (Hdot (minus a c)) as D1. pose proof (Hdot (minus a q)) as D2. rewrite Eca in D1. rewrite Ecr in D2.
    assert (D1' : k * cross u (minus c a) <= 0) by nra.
    enough (k * cross u (minus q a) <= 0).
    { destruct (Rle_or_lt 0 (dot n (minus a q))) as [P|P]; [exact P|]. exfalso. pose proof (Rmult_lt_0_compat U (- dot n (minus a q)) Hu ltac:(lra)). lra. }
    destruct Hs as [Hs|Hs].
    - destruct (sum_nonneg (fun q => cross u (minus q a)) pts Hs) as [S1 S2].
      assert (Sc : 0 <= cross u (minus c a)).
      { destruct (Rle_or_lt 0 (cross u (minus c a))) as [P|P]; [exact P|]. exfalso. pose proof (Rmult_lt_0_compat _ (- cross u (minus c a)) HN ltac:(lra)). lra. }
      destruct Sc as [Sc|Sc]; [|rewrite S2; [lra| |exact Hq]; rewrite <- Hsum, <- Sc; ring].
      assert (k <= 0). { destruct (Rle_or_lt k 0) as [P|P]; [exact P|]. exfalso. pose proof (Rmult_lt_0_compat k (cross u (minus c a)) P Sc). lra. }
      specialize (Hs q Hq). fold u in Hs. nra.
    - destruct (sum_nonneg (fun q => - cross u (minus q a)) pts) as [S1 S2]; [intros q' Hq'; specialize (Hs q' Hq'); fold u in Hs; lra|].
      assert (Eopp : fold_right Rplus 0 (map (fun q => - cross u (minus q a)) pts) = - fold_right Rplus 0 (map (fun q => cross u (minus q a)) pts)).
      { clear. induction pts as [|x l IH]; cbn [map fold_right]; [ring|]. rewrite IH. ring. }
      rewrite Eopp, <- Hsum in S1, S2.
      assert (Sc : cross u (minus c a) <= 0).
      { destruct (Rle_or_lt (cross u (minus c a)) 0) as [P|P]; [exact P|]. exfalso. pose proof (Rmult_lt_0_compat _ _ HN P). lra. }
      destruct Sc as [Sc|Sc]; [|pose proof (S2 ltac:(rewrite Sc; ring) q Hq) as E0; cbv beta in E0; replace (cross u (minus q a)) with 0 by lra; lra].
      assert (0 <= k). { destruct (Rle_or_lt 0 k) as [P|P]; [exact P|]. exfalso. pose proof (Rmult_lt_0_compat (- k) (- cross u (minus c a)) ltac:(lra) ltac:(lra)). lra. }
      specialize (Hs q Hq). fold u in Hs. nra. }
  unfold dist2, dot, minus, n in *. cbn [fst snd] in *. unfold minus in G. cbn [fst snd] in G. lra.
Qed.

(* the vertices of a region are nearest to its point *)
Lemma region_nearest d atan2 c radius verts ext p a r out ps :
  proper_diagram d -> voronoi_diagram d -> barycenter (d_points d) c -> 0 < radius -> verts = d_vertices d ++ ext ->
  nth_error (d_points d) p = Some a -> region_of d p r -> same_region d atan2 c radius verts p r out ->
  Forall2 (fun v q => nth_error verts (Z.to_nat v) = Some q) out ps -> forall w, In w ps -> nearest (d_points d) a w.
Proof.
  intros PD [V1 V2] Hc Hr -> Ha Hreg [S1 S2] Hps w Hw.
  apply In_nth_error in Hw as (i & Hi). destruct (Stack3_proof.Forall2_nth_error_r _ _ _ _ _ Hps Hi) as (v & Hv & Hvw).
  pose proof (nth_error_In _ _ Hv) as Hin. 
  assert (Hold : In v r -> (0 <= v)%Z -> nearest (d_points d) a w).
  { intros Hvr Hv0. apply (V1 p a r v w Ha Hreg Hvr Hv0). destruct PD as (_ & _ & _ & _ & HRg & _).
    destruct Hreg as (k & _ & _ & Hk). rewrite Forall_forall in HRg. specialize (HRg r (nth_error_In _ _ Hk)). rewrite Forall_forall in HRg.
    specialize (HRg v Hvr). destruct HRg as [HRg|HRg]; [|lia]. unfold vertex_ok in HRg. rewrite nth_error_app1 in Hvw by lia. exact Hvw. }
  destruct (in_dec Z.eq_dec (-1)%Z r) as [Hinf|Hfin]; [|rewrite (S1 Hfin) in Hin; apply Hold; [exact Hin|]].
  2:{ destruct PD as (_ & _ & _ & _ & HRg & _). destruct Hreg as (k & _ & _ & Hk). rewrite Forall_forall in HRg.
      specialize (HRg r (nth_error_In _ _ Hk)). rewrite Forall_forall in HRg. specialize (HRg v Hin). destruct HRg as [HRg|HRg]; [unfold vertex_ok in HRg; lia|].
      subst v. contradiction. }
  destruct (S2 Hinf) as [(news & HP & HF) _].
  apply (Permutation_in _ HP), in_app_or in Hin as [Hin|Hin]; [apply filter_In in Hin as [Hin Hv0]; apply Hold; [exact Hin|now apply Z.leb_le]|].
  apply In_nth_error in Hin as (j & Hj). destruct (Stack3_proof.Forall2_nth_error_r _ _ _ _ _ HF Hj) as ([q v2] & Hq & a' & b & v' & w' & A1 & A2 & A3 & _ & A5 & A6).
  cbn [fst snd] in *. rewrite Ha in A1. injection A1 as <-. rewrite Hvw in A5. injection A5 as <-.
  destruct (V2 p a q b v2 v' Ha (nth_error_In _ _ Hq) A2 A3) as [N1 N2].
  apply (ray_nearest (d_points d) c radius a b v' w Hc Hr); auto.
  - intros E. rewrite E in Ha. destruct p; discriminate.
  - (* different points *)
    intros E. apply nth_error_In in Hq. unfold open_ridges in Hq. apply in_concat in Hq as (l & Hl & Hq).
    apply in_map_iff in Hl as ([[p1 p2] [w1 w2]] & <- & Hcomb). apply in_combine_l in Hcomb.
    destruct PD as (_ & _ & HRp & _). rewrite Forall_forall in HRp. specialize (HRp _ Hcomb). cbn in HRp. destruct HRp as (_ & _ & _ & Hdiff).
    cbn [open_ridge] in Hq. subst b.
    destruct (Nat.eqb_spec p1 p) as [->|_].
    + assert (q = p2) as -> by (destruct (w1 =? -1)%Z; [|destruct (w2 =? -1)%Z]; cbn in Hq; intuition congruence). congruence.
    + destruct (Nat.eqb_spec p2 p) as [->|_]; [|destruct Hq].
      assert (q = p1) as -> by (destruct (w1 =? -1)%Z; [|destruct (w2 =? -1)%Z]; cbn in Hq; intuition congruence). congruence.
Qed.

(* the radius is positive *)
Lemma radius_pos infinity ptp radius : (infinity = Some radius /\ radius <> 0) \/ (infinity = None \/ infinity = Some 0) /\ radius = 1000 * ptp ->
  0 < ptp -> (forall r, infinity = Some r -> 0 <= r) -> 0 < radius.
Proof. intros [[-> H]|[_ ->]] Hp Hi; [specialize (Hi _ eq_refl); lra|lra]. Qed.

Lemma tessellation_nearest d : proper_diagram d -> voronoi_diagram d -> forall argsort atan2 infinity ptp, sorts argsort -> d_points d <> [] ->
  (forall p r, region_of d p r -> In (-1)%Z r -> open_ridges d p <> []) -> 0 < ptp -> (forall r, infinity = Some r -> 0 <= r) ->
  exists outs verts, tessellation argsort atan2 d infinity ptp = Ok (outs, verts) /\ length outs = length (d_points d) /\
    forall p a out ps x, nth_error (d_points d) p = Some a -> nth_error outs p = Some out ->
      Forall2 (fun v q => nth_error verts (Z.to_nat v) = Some q) out ps -> in_hull ps x -> nearest (d_points d) a x.
Proof.
  intros PD VD argsort atan2 infinity ptp Hs Hne Hop Hp Hi.
  destruct (tessellation_spec d PD argsort atan2 infinity ptp Hs Hne Hop) as (outs & ext & c & radius & Et & Lo & Hb & Hrad & Hr).
  exists outs, (d_vertices d ++ ext). split; [exact Et|]. split; [exact Lo|]. intros p a out ps x Ha Hout Hps Hx.
  pose proof PD as (_ & Lpr & _ & _ & _ & HPr).
  assert (exists r, region_of d p r) as (r & Hreg).
  { destruct (nth_error (d_point_region d) p) as [k|] eqn:Ek; [|apply nth_error_None in Ek; assert (p < length (d_points d))%nat by (apply nth_error_Some; congruence); lia].
    rewrite Forall_forall in HPr. specialize (HPr k (nth_error_In _ _ Ek)). destruct (nth_error (d_regions d) (Z.to_nat k)) as [r|] eqn:Er.
    - exists r, k. split; [exact Ek|]. split; [lia|exact Er].
    - apply nth_error_None in Er. lia. }
  destruct (Hr p r Hreg) as (out' & Hout' & Hsame & _). rewrite Hout in Hout'. injection Hout' as <-.
  apply (nearest_hull _ _ ps x Hx). intros w Hw.
  exact (region_nearest d atan2 c radius _ ext p a r out ps PD VD Hb (radius_pos _ _ _ Hrad Hp Hi) eq_refl Ha Hreg Hsame Hps w Hw).
Qed.

Lemma mesh_nearest {A} (g : vgeo A) o b items vo m : well_formed b items ->
  (forall vpts, vpts <> [] -> proper_diagram (v_diagram vo vpts) /\ d_points (v_diagram vo vpts) = vpts /\
     forall p r, region_of (v_diagram vo vpts) p r -> In (-1)%Z r -> open_ridges (v_diagram vo vpts) p <> []) ->
  sorts (v_argsort vo) -> (forall vs, v_pairs vo vs = None) ->
  (forall vpts, length (d_point_region (v_diagram vo vpts)) = length vpts) ->
  (forall ps q, In q (v_clip vo ps) -> in_hull ps q) ->
  0 < v_ptp vo -> (forall r, v_infinity vo = Some r -> 0 <= r) ->
  voronoi_mesh g o b items vo = Ok m -> voronoi_diagram (v_diagram vo (map (planar (v_axis vo)) (vm_xyz m))) ->
  forall k cell s qs x, nth_error (vm_cells m) k = Some cell -> nth_error (vm_xyz m) k = Some s -> picks (vm_points m) cell qs -> in_hull qs x ->
    nearest (map (planar (v_axis vo)) (vm_xyz m)) (planar (v_axis vo) s) x.
Proof.
  intros WF HD Hs HN HDl Hclip Hp Hi E VD k cell s qs x Hcell Hsd Hqs Hx.
  assert (Hne : vm_xyz m <> []) by (intros E0; rewrite E0 in Hsd; destruct k; discriminate).
  destruct (voronoi_outlines g o b items vo m WF HD Hs HN E Hne HDl)
    as (verts & c & radius & Hb & (ext & Ev) & Hrad & H).
  set (vpts := map (planar (v_axis vo)) (vm_xyz m)) in *. assert (Hv : vpts <> []) by (unfold vpts; destruct (vm_xyz m); [congruence|discriminate]).
  destruct (HD vpts Hv) as (PD & Edp & _). set (d := v_diagram vo vpts) in *.
  assert (Ha : nth_error (d_points d) k = Some (planar (v_axis vo) s)) by (rewrite Edp; unfold vpts; now apply map_nth_error).
  pose proof PD as (_ & Lpr & _ & _ & _ & HPr).
  assert (exists r, region_of d k r) as (r & Hreg).
  { destruct (nth_error (d_point_region d) k) as [j|] eqn:Ek; [|apply nth_error_None in Ek; assert (k < length (d_points d))%nat by (apply nth_error_Some; congruence); lia].
    rewrite Forall_forall in HPr. specialize (HPr j (nth_error_In _ _ Ek)). destruct (nth_error (d_regions d) (Z.to_nat j)) as [r|] eqn:Er.
    - exists r, j. split; [exact Ek|]. split; [lia|exact Er].
    - apply nth_error_None in Er. lia. }
  destruct (H k cell r Hcell Hreg) as (out & ps & qs' & Hsame & Hps & Ho & Hpk).
  assert (qs = qs') as <- by (eapply picks_fun; eassumption).
  rewrite <- Edp. apply (nearest_hull _ _ qs x Hx). intros q Hq.
  assert (Hq' : In q (v_clip vo ps)) by (destruct Ho as [E1|E1]; rewrite E1 in Hq; [exact Hq|now apply in_rev]).
  apply (nearest_hull _ _ ps q (Hclip ps q Hq')). intros w Hw.
  exact (region_nearest d (v_atan2 vo) c radius verts ext k _ r out ps PD VD Hb (radius_pos _ _ _ Hrad Hp Hi) Ev Ha Hreg Hsame Hps w Hw).
Qed.
