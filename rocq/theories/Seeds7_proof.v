From Coq Require Import Reals Lra Lia Sorted.
From Verif Require Import Prelude RealAux Perc_model Perc_proof Grid Surface_model Surface_spec Surface_proof Volume_model
  Groups_model Lines_model Lines_spec Lines1_proof Voronoi_model Objects_model Objects_spec Objects1_proof Objects3_proof Objects5_proof
  Seeds_model Seeds_spec Seeds1_proof Seeds2_proof Seeds3_proof Seeds4_proof Seeds5_proof Seeds6_proof.
Open Scope R_scope.
Local Notation at_ l k := (nth k l z2).

Section S7.
Variable areas : shape3 -> list pt -> list R.

(* C116: errors *)
Lemma polyline_atomic {D} axis s (arg : list pt + lmesh pt D) ls width pref padding cs ce res priority group s' e :
  polylines arg ls -> (length ls <= 1)%nat ->
  add_polyline areas axis s arg width pref padding cs ce res priority group = (s', Err e) -> s' = s.
Proof.
  intros Ha L1. destruct (arg_lines arg ls Ha) as (m & out & E1 & E2 & E3).
  unfold add_polyline. rewrite E1. cbn [after]. destruct (resolution_to_perc res None) as [p|] eqn:Er; [|now intros [= <- <-]]. cbn [after].
  destruct (extended_perc p) as [P|] eqn:Ep; [|now intros [= <- <-]]. cbn [after]. rewrite E2. cbn [after]. rewrite E3.
  destruct ls as [|l [|]]; try (cbn in L1; lia); cbn [polyline_loop]; [discriminate|].
  destruct (polyline_items _ _ _ _ _ _ _ _ _ _ _) as [its|e']; cbn [after]; [discriminate|now intros [= <- <-]].
Qed.

Lemma polyline_not_atomic s : exists (m : lmesh pt unit) ls s' e,
  polylines (inr m) ls /\
  add_polyline areas 2 s (inr m) 1 PrefCell None 1 1 ResNone None "" = (s', Err e) /\ length (s_items s') = (length (s_items s) + 2)%nat.
Proof.
  set (m := mkL [(0, 0, 0); (1, 0, 0)] [[0; 1]%nat; [0]%nat] [] [] : lmesh pt unit).
  set (ls := [[(0, 0, 0); (1, 0, 0)]; [(0, 0, 0)]] : list (list pt)).
  assert (Hp : polylines (inr m) ls).
  { constructor.
    - unfold wf_lines, m. cbn. split; [|split; intros ? ? []].
      intros ids [<-|[<-|[]]] k Hk; cbn in Hk; lia.
    - unfold runs, picks, ls, m. cbn. repeat constructor. }
  destruct (arg_lines (inr m) ls Hp) as (m' & out & E1 & E2 & E3).
  assert (Hr : resolution_to_perc ResNone None = Ok [0; 1]) by exact sub_none.
  destruct (extended_ok [0; 1] ltac:(cbn; lia)) as (P & E4 & W & S). pose proof (S (perc_sorted _ _ _ Hr)) as S'.
  destruct (items_ok areas 2 P 1 PrefCell None 1 1 0%Z "" [(0, 0, 0); (1, 0, 0)]) as (it1 & it2 & E5 & _);
    [cbn; lia|destruct W as (W & _); cbn in W; lia|exact S'|].
  pose proof (items_bad areas 2 P 1 PrefCell None 1 1 0%Z "" [(0, 0, 0)] ltac:(cbn; lia)) as E6.
  exists m, ls, (mkSeeds (s_items s ++ [it1; it2]) (s_fuse s)), IndexError. split; [exact Hp|]. split.
  - unfold add_polyline. rewrite E1. cbn [after]. rewrite Hr. cbn [after]. rewrite E4. cbn [after]. rewrite E2. cbn [after].
    rewrite E3. unfold ls. cbn [polyline_loop]. rewrite E5. cbn [after]. rewrite E6. reflexivity.
  - cbn. rewrite app_length. reflexivity.
Qed.

(* C112 *)
Lemma seq_shift_map a n : seq a n = map (fun k => (a + k)%nat) (seq 0 n).
Proof.
  revert a. induction n as [|n IH]; intros a; cbn; [reflexivity|]. rewrite Nat.add_0_r. f_equal.
  rewrite IH, (IH 1%nat), map_map. apply map_ext. intros; lia.
Qed.

Lemma flat_map_map {A B C} (f : A -> B) (g : B -> list C) l : flat_map g (map f l) = flat_map (fun x => g (f x)) l.
Proof. induction l as [|x l IH]; cbn; congruence. Qed.

Lemma core_indices n m cs ce : (cs + ce <= n)%nat -> (2 <= m)%nat ->
  filter (core n m cs ce) (cell_indices n m) =
  map (fun '(k, j) => ((cs + k)%nat, S j)) (cell_indices (n - cs - ce) (m - 2)).
Proof.
  intros H Hm. unfold cell_indices. rewrite filter_flat_map, map_flat_map.
  replace (seq 0 m) with (0%nat :: seq 1 (m - 2) ++ [(m - 1)%nat]).
  2:{ replace m with (1 + (m - 2) + 1)%nat at 3 by lia. rewrite !seq_app. cbn [seq app]. do 3 f_equal. lia. }
  cbn [flat_map]. rewrite flat_map_app. cbn [flat_map]. rewrite app_nil_r.
  rewrite (filter_none _ (map _ _)).
  2:{ intros ij Hij. apply in_map_iff in Hij as (i & <- & Hi). unfold core. cbn [fst snd]. rewrite andb_false_r. reflexivity. }
  rewrite (filter_none _ (map _ _)).
  2:{ intros ij Hij. apply in_map_iff in Hij as (i & <- & Hi). unfold core. cbn [fst snd].
      destruct (Nat.ltb_spec (m - 1 + 1) m); [lia|]. apply andb_false_r. }
  rewrite app_nil_r. cbn [app].
  rewrite (seq_shift_map 1 (m - 2)), flat_map_map. apply flat_map_ext'. intros j Hj. apply in_seq in Hj.
  rewrite row_core by lia. rewrite (seq_shift_map cs), !map_map. reflexivity.
Qed.

Lemma left_normal_scale a b a' b' n k : left_normal a b n -> 0 < k ->
  fst b - fst a = k * (fst b' - fst a') -> snd b - snd a = k * (snd b' - snd a') -> left_normal a' b' n.
Proof.
  intros (U & O & D) Hk E1 E2. rewrite E1, E2 in *. split; [exact U|]. split.
  - assert (F : k * ((fst b' - fst a') * fst n + (snd b' - snd a') * snd n) = 0) by lra.
    apply Rmult_integral in F as [F|F]; lra.
  - apply Rmult_lt_reg_l with k; lra.
Qed.

Lemma core_strip axis width pref padding cs ce points prio group it1 it2 p P :
  (2 <= length points)%nat -> (2 <= length p)%nat -> widened p P ->
  draws axis width pref padding cs ce P points prio group it1 it2 ->
  exists Q N, drawn (padding_of width padding) pref (map (project axis) points) Q /\ length N = length Q /\
    (forall k a b, (k < length Q)%nat -> around Q k a b -> a <> b -> left_normal a b (nth k N (0, 0))) /\
    cells_of it1 = map (strip_cell axis width Q N p) (cell_indices (length Q - 1) (length p - 1)).
Proof.
  intros L Lp (LP & WP & _) (Q & E & N & HQ & HE & LN & HN & H1 & _).
  assert (LQ : (2 <= length Q)%nat).
  { inversion HQ; subst; [rewrite map_length; lia|]. rewrite map_length in *. lia. }
  destruct HE as (LE & HEQ & HS & HF).
  set (N' := map (fun k => at_ N (cs + k)) (seq 0 (length Q))).
  assert (AtN : forall k, (k < length Q)%nat -> at_ N' k = at_ N (cs + k)).
  { intros k Hk. apply nth_of. unfold N'. rewrite nth_error_map, nth_error_seq. destruct (Nat.ltb_spec k (length Q)); [reflexivity|lia]. }
  assert (AtQ : forall k, (k < length Q)%nat -> at_ Q k = at_ E (cs + k)).
  { intros k Hk. symmetry. apply nth_of. apply HEQ. now apply at_nth_error. }
  assert (AtP : forall j, (j < length p)%nat -> nth j p 0 = nth (S j) P 0).
  { intros j Hj. symmetry. apply nth_of. apply WP. now apply nth_error_nth'. }
  exists Q, N'. split; [exact HQ|]. split; [unfold N'; now rewrite map_length, seq_length|]. split.
  - intros k a b Hk (Ha & Hb) Hab. change (0, 0) with z2. rewrite AtN by exact Hk.
    destruct (around_ex E (cs + k) ltac:(lia)) as (u & v & A). pose proof A as A0. destruct A as (Hu & Hv).
    (* the neighbour before *)
    assert (U : u = a \/ k = 0%nat /\ (0 < cs)%nat /\ middle_of u a (at_ Q 1)).
    { destruct k as [|k].
      - rewrite Nat.add_0_r in *. cbn [Nat.sub] in Ha. destruct cs as [|c] eqn:Ec.
        + left. pose proof (HEQ 0%nat a Ha) as X. change (0 + 0)%nat with 0%nat in X. change (0 - 1)%nat with 0%nat in Hu. congruence.
        + right. split; [reflexivity|]. split; [lia|]. apply (HS c); [lia| | |].
          * replace (S c - 1)%nat with c in Hu by lia. exact Hu.
          * pose proof (HEQ 0%nat a Ha) as X. rewrite Nat.add_0_r in X. exact X.
          * rewrite AtQ by lia. replace (S (S c)) with (S c + 1)%nat by lia. apply at_nth_error. lia.
      - left. cbn [Nat.sub] in Ha. rewrite Nat.sub_0_r in Ha. pose proof (HEQ k a Ha) as X.
        replace (cs + S k - 1)%nat with (cs + k)%nat in Hu by lia. congruence. }
    assert (V : v = b \/ S k = length Q /\ (0 < ce)%nat /\ middle_of (at_ Q (k - 1)) b v).
    { destruct Hb as [Hb|(Hn & Hb)].
      - left. pose proof (HEQ (S k) b Hb) as X. rewrite Nat.add_succ_r in X. destruct Hv as [Hv|(Hv & _)]; congruence.
      - apply nth_error_None in Hn. assert (Hk' : S k = length Q) by lia.
        pose proof (HEQ k b Hb) as X.
        destruct Hv as [Hv|(Hv & Hv')].
        + right. split; [exact Hk'|]. assert (S (cs + k) < length E)%nat by (apply nth_error_Some; congruence). split; [lia|].
          apply (HF (cs + k - 1)%nat); [lia| | |].
          * rewrite AtQ by lia. replace (cs + k - 1)%nat with (cs + (k - 1))%nat by lia. apply at_nth_error. lia.
          * replace (S (cs + k - 1)) with (cs + k)%nat by lia. exact X.
          * replace (S (cs + k - 1)) with (cs + k)%nat by lia. exact Hv.
        + left. congruence. }
    (* b when k = 0, a when k is the last *)
    assert (B0 : k = 0%nat -> b = at_ Q 1).
    { intros ->. destruct Hb as [Hb|(Hn & _)]; [symmetry; now apply nth_of|]. apply nth_error_None in Hn. lia. }
    assert (AL : S k = length Q -> a = at_ Q (k - 1)).
    { intros _. symmetry. now apply nth_of. }
    assert (K : exists c, 0 < c /\ fst v - fst u = c * (fst b - fst a) /\ snd v - snd u = c * (snd b - snd a)).
    { destruct U as [->|(K0 & _ & (MX & MY))]; destruct V as [->|(KL & _ & (WX & WY))].
      - exists 1. split; [lra|]. split; lra.
      - exists 2. rewrite <- (AL KL) in WX, WY. split; [lra|]. split; lra.
      - exists 2. rewrite <- (B0 K0) in MX, MY. split; [lra|]. split; lra.
      - lia. }
    destruct K as (c & Hc & K1 & K2). eapply left_normal_scale; [apply (HN (cs + k)%nat u v)|exact Hc|exact K1|exact K2].
    + lia.
    + exact A0.
    + intros Huv. rewrite Huv in *. apply Hab. apply vec_eq.
      * assert (F : c * (fst b - fst a) = 0) by lra. apply Rmult_integral in F as [F|F]; lra.
      * assert (F : c * (snd b - snd a) = 0) by lra. apply Rmult_integral in F as [F|F]; lra.
  - rewrite H1, core_indices by lia. rewrite map_map.
    replace (length E - 1 - cs - ce)%nat with (length Q - 1)%nat by lia.
    replace (length P - 1 - 2)%nat with (length p - 1)%nat by lia.
    apply map_ext_in. intros [k j] Hkj. unfold cell_indices in Hkj. apply in_flat_map in Hkj as (j' & Hj & Hkj).
    apply in_map_iff in Hkj as (k' & [= -> ->] & Hk). apply in_seq in Hj, Hk.
    unfold strip_cell, strip_node. change (0, 0) with z2.
    rewrite (AtN k), (AtN (S k)), (AtQ k), (AtQ (S k)), (AtP j), (AtP (S j)), !Nat.add_succ_r by lia. reflexivity.
Qed.

(* C115 *)
Lemma coord_flatten axis q : coord axis (flatten axis q) = 0.
Proof. rewrite flatten_plane. destruct q as [[x y] z]. destruct axis as [|[|]]; reflexivity. Qed.
Lemma coord_embed axis q : coord axis (embed axis q) = 0.
Proof. destruct q as [x y]. destruct axis as [|[|]]; reflexivity. Qed.

Definition grows (axis : nat) (s s' : seeds) : Prop :=
  exists its, s_items s' = s_items s ++ its /\ Forall (flat axis) its.

Lemma grows_refl axis s : grows axis s s.
Proof. exists []. rewrite app_nil_r. auto. Qed.
Lemma grows_trans axis a b c : grows axis a b -> grows axis b c -> grows axis a c.
Proof.
  intros (x & Ex & Fx) (y & Ey & Fy). exists (x ++ y). rewrite Ey, Ex, app_assoc. split; [reflexivity|]. apply Forall_app. auto.
Qed.
Lemma grows_fuse axis s a f : grows axis s a -> grows axis s (mkSeeds (s_items a) f).
Proof. intros H. exact H. Qed.
Lemma grows_mesh axis s m poly prio g : grows axis s (add_mesh axis s m poly prio g).
Proof.
  eexists. split; [reflexivity|]. constructor; [|constructor]. unfold flat, cells_of. cbn.
  apply Forall_forall. intros c Hc. apply in_map_iff in Hc as (c' & <- & _). apply Forall_forall. intros q Hq.
  apply in_map_iff in Hq as (q' & <- & _). apply coord_flatten.
Qed.

Lemma grows_after {A} axis s s0 (r : res A) f : grows axis s s0 -> (forall x, grows axis s (fst (f x))) -> grows axis s (fst (after s0 r f)).
Proof. intros H0 H. destruct r; cbn; auto. Qed.

Lemma mesh_in_plane axis s m poly prio group : exists its,
  s_items (add_mesh axis s m poly prio group) = s_items s ++ its /\ Forall (flat axis) its.
Proof. exact (grows_mesh axis s m poly prio group). Qed.

Lemma points_in_plane axis s rows prio group : exists its,
  s_items (fst (add_points axis s rows prio group)) = s_items s ++ its /\ Forall (flat axis) its.
Proof.
  unfold add_points. destruct (mapM _ rows); cbn [fst].
  - apply grows_mesh.
  - apply grows_refl.
Qed.

Lemma circle_in_plane swap axis s radius cr res center plain prio group : exists its,
  s_items (fst (add_circle areas swap axis s radius cr res center plain prio group)) = s_items s ++ its /\ Forall (flat axis) its.
Proof.
  unfold add_circle. change (grows axis s (fst
    (let cr0 := match cr with Some c => c | None => 3 / 2 * radius end in
     let dr := cr0 - radius in
     let ts := mkSub res None in
     let one := mkSub (ResInt 1) None in
     let fuse := fun s' => if plain then after s' (plain_center axis center) (fun c =>
                          (mkSeeds (s_items s') (s_fuse s' ++ [inside c radius]), Ok tt))
       else (s', Ok tt) in
     if Rlt_dec 0 dr then
       after s (Circle (radius - dr) ts center) (fun c =>
       after s (Annulus areas (radius - dr) radius one ts center) (fun a =>
       after s (merge_generate (mk_options "" []) swap
               [(mkG (fan_cells c) None None, ""%string); (mkG (sgrid_cells a) None None, ""%string)]) (fun m =>
       let s1 := add_mesh axis s (fst m) false prio group in
       after s1 (Annulus areas radius (radius + dr) one ts center) (fun a =>
       fuse (add_mesh axis s1 (mkG (sgrid_cells a) None None) false 0%Z "")))))
     else if Req_EM_T dr 0 then
       after s (Circle radius ts center) (fun c =>
       fuse (add_mesh axis s (mkG (fan_cells c) None None) false prio group))
     else (s, Err ValueError)))).
  cbv zeta.
  assert (F : forall s' (x : seeds * Prelude.res unit), grows axis s s' ->
    x = (if plain then after s' (plain_center axis center) (fun c =>
                          (mkSeeds (s_items s') (s_fuse s' ++ [inside c radius]), Ok tt))
       else (s', Ok tt)) -> grows axis s (fst x)).
  { intros s' x H ->. destruct plain; [|exact H]. apply grows_after; [exact H|]. intros c. apply grows_fuse, H. }
  destruct (Rlt_dec 0 _).
  - apply grows_after; [apply grows_refl|]. intros c. apply grows_after; [apply grows_refl|]. intros a.
    apply grows_after; [apply grows_refl|]. intros m. apply grows_after; [apply grows_mesh|]. intros a'.
    eapply F; [|reflexivity]. eapply grows_trans; apply grows_mesh.
  - destruct (Req_EM_T _ 0); [|apply grows_refl].
    apply grows_after; [apply grows_refl|]. intros c. eapply F; [|reflexivity]. apply grows_mesh.
Qed.

Lemma strip_flat axis w E N P l : Forall (Forall (fun q => coord axis q = 0)) (map (strip_cell axis w E N P) l).
Proof.
  apply Forall_forall. intros c Hc. apply in_map_iff in Hc as ((i, j) & <- & _). unfold strip_cell, strip_node.
  repeat constructor; apply coord_embed.
Qed.

Lemma polyline_in_plane {D} axis s (arg : list pt + lmesh pt D) width pref padding cs ce res priority group : exists its,
  s_items (fst (add_polyline areas axis s arg width pref padding cs ce res priority group)) = s_items s ++ its /\ Forall (flat axis) its.
Proof.
  change (grows axis s (fst (add_polyline areas axis s arg width pref padding cs ce res priority group))).
  unfold add_polyline. apply grows_after; [apply grows_refl|]. intros m.
  destruct (resolution_to_perc res None) as [p|] eqn:Er; [|apply grows_refl]. cbn [after].
  destruct (extended_perc p) as [P|] eqn:Ep; [|apply grows_refl]. cbn [after].
  apply grows_after; [apply grows_refl|]. intros out.
  assert (Lp : (2 <= length p)%nat).
  { destruct (Nat.lt_ge_cases (length p) 2) as [H|H]; [|exact H]. rewrite (extended_bad p H) in Ep. discriminate. }
  destruct (extended_ok p Lp) as (P' & E' & W & S). rewrite Ep in E'. injection E' as <-. pose proof (S (perc_sorted _ _ _ Er)) as S'.
  generalize (map l_pts out). clear out. intros ls. revert s. induction ls as [|l ls IH]; intros s; cbn [polyline_loop]; [apply grows_refl|].
  destruct (Nat.lt_ge_cases (length l) 2) as [Hl|Hl].
  - rewrite items_bad by exact Hl. apply grows_refl.
  - destruct (items_ok areas axis P width pref padding cs ce (match priority with Some p => p | None => 0%Z end) group l) as (a & b & -> & HD); auto.
    { destruct W as (W & _). lia. }
    cbn [after]. eapply grows_trans; [|apply IH]. exists [a; b]. split; [reflexivity|].
    destruct HD as (Q & E & N & _ & _ & _ & _ & H1 & H2 & _). unfold flat. rewrite <- H1 || idtac.
    constructor; [unfold flat; rewrite H1; apply strip_flat|]. constructor; [unfold flat; rewrite H2; apply strip_flat|constructor].
Qed.

(* C114: the documentation *)
Lemma map_nth_error_ext {A B} (f : A -> B) l m : length l = length m ->
  (forall k y, nth_error m k = Some y -> exists c, nth_error l k = Some c /\ f c = y) -> map f l = m.
Proof.
  intros L H. apply nth_error_ext. intros k. rewrite nth_error_map. destruct (nth_error m k) as [y|] eqn:Hy.
  - destruct (H k y Hy) as (c & -> & <-). reflexivity.
  - apply nth_error_None in Hy. replace (nth_error l k) with (@None A); [reflexivity|]. symmetry. apply nth_error_None. lia.
Qed.

Lemma sqrt_sq' x : 0 <= x -> sqrt (x * x) = x.
Proof. apply sqrt_square. Qed.

Lemma preference_wrong s :
  let pts := [(0, 0, 0); (2, 0, 0); (4, 0, 0)] in
  (exists it1 it2, add_polyline (D := unit) areas 2 s (inl pts) 2 PrefPoint None 1 1 ResNone None "" =
      (mkSeeds (s_items s ++ [it1; it2]) (s_fuse s), Ok tt) /\ map mean_point (cells_of it1) = [(1, 0, 0); (3, 0, 0)]) /\
  (exists it1 it2, add_polyline (D := unit) areas 2 s (inl pts) 2 PrefCell None 1 1 ResNone None "" =
      (mkSeeds (s_items s ++ [it1; it2]) (s_fuse s), Ok tt) /\ map mean_point (cells_of it1) = pts).
Proof.
  intros pts. assert (L : (2 <= length pts)%nat) by (cbn; lia).
  assert (Hr : resolution_to_perc ResNone None = Ok [0; 1]) by exact sub_none.
  assert (HP : @polylines unit (inl pts) [pts]) by (constructor; exact L).
  assert (K : forall pref, exists P it1 it2, widened [0; 1] P /\
    add_polyline (D := unit) areas 2 s (inl pts) 2 pref None 1 1 ResNone None "" = (mkSeeds (s_items s ++ [it1; it2]) (s_fuse s), Ok tt) /\
    draws 2 2 pref None 1 1 P pts 0%Z "" it1 it2).
  { intros pref. destruct (polyline_ok areas 2 s (inl pts) [pts] 2 pref None 1 1 ResNone [0; 1] None "" HP) as (P & its & W & E & HD); auto.
    inversion HD as [|? ? a b its' H1 H2]; subst. inversion H2; subst. exists P, a, b. auto. }
  split.
  - destruct (K PrefPoint) as (P & it1 & it2 & W & E & HD). exists it1, it2. split; [exact E|].
    destruct (point_sites _ _ _ _ _ _ _ _ _ _ _ L W HD) as (L1 & H). apply map_nth_error_ext; [exact L1|].
    intros [|[|k]] y Hy; cbn in Hy; try (destruct k; discriminate); injection Hy as <-.
    + destruct (H 0%nat _ _ eq_refl eq_refl) as (c & Hc & Hm). exists c. split; [exact Hc|]. rewrite Hm. cbn. repeat apply f_equal2; lra.
    + destruct (H 1%nat _ _ eq_refl eq_refl) as (c & Hc & Hm). exists c. split; [exact Hc|]. rewrite Hm. cbn. repeat apply f_equal2; lra.
  - destruct (K PrefCell) as (P & it1 & it2 & W & E & HD). exists it1, it2. split; [exact E|].
    destruct (cell_sites _ _ _ _ _ _ _ _ _ _ _ L W HD) as (L1 & H & H0 & HL). apply map_nth_error_ext; [exact L1|].
    intros [|[|[|k]]] y Hy; cbn in Hy; try (destruct k; discriminate); injection Hy as <-.
    + destruct (H0 _ _ eq_refl eq_refl) as (c & Hc & Hm). exists c. split; [exact Hc|]. rewrite Hm. unfold beyond, halfway, embed, project, padding_of. cbn [fst snd].
      replace ((0 - 2) * (0 - 2) + (0 - 0) * (0 - 0)) with (2 * 2) by ring. rewrite sqrt_sq' by lra.
      repeat match goal with |- (_, _) = (_, _) => apply f_equal2 end; lra.
    + destruct (H 0%nat _ _ _ eq_refl eq_refl eq_refl) as (c & Hc & Hm). exists c. split; [exact Hc|]. rewrite Hm. cbn.
      repeat match goal with |- (_, _) = (_, _) => apply f_equal2 end; lra.
    + destruct (HL _ _ eq_refl eq_refl) as (c & Hc & Hm). exists c. split; [exact Hc|]. rewrite Hm. unfold beyond, halfway, embed, project, padding_of. cbn [fst snd].
      replace ((4 - 2) * (4 - 2) + (0 - 0) * (0 - 0)) with (2 * 2) by ring. rewrite sqrt_sq' by lra.
      repeat match goal with |- (_, _) = (_, _) => apply f_equal2 end; lra.
Qed.

Lemma preference_refuted : exists pts, forall s,
  (exists it1 it2, add_polyline (D := unit) areas 2 s (inl pts) 2 PrefPoint None 1 1 ResNone None "" =
      (mkSeeds (s_items s ++ [it1; it2]) (s_fuse s), Ok tt) /\
    forall c p, In c (cells_of it1) -> In p pts -> mean_point c <> p) /\
  (exists it1 it2, add_polyline (D := unit) areas 2 s (inl pts) 2 PrefCell None 1 1 ResNone None "" =
      (mkSeeds (s_items s ++ [it1; it2]) (s_fuse s), Ok tt) /\ map mean_point (cells_of it1) = pts).
Proof.
  exists [(0, 0, 0); (2, 0, 0); (4, 0, 0)]. intros s. destruct (preference_wrong s) as ((a & b & E & H) & H2). split; [|exact H2].
  exists a, b. split; [exact E|]. intros c p Hc Hp Hm.
  assert (Hi : In (mean_point c) [(1, 0, 0); (3, 0, 0)]) by (rewrite <- H; apply in_map; exact Hc).
  rewrite Hm in Hi. cbn in Hp, Hi.
  destruct Hp as [<-|[<-|[<-|[]]]]; destruct Hi as [[= X]|[[= X]|[]]]; lra.
Qed.
End S7.
