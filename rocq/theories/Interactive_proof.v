From Coq Require Import Reals Lra Sorted Ascii.
From Verif Require Import Prelude Surface_model Interactive_model Interactive_spec Topo_proof Topo5_proof.
Open Scope nat_scope.

Lemma dict_mem_In k d : dict_mem k d = true <-> In k (map fst d).
Proof.
  unfold dict_mem. rewrite existsb_exists. split.
  - intros ((k' & a) & H & E). cbn in E. apply Z.eqb_eq in E. subst. apply in_map_iff. now exists (k', a).
  - intros H. apply in_map_iff in H as ((k' & a) & <- & H). exists (k', a). split; [exact H|apply Z.eqb_refl].
Qed.

Lemma dict_get_In k d : In k (map fst d) -> exists a, dict_get k d = Some a /\ In (k, a) d.
Proof.
  intros H. apply dict_mem_In in H. unfold dict_mem in H. apply existsb_exists in H as ((k' & a) & H & E).
  unfold dict_get. destruct (find _ d) as [[k2 a2]|] eqn:F.
  - apply find_some in F as (F & E2). cbn in E2. apply Z.eqb_eq in E2. subst k2. exists a2. auto.
  - apply find_none with (x := (k', a)) in F; [|exact H]. congruence.
Qed.

Lemma dict_del_keys k d : map fst (dict_del k d) = filter (fun x => negb (Z.eqb k x)) (map fst d).
Proof.
  unfold dict_del. induction d as [|(x, a) d IH]; [reflexivity|]. cbn. destruct (Z.eqb k x); cbn; now rewrite IH.
Qed.

Lemma dict_del_values k a d : NoDup (map fst d) -> NoDup (map snd d) -> In (k, a) d ->
  map snd (dict_del k d) = filter (fun b => negb (Nat.eqb a b)) (map snd d).
Proof.
  unfold dict_del. induction d as [|(x, b) d IH]; [intros _ _ []|]. intros N1 N2 H. cbn in N1, N2.
  apply NoDup_cons_iff in N1 as (M1 & N1). apply NoDup_cons_iff in N2 as (M2 & N2).
  assert (Ks : forall d', ~ In k (map fst d') -> filter (fun kv => negb (Z.eqb k (fst kv))) d' = d' :> list (Z * nat)).
  { induction d' as [|(y, c) d' IHd]; [reflexivity|]. cbn. intros Hn. destruct (Z.eqb_spec k y) as [->|_].
    - exfalso. apply Hn. now left.
    - cbn. f_equal. apply IHd. tauto. }
  assert (Vs : forall l, ~ In a l -> filter (fun b => negb (Nat.eqb a b)) l = l).
  { induction l as [|y l IHl]; [reflexivity|]. cbn. intros Hn. destruct (Nat.eqb_spec a y) as [->|_].
    - exfalso. apply Hn. now left.
    - cbn. f_equal. apply IHl. tauto. }
  destruct H as [[= -> ->]|H].
  - cbn. rewrite Z.eqb_refl, Nat.eqb_refl. cbn. rewrite Ks, Vs by assumption. reflexivity.
  - cbn. destruct (Z.eqb_spec k x) as [->|Hk].
    { exfalso. apply M1. apply in_map_iff. now exists (x, a). }
    destruct (Nat.eqb_spec a b) as [->|Ha].
    { exfalso. apply M2. apply in_map_iff. now exists (k, b). }
    cbn. f_equal. now apply IH.
Qed.

Lemma NoDup_app_iff_snoc {A} (l : list A) x : NoDup l /\ ~ In x l -> NoDup (l ++ [x]).
Proof.
  intros (N & H). apply Permutation.Permutation_NoDup with (l := x :: l).
  - apply Permutation.Permutation_cons_append.
  - now constructor.
Qed.

Definition good (clicks : list Z) (st : picking) : Prop :=
  NoDup (map fst (pk_actors st)) /\ NoDup (map snd (pk_actors st)) /\
  (forall a, In a (map snd (pk_actors st)) -> a < pk_next st) /\
  pk_drawn st = map snd (pk_actors st) /\
  (forall i, In i (map fst (pk_actors st)) <-> Nat.odd (clicks_on i clicks) = true) /\
  (forall x y a b, comes_before (map fst (pk_actors st)) x y ->
     last_click clicks x a -> last_click clicks y b -> a < b).

Lemma clicks_snoc i l x : clicks_on i (l ++ [x]) = clicks_on i l + (if Z.eq_dec x i then 1 else 0).
Proof.
  unfold clicks_on. rewrite count_occ_app. f_equal.
Qed.

Lemma last_click_snoc_other l x i k : i <> x -> last_click (l ++ [x]) i k -> last_click l i k.
Proof.
  intros N (H & L). destruct (Nat.lt_ge_cases k (length l)) as [C|C].
  - rewrite nth_error_app1 in H by exact C. split; [exact H|]. intros j Hj E. apply (L j Hj).
    rewrite nth_error_app1; [exact E|]. apply nth_error_Some. congruence.
  - rewrite nth_error_app2 in H by exact C. destruct (k - length l) as [|[|?]] eqn:E; cbn in H; congruence.
Qed.

Lemma last_click_snoc_same l x k : last_click (l ++ [x]) x k -> k = length l.
Proof.
  intros (H & L). destruct (Nat.lt_trichotomy k (length l)) as [C|[C|C]]; [|exact C|].
  - exfalso. apply (L (length l) C). rewrite nth_error_app2 by lia. now rewrite Nat.sub_diag.
  - assert (k < length (l ++ [x])) by (apply nth_error_Some; congruence). rewrite app_length in *. cbn in *. lia.
Qed.

Lemma filter_before (f : Z -> bool) l x y : comes_before (filter f l) x y -> comes_before l x y.
Proof.
  induction l as [|z l IH]; [intros (a & b & _ & H & _); destruct a; discriminate|].
  cbn. destruct (f z).
  - intros (a & b & L & Ha & Hb). destruct b as [|b]; [lia|]. cbn in Hb.
    destruct a as [|a]; cbn in Ha.
    + injection Ha as <-. assert (In y l).
      { apply nth_error_In in Hb. apply filter_In in Hb. tauto. }
      apply In_nth_error in H as (c & Hc). exists 0, (S c). split; [lia|]. now split.
    + destruct IH as (a' & b' & L' & Ha' & Hb').
      { exists a, b. repeat split; auto; lia. }
      exists (S a'), (S b'). repeat split; auto; lia.
  - intros H. destruct (IH H) as (a' & b' & L' & Ha' & Hb'). exists (S a'), (S b'). repeat split; auto; lia.
Qed.

Lemma before_In l x y : comes_before l x y -> In x l /\ In y l.
Proof. intros (a & b & _ & Ha & Hb). split; eapply nth_error_In; eassumption. Qed.

Lemma odd_add_one n : Nat.odd (n + 1) = negb (Nat.odd n).
Proof. rewrite Nat.add_1_r, Nat.odd_succ, <- Nat.negb_odd. reflexivity. Qed.

Lemma callback_good clicks st id rest : good clicks st ->
  exists st', callback st (id :: rest) = Ok st' /\ good (clicks ++ [id]) st'.
Proof.
  intros (N1 & N2 & Lt & Dr & Od & Or). unfold callback.
  destruct (dict_mem id (pk_actors st)) eqn:M; cbn [negb].
  - apply dict_mem_In in M. destruct (dict_get_In _ _ M) as (a & G & I). rewrite G.
    eexists. split; [reflexivity|]. unfold good. cbn [pk_actors pk_drawn pk_next].
    rewrite dict_del_keys, (dict_del_values _ a) by assumption.
    split; [now apply NoDup_filter|]. split; [now apply NoDup_filter|].
    split; [intros b Hb; apply filter_In in Hb; apply Lt; tauto|].
    split; [now rewrite Dr|]. split.
    + intros i. rewrite filter_In, clicks_snoc, Od. destruct (Z.eqb_spec id i) as [->|Ni].
      * destruct (Z.eq_dec i i); [|tauto]. rewrite odd_add_one. apply Od in M. rewrite M. cbn. intuition discriminate.
      * destruct (Z.eq_dec id i); [tauto|]. rewrite Nat.add_0_r. cbn. tauto.
    + intros x y p q B Hx Hy. destruct (before_In _ _ _ B) as (Ix & Iy).
      apply filter_In in Ix as (_ & Ix), Iy as (_ & Iy).
      apply filter_before in B. eapply Or; [exact B| |]; eapply last_click_snoc_other; try eassumption.
      * intros ->. now rewrite Z.eqb_refl in Ix.
      * intros ->. now rewrite Z.eqb_refl in Iy.
  - assert (Mn : ~ In id (map fst (pk_actors st))) by (rewrite <- dict_mem_In; congruence).
    eexists. split; [reflexivity|]. unfold good. cbn [pk_actors pk_drawn pk_next].
    rewrite !map_app. cbn [map fst snd]. split; [|split; [|split; [|split; [|split]]]].
    + apply NoDup_app_iff_snoc. auto.
    + apply NoDup_app_iff_snoc. split; [assumption|]. intros H. apply Lt in H. lia.
    + intros a H. apply in_app_iff in H as [H|[<-|[]]]; [apply Lt in H; lia|lia].
    + now rewrite Dr.
    + intros i. rewrite in_app_iff, clicks_snoc, Od. cbn [In]. destruct (Z.eq_dec id i) as [->|Ni].
      * rewrite odd_add_one. rewrite Od in Mn. destruct (Nat.odd _); cbn; intuition congruence.
      * rewrite Nat.add_0_r. intuition.
    + intros x y p q (a & b & L & Ha & Hb) Hx Hy.
      assert (La : a < length (map fst (pk_actors st))).
      { assert (b < length (map fst (pk_actors st) ++ [id])) by (apply nth_error_Some; congruence).
        rewrite app_length in *. cbn in *. lia. }
      rewrite nth_error_app1 in Ha by exact La.
      assert (Nx : x <> id) by (intros ->; apply Mn; eapply nth_error_In; eassumption).
      pose proof (last_click_snoc_other _ _ _ _ Nx Hx) as Hx'.
      destruct (Nat.lt_ge_cases b (length (map fst (pk_actors st)))) as [Lb|Lb].
      * rewrite nth_error_app1 in Hb by exact Lb. apply (Or x y); [|exact Hx'|].
        { exists a, b. repeat split; assumption. }
        eapply last_click_snoc_other; [|exact Hy]. intros ->. apply Mn. eapply nth_error_In; eassumption.
      * rewrite nth_error_app2 in Hb by exact Lb. destruct (b - length _) as [|[|?]]; cbn in Hb; try congruence.
        injection Hb as <-. apply last_click_snoc_same in Hy. subst q.
        destruct Hx' as (Hx' & _). apply nth_error_Some. congruence.
Qed.

Lemma selection_loop clicks : forall done st, good done st ->
  exists st', picks_loop st (map (fun c => fst c :: snd c) clicks) = Ok st' /\ good (done ++ map fst clicks) st'.
Proof.
  induction clicks as [|(c, r) cs IH]; intros done st G.
  - exists st. cbn. rewrite app_nil_r. auto.
  - cbn [map picks_loop fst snd]. destruct (callback_good done st c r G) as (st1 & E & G1). rewrite E. cbn [bind].
    destruct (IH _ _ G1) as (st2 & E2 & G2). exists st2. split; [exact E2|].
    now rewrite <- app_assoc in G2.
Qed.

Lemma comes_before_total l x y : In x l -> In y l -> x <> y -> comes_before l x y \/ comes_before l y x.
Proof.
  intros Hx Hy N. apply In_nth_error in Hx as (a & Ha), Hy as (b & Hb).
  destruct (Nat.lt_trichotomy a b) as [C|[->|C]].
  - left. now exists a, b.
  - congruence.
  - right. now exists b, a.
Qed.

Lemma names_view_iff known v : names_view known v <-> known (snd (split_view v)) = true.
Proof.
  split.
  - intros [w K N|w K]; [|exact K]. destruct w as [|c w]; [exact K|]. unfold split_view.
    destruct (Ascii.eqb_spec c "-"%char) as [->|_]; [|exact K]. exfalso. now apply (N w).
  - intros K. destruct v as [|c w]; [apply nv_plain; [exact K|discriminate]|]. unfold split_view in K.
    destruct (Ascii.eqb_spec c "-"%char) as [->|N]; [now apply nv_minus|].
    apply nv_plain; [exact K|]. intros w' [= E _]. contradiction.
Qed.

Lemma set_view_looks known v : names_view known v -> set_view known v = Ok (snd (split_view v), fst (split_view v)) /\ looks v (snd (split_view v), fst (split_view v)).
Proof.
  intros K. pose proof (proj1 (names_view_iff _ _) K) as E. unfold set_view. destruct (split_view v) as (n, w) eqn:S. cbn [fst snd] in *. rewrite E. split; [reflexivity|].
  destruct K as [v K N|v K].
  - assert (Q : split_view v = (false, v)). { destruct v as [|c v]; [reflexivity|]. cbn. destruct (Ascii.eqb_spec c "-"%char) as [ -> |_]; [|reflexivity]. exfalso. now apply (N v). }
    rewrite Q in S. injection S as <- <-. now constructor.
  - cbn in S. injection S as <- <-. constructor.
Qed.
Lemma set_view_unknown known v : ~ names_view known v -> set_view known v = Err ValueError.
Proof.
  intros K. rewrite names_view_iff in K. apply not_true_is_false in K. unfold set_view. destruct (split_view v) as (n, w). cbn [snd] in K. now rewrite K.
Qed.
Definition camera_of (view : option string) : option (string * bool) :=
  match view with None | Some EmptyString => None | Some v => Some (snd (split_view v), fst (split_view v)) end.
Lemma camera_spec known_view view : (forall v, view = Some v -> v <> ""%string -> names_view known_view v) ->
  (match view with
   | None | Some EmptyString => Ok None
   | Some v => let! c := set_view known_view v in Ok (Some c)
   end) = Ok (camera_of view).
Proof.
  intros V. destruct view as [[|c v]|]; try reflexivity. destruct (set_view_looks known_view (String c v)) as (E & _); [apply V; [reflexivity|discriminate]|].
  rewrite E. reflexivity.
Qed.
Lemma camera_looks known_view view : (forall v, view = Some v -> v <> ""%string -> names_view known_view v) ->
  forall v, view = Some v -> v <> ""%string -> exists c, camera_of view = Some c /\ looks v c.
Proof.
  intros V v -> N. destruct v as [|c v]; [congruence|]. eexists. split; [reflexivity|]. now apply (set_view_looks known_view), V.
Qed.

(* clicks: the first entry (used) and the other entries of the picked arrays *)
Lemma selection_toggles known_view view preference events clicks :
  (forall v, view = Some v -> v <> ""%string -> names_view known_view v) ->
  Forall2 (fun e c => exists r, (if String.eqb preference "cell" then ev_cells e else ev_points e) = c :: r) events clicks ->
  exists ids drawn camera, interactive_selection known_view view preference events = Ok (ids, drawn, camera) /\
    (forall v, view = Some v -> v <> ""%string -> exists c, camera = Some c /\ looks v c) /\
    (view = None \/ view = Some ""%string -> camera = None) /\
    NoDup ids /\ length drawn = length ids /\ NoDup drawn /\
    (forall i, In i ids <-> Nat.odd (clicks_on i clicks) = true) /\
    (forall x y a b, In x ids -> In y ids -> last_click clicks x a -> last_click clicks y b ->
       comes_before ids x y <-> a < b).
Proof.
  intros V F. unfold interactive_selection.
  rewrite (camera_spec _ _ V). cbn [bind].
  assert (exists cl, map (fun e => if String.eqb preference "cell" then ev_cells e else ev_points e) events
             = map (fun c => fst c :: snd c) cl /\ map fst cl = clicks) as (cl & -> & Ec).
  { clear V. induction F as [|e c es cs (r & H) F (cl & E1 & E2)]; [now exists []|].
    exists ((c, r) :: cl). cbn [map fst snd]. rewrite E1, E2, H. auto. }
  destruct (selection_loop cl [] (mkPick [] [] 0)) as (st & E & N1 & N2 & _ & Dr & Od & Or).
  { unfold good. cbn. repeat split; try constructor; try tauto; try discriminate.
    intros x y a b (p & q & _ & H & _). destruct p; discriminate. }
  rewrite E. cbn [bind]. rewrite Ec in *. cbn [app] in *.
  exists (map fst (pk_actors st)), (pk_drawn st), (camera_of view). split; [reflexivity|].
  split; [now apply (camera_looks known_view)|]. split; [intros [ -> | ->]; reflexivity|]. split; [exact N1|].
  split; [rewrite Dr, !map_length; reflexivity|]. split; [rewrite Dr; exact N2|]. split; [exact Od|].
  intros x y a b Ix Iy Hx Hy. split; [intros B; eapply Or; eassumption|].
  intros L. destruct (Z.eq_dec x y) as [->|N].
  - exfalso. destruct Hx as (_ & Lx), Hy as (Hy & _). exact (Lx b L Hy).
  - destruct (comes_before_total _ _ _ Ix Iy N) as [B|B]; [exact B|].
    pose proof (Or _ _ _ _ B Hy Hx). lia.
Qed.

Lemma selection_unknown_view known_view v preference events :
  v <> ""%string -> ~ names_view known_view v ->
  interactive_selection known_view (Some v) preference events = Err ValueError.
Proof.
  intros N K. unfold interactive_selection. destruct v as [|c v]; [congruence|]. rewrite (set_view_unknown _ _ K). reflexivity.
Qed.

(* ---------- lasso ---------- *)

Lemma lasso_clicks clicks : fold_left lasso_click clicks [] = clicks.
Proof.
  cut (forall acc, fold_left lasso_click clicks acc = acc ++ clicks); [intros H; apply H|].
  induction clicks as [|p l IH]; intros acc; cbn [fold_left]; [now rewrite app_nil_r|].
  rewrite IH. destruct acc; cbn [lasso_click app]; [reflexivity|]. now rewrite <- app_assoc.
Qed.

Lemma flatnonzero_spec mask : StronglySorted lt (flatnonzero mask) /\
  forall i, In i (flatnonzero mask) <-> nth_error mask i = Some true.
Proof.
  unfold flatnonzero. split.
  - apply mask_get_seq_sorted.
  - intros i. rewrite mask_get_seq_In, Nat.sub_0_r. split; [tauto|]. intros H. split; [lia|exact H].
Qed.

Lemma horizontal_plane view proj : horizontal_view view -> view_plane view proj ->
  proj = first_two /\ removed_axis (snd (split_view view)) = 2.
Proof.
  intros H V. destruct H; inversion V; subst; try (split; reflexivity);
  match goal with H : view_plane _ _ |- _ => inversion H; subst; split; reflexivity end.
Qed.

Lemma plane_outline view proj : view_plane view proj ->
  forall p, delete_column (removed_axis (snd (split_view view))) p = proj p.
Proof.
  assert (D : forall v f, view_plane v f -> forall p, delete_column (removed_axis v) p = f p).
  { intros v f H. induction H; try (intros ((x, y), z); reflexivity). exact IHview_plane. }
  intros V. destruct V; try (intros ((x, y), z); reflexivity). intros p. now apply D.
Qed.

Lemma lasso_outline known_view polygon centers points view preference clicks proj inside :
  names_view known_view view -> view_plane view proj ->
  polygon (map proj clicks) = Ok inside ->
  exists ids camera, interactive_lasso_selection known_view polygon centers points view preference clicks
    = Ok (ids, map proj clicks, camera) /\ looks view camera /\
    lasso_selects (fun p => let '(x, y, z) := p in (x, y)) inside
      (if String.eqb preference "cell" then centers else points) ids.
Proof.
  intros K V P. unfold interactive_lasso_selection. destruct (set_view_looks _ _ K) as (E0 & Lk).
  rewrite E0. cbn [bind fst]. rewrite lasso_clicks.
  rewrite (map_ext _ _ (plane_outline _ _ V) clicks).
  rewrite P. cbn [bind]. do 2 eexists. split; [reflexivity|]. split; [exact Lk|].
  set (items := if String.eqb preference "cell" then centers else points).
  replace (if String.eqb preference "cell" then map (fun p => inside (first_two p)) centers else map (fun p => inside (first_two p)) points)
    with (map (fun p => inside (first_two p)) items) by (unfold items; now destruct (String.eqb preference "cell")).
  destruct (flatnonzero_spec (map (fun p => inside (first_two p)) items)) as (S & I). split; [exact S|].
  intros i. rewrite I, nth_error_map. destruct (nth_error items i) as [p|]; cbn [option_map].
  - split; [intros [= E]; exists p; split; [reflexivity|exact E]|].
    intros (q & [= <-] & E). change (Some (inside (first_two p)) = Some true). f_equal. exact E.
  - split; [discriminate|]. intros (q & E & _). discriminate.
Qed.

Lemma lasso_horizontal known_view polygon centers points view preference clicks proj inside :
  names_view known_view view -> horizontal_view view -> view_plane view proj ->
  polygon (map proj clicks) = Ok inside ->
  exists ids camera, interactive_lasso_selection known_view polygon centers points view preference clicks
    = Ok (ids, map proj clicks, camera) /\ looks view camera /\
    lasso_selects proj inside (if String.eqb preference "cell" then centers else points) ids.
Proof.
  intros K H V P. destruct (horizontal_plane _ _ H V) as (-> & A). unfold interactive_lasso_selection. destruct (set_view_looks _ _ K) as (E0 & Lk).
  rewrite E0. cbn [bind fst]. rewrite A, lasso_clicks.
  replace (map (delete_column 2) clicks) with (map first_two clicks) by (apply map_ext; intros ((x, y), z); reflexivity).
  rewrite P. cbn [bind]. do 2 eexists. split; [reflexivity|]. split; [exact Lk|].
  set (items := if String.eqb preference "cell" then centers else points).
  replace (if String.eqb preference "cell" then map (fun p => inside (first_two p)) centers else map (fun p => inside (first_two p)) points)
    with (map (fun p => inside (first_two p)) items) by (unfold items; now destruct (String.eqb preference "cell")).
  destruct (flatnonzero_spec (map (fun p => inside (first_two p)) items)) as (S & I). split; [exact S|].
  intros i. rewrite I, nth_error_map. destruct (nth_error items i) as [p|]; cbn.
  - split; [intros [= E]; now exists p|]. intros (q & [= <-] & E). now rewrite E.
  - split; [discriminate|]. intros (q & E & _). discriminate.
Qed.

Lemma lasso_unknown_view known_view polygon centers points view preference clicks :
  ~ names_view known_view view ->
  interactive_lasso_selection known_view polygon centers points view preference clicks = Err ValueError.
Proof.
  intros K. unfold interactive_lasso_selection. now rewrite (set_view_unknown _ _ K).
Qed.

Lemma lasso_xz_wrong known_view polygon :
  known_view "xz"%string = true -> unit_square_inside polygon ->
  exists centers clicks proj inside ids,
    view_plane "xz" proj /\ polygon (map proj clicks) = Ok inside /\
    interactive_lasso_selection known_view polygon centers [] "xz" "cell" clicks = Ok (ids, map proj clicks, ("xz"%string, false)) /\
    ids = [1] /\ (forall p, nth_error centers 0 = Some p -> inside (proj p) = true) /\
    (forall p, nth_error centers 1 = Some p -> inside (proj p) = false).
Proof.
  intros K (f & P & F).
  exists [(/ 2, 5, / 2); (/ 2, / 2, 5)]%R, [(0, 0, 0); (1, 0, 0); (1, 0, 1); (0, 0, 1)]%R,
    (fun p => let '(x, y, z) := p in (x, z)), f, [1].
  split; [apply vp_xz|]. split; [exact P|].
  assert (A : f (/ 2, / 2)%R = true) by (apply F; lra).
  assert (B : f (/ 2, 5)%R = false) by (destruct (f (/ 2, 5)%R) eqn:E; [apply F in E; lra|reflexivity]).
  split; [|split; [reflexivity|split; cbn; intros p [= <-]; assumption]].
  unfold interactive_lasso_selection. unfold set_view. cbn [split_view Ascii.eqb Bool.eqb]. rewrite K. cbn [bind fst]. rewrite lasso_clicks.
  change (map (delete_column (removed_axis "xz")) [(0, 0, 0); (1, 0, 0); (1, 0, 1); (0, 0, 1)]%R) with unit_square.
  rewrite P. cbn [bind]. cbn. rewrite A, B. reflexivity.
Qed.
