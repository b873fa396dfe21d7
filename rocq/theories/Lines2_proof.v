(* Proofs for C51 and C52. *)
From Coq Require Import Reals Lra.
From Verif Require Import Prelude Surface_model Volume_spec Lines_model Lines_spec Topo2_proof Lines1_proof.
Open Scope nat_scope.

Definition pd_q {P D} (ls : list (lmesh P D)) (k : string) (v : list D) : Prop :=
  exists vs, mapM (fun l => get_res (l_pd l) k) ls = Ok vs /\ v = concat vs.
Definition cd_q {P D} (b : bool) (ls : list (lmesh P D)) (k : string) (v : list D) : Prop :=
  exists vs, mapM (fun l => let! v := get_res (l_cd l) k in
                   Ok (if b then tile v (length (l_pts l) - 1) else v)) ls = Ok vs /\ v = concat vs.

Lemma merge_lines_inv {P D} b (ms : list (lmesh P D)) r : merge_lines b ms = Ok r ->
  exists lss, ms <> [] /\ Forall2 (fun m ls => split_lines false m = Ok ls) ms lss /\ concat lss <> [] /\
  l_pts r = concat (map l_pts (concat lss)) /\ l_cells r = merged_cells b 0 (concat lss) /\
  Forall2 (fun k kv => fst kv = k /\ pd_q (concat lss) k (snd kv)) (common_keys (map l_pd ms)) (l_pd r) /\
  Forall2 (fun k kv => fst kv = k /\ cd_q b (concat lss) k (snd kv)) (common_keys (map l_cd ms)) (l_cd r).
Proof.
  unfold merge_lines. destruct ms as [|m0 ms0] eqn:Em; [discriminate|]. rewrite <- Em. cbv zeta.
  destruct (mapM (split_lines false) ms) as [lss|] eqn:E; [|discriminate].
  cbn [bind]. destruct (concat lss) as [|l0 ls0] eqn:El; [discriminate|].
  rewrite <- El.
  match goal with |- context [bind (mapM ?f (common_keys (map l_pd ?ms)))] =>
    destruct (mapM f (common_keys (map l_pd ms))) as [pd|] eqn:E2 end; [|discriminate]. cbn [bind].
  match goal with |- context [bind (mapM ?f (common_keys (map l_cd ?ms)))] =>
    destruct (mapM f (common_keys (map l_cd ms))) as [cd|] eqn:E3 end; [|discriminate]. cbn [bind].
  intros <-%Ok_inj. cbn [l_pts l_cells l_pd l_cd]. exists lss. apply mapM_Ok in E, E2, E3.
  split; [congruence|]. split; [exact E|]. split; [congruence|]. split; [reflexivity|]. split; [reflexivity|]. split.
  - revert E2. apply Forall2_impl. intros k [k' v] H.
    match type of H with context [mapM ?f (concat lss)] => destruct (mapM f (concat lss)) as [vs|] eqn:Ev end;
      [|discriminate]. cbn [bind] in H. injection H as <- <-. cbn [fst snd]. split; auto. exists vs; auto.
  - revert E3. apply Forall2_impl. intros k [k' v] H.
    match type of H with context [bind (mapM ?f (concat lss))] => destruct (mapM f (concat lss)) as [vs|] eqn:Ev end;
      [|discriminate]. cbn [bind] in H. injection H as <- <-. cbn [fst snd]. split; auto. exists vs; auto.
Qed.

Lemma split_pts_len {P D} (ls : list (lmesh P D)) : Forall2 (fun l v => length v = length (l_pts l)) ls (map l_pts ls).
Proof. induction ls; cbn; constructor; auto. Qed.

Lemma keys_of {D} ks (d : list (string * list D)) (Q : string -> list D -> Prop) :
  Forall2 (fun k kv => fst kv = k /\ Q k (snd kv)) ks d -> map fst d = ks /\ (forall k v, In (k, v) d -> Q k v).
Proof.
  induction 1 as [|k [k' v] ks d [He Hq] _ IH]; [split; [reflexivity|easy]|]. cbn [fst snd map] in *. subst k'.
  destruct IH as [IH1 IH2]. split; [now f_equal|]. intros k' v' [[= <- <-]|H]; auto.
Qed.

Lemma concat_map_concat {A B} (f : A -> B) lss : map f (concat lss) = concat (map (map f) lss).
Proof. apply concat_map. Qed.

(* lss: the points met along each line of each input *)
Lemma merge_lines_points {P D} b (ms : list (lmesh P D)) r : merge_lines b ms = Ok r ->
  exists lss, Forall2 (fun m ls => runs (l_pts m) (l_cells m) ls) ms lss /\
  l_pts r = concat (concat lss) /\
  runs (l_pts r) (l_cells r) (flat_map (pieces b) (concat lss)).
Proof.
  intros H. apply merge_lines_inv in H as (lss & _ & Hs & _ & Hp & Hc & _).
  exists (map (map l_pts) lss). rewrite <- concat_map. split; [|split; auto].
  - clear -Hs. induction Hs as [|m ls ms lss H _ IH]; cbn; constructor; auto. now apply split_runs.
  - rewrite Hp, Hc. apply merged_cells_runs0, split_pts_len.
Qed.

Lemma merge_lines_keys {P D} b (ms : list (lmesh P D)) r : merge_lines b ms = Ok r ->
  (forall k, In k (map fst (l_pd r)) <-> forall m, In m ms -> In k (map fst (l_pd m))) /\
  (forall k, In k (map fst (l_cd r)) <-> forall m, In m ms -> In k (map fst (l_cd m))).
Proof.
  intros H. apply merge_lines_inv in H as (lss & Hn & _ & _ & _ & _ & Hpd & Hcd).
  apply (keys_of _ _ (pd_q (concat lss))) in Hpd as [Hpd _]. apply (keys_of _ _ (cd_q b (concat lss))) in Hcd as [Hcd _]. rewrite Hpd, Hcd. split; intros k.
  - rewrite common_keys_in. split.
    + intros [_ H] m Hm. apply H. now apply in_map.
    + intros H. split; [destruct ms; [easy|discriminate]|]. intros d Hd. apply in_map_iff in Hd as (m & <- & Hm). auto.
  - rewrite common_keys_in. split.
    + intros [_ H] m Hm. apply H. now apply in_map.
    + intros H. split; [destruct ms; [easy|discriminate]|]. intros d Hd. apply in_map_iff in Hd as (m & <- & Hm). auto.
Qed.

(* vss: the data met along each line of each input *)
Lemma merge_lines_point_data {P D} b (ms : list (lmesh P D)) r k v : merge_lines b ms = Ok r ->
  In (k, v) (l_pd r) ->
  exists vss, Forall2 (fun m vs => exists w, In (k, w) (l_pd m) /\ runs w (l_cells m) vs) ms vss /\
  length v = length (l_pts r) /\
  runs v (l_cells r) (flat_map (pieces b) (concat vss)).
Proof.
  intros H Hin. pose proof (merge_lines_keys _ _ _ H) as [Hk _]. specialize (Hk k).
  apply merge_lines_inv in H as (lss & _ & Hs & _ & Hp & Hc & Hpd & _).
  apply (keys_of _ _ (pd_q (concat lss))) in Hpd as [_ Hq].
  destruct (Hq k v Hin) as (vs & Hv & ->). apply mapM_concat in Hv as (vss & -> & Hv). exists vss.
  assert (Hkm : forall m, In m ms -> In k (map fst (l_pd m))).
  { apply Hk. apply in_map_iff. exists (k, concat (concat vss)); auto. }
  split; [|split].
  - eapply Forall2_compose; [exact Hs|exact Hv|]. intros m ls vs Hm H1 H2.
    exact (proj1 (split_pd _ _ _ _ H1 (Hkm m Hm) H2)).
  - assert (Hl : Forall2 (fun l v => length v = length (l_pts l)) (concat lss) (concat vss)).
    { apply Forall2_concat. clear -Hs Hv Hkm. revert vss Hv.
      induction Hs as [|m ls ms lss H _ IH]; intros vss Hv; inversion Hv; subst; constructor.
      - eapply split_pd; eauto. apply Hkm; now left.
      - apply IH; auto. intros; apply Hkm; now right. }
    rewrite Hp. clear -Hl. induction Hl as [|l v ls vs H _ IH]; auto.
    cbn [concat map]. rewrite !app_length. lia.
  - rewrite Hc. apply merged_cells_runs0. apply Forall2_concat. clear -Hs Hv Hkm. revert vss Hv.
    induction Hs as [|m ls ms lss H _ IH]; intros vss Hv; inversion Hv; subst; constructor.
    + eapply split_pd; eauto. apply Hkm; now left.
    + apply IH; auto. intros; apply Hkm; now right.
Qed.

(* every piece of line number i of a mesh has its value number i *)
Lemma merge_lines_cell_data {P D} b (ms : list (lmesh P D)) r k v : merge_lines b ms = Ok r ->
  In (k, v) (l_cd r) ->
  exists lss vss,
  Forall2 (fun m ls => runs (l_pts m) (l_cells m) ls) ms lss /\
  Forall2 (fun m xs => exists w, In (k, w) (l_cd m) /\ xs = firstn (length (l_cells m)) w /\
                                 length xs = length (l_cells m)) ms vss /\
  v = concat (map2 (fun x line => repeat x (length (pieces b line))) (concat vss) (concat lss)) /\
  length v = length (l_cells r).
Proof.
  intros H Hin. pose proof (merge_lines_keys _ _ _ H) as [_ Hk]. specialize (Hk k).
  apply merge_lines_inv in H as (lss & _ & Hs & _ & Hp & Hc & _ & Hcd).
  apply (keys_of _ _ (cd_q b (concat lss))) in Hcd as [_ Hq].
  destruct (Hq k v Hin) as (vs & Hv & ->). apply mapM_concat in Hv as (vss & -> & Hv).
  assert (Hkm : forall m, In m ms -> In k (map fst (l_cd m))).
  { apply Hk. apply in_map_iff. exists (k, concat (concat vss)); auto. }
  clear Hk Hq Hin. rewrite Hc. exists (map (map l_pts) lss).
  assert (HX : exists xss, Forall2 (fun m xs => exists w, In (k, w) (l_cd m) /\ xs = firstn (length (l_cells m)) w /\
                                 length xs = length (l_cells m)) ms xss /\
     concat vss = map2 (fun x line => repeat x (length (pieces b line))) (concat xss) (concat (map (map l_pts) lss)) /\
     length (concat xss) = length (concat lss)).
  { clear -Hs Hv Hkm. revert vss Hv. induction Hs as [|m ls ms lss H _ IH]; intros vss Hv; inversion Hv; subst.
    - exists []; repeat split; constructor.
    - rename y into vs. destruct (IH (fun m' Hm => Hkm m' (or_intror Hm)) _ H4) as (xss & H5 & H6 & H7).
      destruct (split_cd b m ls k vs H (Hkm m (or_introl eq_refl)) H2) as (w & Hw & Hx).
      pose proof (split_lines_faithful _ _ _ H) as [Hl _].
      assert (Hlv : length vs = length ls) by (apply mapM_Ok in H2; symmetry; exact (Forall2_len _ _ _ H2)).
      assert (Hlw : length (firstn (length (l_cells m)) w) = length (l_cells m)).
      { rewrite firstn_length. destruct (length (l_cells m)) as [|n] eqn:En; [lia|].
        destruct (nth_error ls n) as [l|] eqn:E1; [|apply nth_error_None in E1; lia].
        destruct (nth_error vs n) as [x|] eqn:E2; [|apply nth_error_None in E2; lia].
        destruct (Hx n (l_pts l) x) as (y & Hy & _); [now rewrite nth_error_map, E1|auto|].
        assert (nth_error w n <> None) by congruence. apply nth_error_Some in H0. lia. }
      exists (firstn (length (l_cells m)) w :: xss). split; [|split].
      + constructor; auto. exists w; auto.
      + cbn [concat map]. rewrite H6.
        assert (Hm2 : forall {A B C} (f : A -> B -> C) a b a' b', length a = length b ->
          map2 f (a ++ a') (b ++ b') = map2 f a b ++ map2 f a' b').
        { clear. induction a as [|x a IH]; intros [|y b] a' b' He; try discriminate; auto.
          cbn [app map2]. rewrite IH; auto. }
        rewrite Hm2 by (rewrite map_length; lia). f_equal.
        apply nth_error_ext. intros i. rewrite map2_nth_error.
        destruct (nth_error (map l_pts ls) i) as [line|] eqn:E1.
        * assert (Hi : i < length ls).
          { rewrite <- (map_length l_pts). apply nth_error_Some. congruence. }
          destruct (nth_error vs i) as [x|] eqn:E2; [|apply nth_error_None in E2; lia].
          destruct (Hx i line x E1 E2) as (y & Hy & ->).
          rewrite <- (firstn_skipn (length (l_cells m)) w), nth_error_app1 in Hy by lia.
          now rewrite Hy.
        * assert (nth_error vs i = None) by (apply nth_error_None; apply nth_error_None in E1; rewrite map_length in E1; lia).
          rewrite H0. now destruct (nth_error (firstn _ w) i).
      + cbn [concat]. rewrite !app_length. lia. }
  destruct HX as (xss & H1 & H2 & H3). exists xss. split; [|split; [exact H1|split]].
  - clear -Hs. induction Hs as [|m ls ms lss H _ IH]; cbn; constructor; auto. now apply split_runs.
  - now rewrite H2.
  - rewrite H2. rewrite <- concat_map. rewrite (concat_map l_pts) in *.
    assert (Hr := merged_cells_runs0 b (concat lss) (map l_pts (concat lss)) (split_pts_len _)).
    apply Forall2_len in Hr. rewrite Hr. rewrite <- concat_map. clear -H3. revert H3. generalize (concat xss) as xs.
    induction (concat lss) as [|l ls IH]; intros [|x xs] Hl; try discriminate; auto.
    cbn [map map2 concat flat_map]. rewrite !app_length, repeat_length. rewrite IH; auto.
Qed.

Lemma merge_lines_defined {P D} b (ms : list (lmesh P D)) :
  (forall m, In m ms -> wf_lines m) -> (exists m, In m ms /\ l_cells m <> []) ->
  exists r, merge_lines b ms = Ok r.
Proof.
  intros Hw (m0 & Hm0 & Hc0). unfold merge_lines.
  destruct (mapM_def (split_lines false) ms) as [lss Hl].
  { intros m Hm. apply split_lines_defined; auto. }
  destruct ms as [|m1 ms1] eqn:Em; [easy|]. rewrite <- Em in *. rewrite Hl. cbn [bind].
  apply mapM_Ok in Hl.
  assert (Hne : concat lss <> []).
  { clear -Hl Hm0 Hc0. induction Hl as [|m ls ms lss H _ IH]; [easy|]. cbn [concat].
    destruct Hm0 as [->|Hm0].
    - apply split_lines_faithful in H as [H _]. destruct ls; [|discriminate].
      destruct (l_cells m0); [easy|discriminate].
    - intros He. apply app_eq_nil in He as [_ He]. now apply IH. }
  destruct (concat lss) as [|l0 ls0] eqn:El; [easy|]. rewrite <- El.
  assert (Hk : forall l, In l (concat lss) -> exists m, In m ms /\
     map fst (l_pd l) = map fst (l_pd m) /\ map fst (l_cd l) = map fst (l_cd m)).
  { clear -Hl. intros l Hin. induction Hl as [|m ls ms lss H _ IH]; [easy|]. cbn [concat] in Hin.
    apply in_app_iff in Hin as [Hin|Hin].
    - exists m; split; [now left|]. apply split_lines_faithful in H as [Hlen H].
      apply In_nth_error in Hin as [i Hi].
      destruct (nth_error (l_cells m) i) as [ids|] eqn:E.
      2:{ apply nth_error_None in E. assert (nth_error ls i <> None) by congruence. apply nth_error_Some in H0. lia. }
      destruct (H i ids l E Hi) as (_ & _ & _ & H1 & H2). split.
      + clear -H1. induction H1 as [|x y ? ? [H _] _ IH]; cbn; congruence.
      + clear -H2. induction H2 as [|x y ? ? [H _] _ IH]; cbn; congruence.
    - destruct (IH Hin) as (m' & Hm & Hr). exists m'; split; [now right|auto]. }
  match goal with |- context [bind (mapM ?f (common_keys (map l_pd ms)))] =>
    destruct (mapM_def f (common_keys (map l_pd ms))) as [pd Hpd] end.
  { intros k Hkk. apply common_keys_in in Hkk as [_ Hkk].
    match goal with |- context [mapM ?f (concat lss)] => destruct (mapM_def f (concat lss)) as [r Hr] end.
    - intros l Hin. destruct (Hk l Hin) as (m & Hm & He & _).
      destruct (get_some k (l_pd l)) as [v Hv]; [rewrite He; apply Hkk; now apply in_map|].
      exists v. now apply get_res_Ok.
    - rewrite Hr. eexists; reflexivity. }
  rewrite Hpd. cbn [bind].
  match goal with |- context [bind (mapM ?f (common_keys (map l_cd ms)))] =>
    destruct (mapM_def f (common_keys (map l_cd ms))) as [cd Hcd] end.
  { intros k Hkk. apply common_keys_in in Hkk as [_ Hkk].
    match goal with |- context [bind (mapM ?f (concat lss))] => destruct (mapM_def f (concat lss)) as [r Hr] end.
    - intros l Hin. destruct (Hk l Hin) as (m & Hm & _ & He).
      destruct (get_some k (l_cd l)) as [v Hv]; [rewrite He; apply Hkk; now apply in_map|].
      apply get_res_Ok in Hv. rewrite Hv. eexists; reflexivity.
    - rewrite Hr. eexists; reflexivity. }
  rewrite Hcd. cbn [bind]. eexists; reflexivity.
Qed.

Lemma merge_lines_errors {P D} b : @merge_lines P D b [] = Err IndexError /\
  forall ms : list (lmesh P D), ms <> [] -> (forall m, In m ms -> l_cells m = []) ->
  merge_lines b ms = Err ValueError.
Proof.
  split; [reflexivity|]. intros ms Hn H.
  assert (Hs : forall ms' : list (lmesh P D), (forall m, In m ms' -> l_cells m = []) ->
    exists lss, mapM (split_lines false) ms' = Ok lss /\ concat lss = []).
  { clear. induction ms' as [|m ms IH]; intros H; [exists []; auto|].
    destruct IH as (lss & H1 & H2); [intros; apply H; now right|].
    exists ([] :: lss). split; [|exact H2]. cbn [mapM].
    assert (E : split_lines false m = Ok []) by (unfold split_lines; now rewrite (H m (or_introl eq_refl))).
    rewrite E. cbn [bind]. now rewrite H1. }
  destruct (Hs ms H) as (lss & H1 & H2). unfold merge_lines.
  destruct ms as [|m ms]; [easy|]. cbv zeta. rewrite H1. cbn [bind]. now rewrite H2.
Qed.

(* merging the lines of a mesh *)
Lemma merge_split {P D} (m : lmesh P D) b c ls r : split_lines b m = Ok ls -> merge_lines c ls = Ok r ->
  exists pss, runs (l_pts m) (l_cells m) pss /\
  runs (l_pts r) (l_cells r) (flat_map (pieces c) (flat_map (pieces b) pss)).
Proof.
  intros H1 H2. apply merge_lines_points in H2 as (lss & H3 & _ & H4).
  assert (Hr : runs (l_pts m) (l_cells m) (map l_pts ls)).
  { apply split_lines_faithful in H1 as [Hl H1]. apply Forall2_from_nth; [now rewrite map_length|].
    intros i ids y Hi Hy. rewrite nth_error_map in Hy. destruct (nth_error ls i) as [l|] eqn:E; [|discriminate].
    injection Hy as <-. exact (proj1 (H1 i ids l Hi E)). }
  exists (map l_pts ls). split; [exact Hr|].
  assert (E : concat lss = flat_map (pieces b) (map l_pts ls)).
  { rewrite flat_map_concat_map, map_map. f_equal.
    assert (Hq : forall l, In l ls -> runs (l_pts l) (l_cells l) (pieces b (l_pts l))).
    { apply split_lines_faithful in H1 as [Hl H1]. intros l Hin. apply In_nth_error in Hin as [i Hi].
      destruct (nth_error (l_cells m) i) as [ids|] eqn:E.
      2:{ apply nth_error_None in E. assert (nth_error ls i <> None) by congruence. apply nth_error_Some in H. lia. }
      exact (proj1 (proj2 (H1 i ids l E Hi))). }
    clear -H3 Hq. induction H3 as [|l q ls lss H _ IH]; auto. cbn [map]. f_equal.
    - specialize (Hq l (or_introl eq_refl)). revert q H Hq. generalize (pieces b (l_pts l)) as q'.
      induction (l_cells l) as [|c cs IHc]; intros q' q H H'; inversion H; inversion H'; subst; auto.
      f_equal; [eapply picks_fun; eauto|]. apply IHc; auto.
    - apply IH. intros; apply Hq; now right. }
  now rewrite E in H4.
Qed.

(* ---- quadraticize ---- *)
Lemma mid_midpoint a b : midpoint a b (mid a b).
Proof. destruct a as [[ax ay] az], b as [[bx b_y] bz]. unfold midpoint, mid. repeat split; field. Qed.

Lemma ring_edges_map2 {A} (f : list A) : ring_edges f = map2 pair f (roll_left f).
Proof.
  destruct f as [|x l]; auto. cbn [ring_edges roll_left].
  assert (H : forall (y : A) l, pairs (y :: l ++ [x]) = map2 pair (y :: l) (l ++ [x])).
  { clear. intros y l; revert y; induction l as [|z l IH]; intros y; auto.
    cbn [app]. change (pairs (y :: z :: l ++ [x])) with ((y, z) :: pairs (z :: l ++ [x])). rewrite IH. reflexivity. }
  apply H.
Qed.

Lemma roll_left_length {A} (l : list A) : length (roll_left l) = length l.
Proof. destruct l; cbn; auto. rewrite app_length. cbn. lia. Qed.

Lemma roll_left_picks {A} (v : list A) ids xs : picks v ids xs -> picks v (roll_left ids) (roll_left xs).
Proof. intros H. destruct H; [constructor|]. cbn. apply Forall2_app; auto. Qed.

Lemma Forall2_map2 {A B C D E} (R : C -> E -> Prop) (f : A -> B -> C) (g : D -> D -> E) a b xs ys
  (Q1 : A -> D -> Prop) (Q2 : B -> D -> Prop) :
  Forall2 Q1 a xs -> Forall2 Q2 b ys ->
  (forall x y u v, Q1 x u -> Q2 y v -> R (f x y) (g u v)) -> Forall2 R (map2 f a b) (map2 g xs ys).
Proof.
  intros H1. revert b ys; induction H1 as [|x u a xs Hx _ IH]; intros b ys H2 HR; [constructor|].
  destruct H2 as [|y v b ys Hy H2]; [constructor|]. cbn [map2]. constructor; auto.
Qed.

Lemma quad_cells_spec points : forall cells n cs new, quad_cells points n cells = Ok (cs, new) ->
  exists fresh, concat fresh = seq n (length new) /\ length fresh = length cells /\
  Forall2 (fun tc tcf => (fst tc = 5 /\ fst (fst tcf) = 22 \/ fst tc = 9 /\ fst (fst tcf) = 23) /\
     snd (fst tcf) = snd tc ++ snd tcf /\
     Forall2 (fun '(u, v) f => exists a b p, nth_error points u = Some a /\ nth_error points v = Some b /\
         n <= f /\ nth_error new (f - n) = Some p /\ midpoint a b p)
       (ring_edges (snd tc)) (snd tcf)) cells (combine cs fresh).
Proof.
  induction cells as [|[t ids] cells IH]; intros n cs new H; cbn [quad_cells] in H.
  - injection H as <- <-. exists []; repeat split; constructor.
  - destruct (quadratic_type t) as [t'|] eqn:Et; [|discriminate].
    destruct (take points ids) as [ps|] eqn:Ep; [|discriminate]. cbn [bind] in H.
    set (nw := map2 mid ps (roll_left ps)) in *.
    destruct (quad_cells points (n + length nw) cells) as [[cs' new']|] eqn:E; [|discriminate].
    cbn [bind fst snd] in H. injection H as <- <-. apply take_picks in Ep.
    destruct (IH _ _ _ E) as (fresh & H1 & H2 & H3). exists (seq n (length nw) :: fresh).
    split; [|split].
    + cbn [concat]. rewrite H1, app_length, seq_app. reflexivity.
    + cbn; lia.
    + cbn [combine]. constructor.
      * cbn [fst snd]. split; [|split; auto].
        { unfold quadratic_type in Et. destruct t as [|[|[|[|[|[|[|[|[|[|]]]]]]]]]]; try discriminate;
            injection Et as <-; auto. }
        assert (HL : Forall2 (fun e p => exists a b, nth_error points (fst e) = Some a /\ nth_error points (snd e) = Some b /\
             midpoint a b p) (ring_edges ids) nw).
        { rewrite ring_edges_map2. unfold nw. eapply Forall2_map2; [exact Ep|exact (roll_left_picks _ _ _ Ep)|].
          cbn [fst snd]. intros x y u v Hx Hy. exists u, v. repeat split; auto. apply mid_midpoint. }
        apply Forall2_from_nth; [rewrite seq_length; symmetry; exact (Forall2_len _ _ _ HL)|].
        intros i [u v] f He Hf. rewrite nth_error_seq in Hf. destruct (i <? length nw) eqn:Ei; [|discriminate].
        injection Hf as <-. apply Nat.ltb_lt in Ei.
        destruct (Forall2_nth_error _ _ _ _ _ HL He) as (p & Hp & a & b & Ha & Hb & Hm).
        exists a, b, p. repeat split; auto; [lia|]. replace (n + i - n) with i by lia.
        rewrite nth_error_app1 by auto. exact Hp.
      * revert H3. apply Forall2_impl. intros tc tcf (Ha & Hb & Hc). split; auto. split; auto.
        revert Hc. apply Forall2_impl. intros [u v] f (a & b & p & H4 & H5 & H6 & H7 & H8).
        exists a, b, p. repeat split; auto; [lia|]. rewrite nth_error_app2 by lia. rewrite <- H7. f_equal. lia.
Qed.

(* fresh: the new ids of each cell *)
Lemma quadraticize_spec points cells points' cells' : quadraticize points cells = Ok (points', cells') ->
  exists new fresh, points' = points ++ new /\
  length cells' = length cells /\ concat fresh = seq (length points) (length new) /\
  Forall2 (fun tc tcf => (fst tc = 5 /\ fst (fst tcf) = 22 \/ fst tc = 9 /\ fst (fst tcf) = 23) /\
     snd (fst tcf) = snd tc ++ snd tcf /\
     Forall2 (fun '(u, v) f => exists a b p, nth_error points u = Some a /\ nth_error points v = Some b /\
         nth_error points' f = Some p /\ midpoint a b p)
       (ring_edges (snd tc)) (snd tcf)) cells (combine cells' fresh).
Proof.
  unfold quadraticize. destruct cells as [|c0 cells0] eqn:Ec; [discriminate|]. rewrite <- Ec.
  destruct (quad_cells points (length points) cells) as [[cs new]|] eqn:E; [|discriminate].
  cbn [bind fst snd]. intros [= <- <-].
  assert (Hlen : length cs = length cells).
  { clear -E. revert E. generalize (length points) at 1 as n. intros n. revert n cs new.
    induction cells as [|[t ids] cells IH]; intros n cs new H; cbn [quad_cells] in H.
    - now injection H as <- <-.
    - destruct (quadratic_type t) as [t'|]; [|discriminate]. destruct (take points ids) as [ps|]; [|discriminate]. cbn [bind] in H.
      match type of H with context [quad_cells points ?k cells] => destruct (quad_cells points k cells) as [[a b]|] eqn:E end; [|discriminate].
      cbn [bind fst snd] in H. injection H as <- <-. cbn. now rewrite (IH _ _ _ E). }
  destruct (quad_cells_spec _ _ _ _ _ E) as (fresh & H1 & H2 & H3).
  exists new, fresh. repeat split; auto. revert H3. apply Forall2_impl. intros tc tcf (Ha & Hb & Hc).
  split; auto. split; auto. revert Hc. apply Forall2_impl.
  intros [u v] f (a & b & p & H4 & H5 & H6 & H7 & H8). exists a, b, p. repeat split; auto.
  now rewrite nth_error_app2 by lia.
Qed.

Lemma quadraticize_iff points cells : (exists r, quadraticize points cells = Ok r) <->
  cells <> [] /\ forall t ids, In (t, ids) cells -> (t = 5 \/ t = 9) /\ in_range (length points) ids.
Proof.
  assert (H : forall cells n, (exists r, quad_cells points n cells = Ok r) <->
    forall t ids, In (t, ids) cells -> (t = 5 \/ t = 9) /\ in_range (length points) ids).
  { clear. induction cells as [|[t ids] cells IH]; intros n; cbn [quad_cells].
    - split; [easy|eauto].
    - assert (Ht : (exists t', quadratic_type t = Some t') <-> t = 5 \/ t = 9).
      { split; [|intros [->| ->]; cbn; eauto]. intros [t' H].
        unfold quadratic_type in H. destruct t as [|[|[|[|[|[|[|[|[|[|]]]]]]]]]]; try discriminate; auto. }
      destruct (quadratic_type t) as [t'|].
      2:{ split; [intros [r Hr]; discriminate|]. intros H.
          destruct (proj2 Ht (proj1 (H t ids (or_introl eq_refl)))); discriminate. }
      split.
      + intros [r Hr]. destruct (take points ids) as [ps|] eqn:Ep; [|discriminate]. cbn [bind] in Hr.
        match type of Hr with context [quad_cells points ?k cells] => destruct (quad_cells points k cells) as [q|] eqn:E end; [|discriminate].
        assert (Hx : exists r, quad_cells points (n + length (map2 mid ps (roll_left ps))) cells = Ok r) by eauto.
        pose proof (proj1 (IH _) Hx) as Hy. intros t0 ids0 [[= <- <-]|Hin]; [|auto]. split; [apply Ht; eauto|].
        apply take_picks in Ep. eapply picks_range; eauto.
      + intros H. destruct (picks_exists points ids) as [ps Hp%take_picks]; [apply (H t ids); now left|].
        rewrite Hp. cbn [bind].
        destruct (proj2 (IH (n + length (map2 mid ps (roll_left ps))))) as [q Hq].
        { intros; apply H; now right. }
        rewrite Hq. cbn [bind]. eauto. }
  unfold quadraticize. destruct cells as [|c0 cells0] eqn:Ec.
  - split; [intros [r Hr]; discriminate|tauto].
  - rewrite <- Ec. rewrite <- (H cells (length points)). split.
    + intros [r Hr]. split; [congruence|]. destruct (quad_cells points (length points) cells); eauto. discriminate.
    + intros [_ [r Hr]]. rewrite Hr. cbn [bind]. eauto.
Qed.

Lemma quadraticize_unsupported points pre t ids post :
  (forall t' ids', In (t', ids') pre -> (t' = 5 \/ t' = 9) /\ in_range (length points) ids') ->
  t <> 5 -> t <> 9 ->
  quadraticize points (pre ++ (t, ids) :: post) = Err NotImplementedError.
Proof.
  intros Hp H5 H9. unfold quadraticize.
  destruct (pre ++ (t, ids) :: post) as [|c0 cs] eqn:E; [now destruct pre|]. rewrite <- E. clear E c0 cs.
  assert (H : forall n, quad_cells points n (pre ++ (t, ids) :: post) = Err NotImplementedError).
  { induction pre as [|[t' ids'] pre IH]; intros n; cbn [app quad_cells].
    - replace (quadratic_type t) with (@None nat); auto.
      destruct t as [|[|[|[|[|[|[|[|[|[|]]]]]]]]]]; auto; lia.
    - destruct (Hp t' ids' (or_introl eq_refl)) as [[->| ->] Hr]; cbn [quadratic_type];
        destruct (picks_exists points ids' Hr) as [ps Hps%take_picks]; rewrite Hps; cbn [bind];
        rewrite IH; auto; intros; apply Hp; now right. }
  now rewrite H.
Qed.
