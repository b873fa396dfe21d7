(* Proofs for C50-C52. *)
From Coq Require Import Reals Lra.
From Verif Require Import Prelude Surface_model Volume_spec Lines_model Lines_spec Topo2_proof.
Open Scope nat_scope.

Lemma take_picks {A} (v : list A) ids xs : take v ids = Ok xs <-> picks v ids xs.
Proof.
  unfold take, picks. rewrite mapM_Ok. unfold at_res. split; intros H.
  - induction H as [|i x l m H _ IH]; constructor; auto.
    destruct (nth_error v i); [apply Ok_inj in H; congruence|discriminate].
  - induction H as [|i x l m H _ IH]; constructor; auto. now rewrite H.
Qed.

Lemma picks_len {A} (v : list A) ids xs : picks v ids xs -> length xs = length ids.
Proof. intros H. symmetry. exact (Forall2_len _ _ _ H). Qed.

Lemma picks_fun {A} (v : list A) ids xs ys : picks v ids xs -> picks v ids ys -> xs = ys.
Proof. intros H1%take_picks H2%take_picks. rewrite H1 in H2. now apply Ok_inj. Qed.

Lemma picks_exists {A} (v : list A) ids : in_range (length v) ids -> exists xs, picks v ids xs.
Proof.
  induction ids as [|i ids IH]; intros H; [exists []; constructor|].
  destruct IH as [xs Hx]; [intros j Hj; apply H; now right|].
  destruct (nth_error v i) as [x|] eqn:E.
  - exists (x :: xs). constructor; auto.
  - apply nth_error_None in E. specialize (H i (or_introl eq_refl)). lia.
Qed.

Lemma picks_range {A} (v : list A) ids xs : picks v ids xs -> in_range (length v) ids.
Proof.
  intros H i Hi. induction H as [|j x l m H _ IH]; [easy|]. destruct Hi as [->|Hi]; auto.
  apply nth_error_Some. congruence.
Qed.

Lemma segments_nth ids k : nth_error (segments ids) k =
  match nth_error ids k, nth_error ids (S k) with Some a, Some b => Some [a; b] | _, _ => None end.
Proof.
  unfold segments. rewrite map2_nth_error. destruct ids as [|a ids]; [now destruct k|].
  now destruct k.
Qed.

Lemma segments_length ids : length (segments ids) = length ids - 1.
Proof. unfold segments. rewrite map2_length. destruct ids; cbn [tl length]; lia. Qed.

Lemma picks_app {A} (v : list A) a b xs ys : picks v a xs -> picks v b ys -> picks v (a ++ b) (xs ++ ys).
Proof. apply Forall2_app. Qed.

Lemma picks_weak {A} (u v w : list A) ids xs : picks v ids xs ->
  picks (u ++ v ++ w) (map (fun i => length u + i) ids) xs.
Proof.
  intros H. induction H as [|i x l m H _ IH]; cbn [map]; constructor; auto.
  rewrite nth_error_app2 by lia. replace (length u + i - length u) with i by lia.
  rewrite nth_error_app1; [exact H|]. apply nth_error_Some. congruence.
Qed.

Lemma picks_seq {A} (u v w : list A) : picks (u ++ v ++ w) (seq (length u) (length v)) v.
Proof.
  revert u; induction v as [|x v IH]; intros u; [constructor|]. cbn [seq length]. constructor.
  - rewrite nth_error_app2 by lia. now rewrite Nat.sub_diag.
  - specialize (IH (u ++ [x])). rewrite <- app_assoc in IH. cbn [app] in IH.
    rewrite app_length in IH. cbn [length] in IH. now rewrite Nat.add_1_r in IH.
Qed.

(* segments of a line meet the pairs of its values *)
Lemma segments_runs {A} (v : list A) ids xs : picks v ids xs ->
  runs v (segments ids) (map (fun '(x, y) => [x; y]) (pairs xs)).
Proof.
  unfold segments. intros H. induction H as [|i x l m H H' IH]; [constructor|].
  destruct H' as [|j y l m Hj H']; [constructor|]. cbn [tl map2 pairs map] in *. constructor.
  - repeat constructor; auto.
  - exact IH.
Qed.

Lemma pieces_runs {A} (b : bool) (v : list A) ids xs : picks v ids xs ->
  runs v (if b then segments ids else [ids]) (pieces b xs).
Proof.
  intros H. destruct b; [now apply segments_runs|]. unfold pieces. constructor; [auto|constructor].
Qed.

(* ---- split_lines ---- *)
Definition split_spec {P D} (as_lines : bool) (m : lmesh P D) (i : nat) (ids : list nat) (l : lmesh P D) : Prop :=
  picks (l_pts m) ids (l_pts l) /\
  runs (l_pts l) (l_cells l) (pieces as_lines (l_pts l)) /\
  (forall k, nth_error (l_cells l) k =
     if as_lines then if k + 1 <? length ids then Some [k; k + 1] else None
     else if k =? 0 then Some (seq 0 (length ids)) else None) /\
  Forall2 (fun kv kv' => fst kv' = fst kv /\ picks (snd kv) ids (snd kv')) (l_pd m) (l_pd l) /\
  Forall2 (fun kv kv' => fst kv' = fst kv /\ exists x, nth_error (snd kv) i = Some x /\
     snd kv' = repeat x (if as_lines then length ids - 1 else 1)) (l_cd m) (l_cd l).

Lemma cells_length (b : bool) (n : nat) :
  length (if b then segments (seq 0 n) else [seq 0 n]) = if b then n - 1 else 1.
Proof. destruct b; auto. now rewrite segments_length, seq_length. Qed.

Lemma split_line_spec {P D} b (m : lmesh P D) i ids l :
  split_line b m i ids = Ok l -> split_spec b m i ids l.
Proof.
  unfold split_line, bind. cbv zeta.
  destruct (take (l_pts m) ids) as [ps|] eqn:E1; [|discriminate].
  match goal with |- context [mapM ?f (l_pd m)] => destruct (mapM f (l_pd m)) as [pd|] eqn:E2 end; [|discriminate].
  match goal with |- context [mapM ?f (l_cd m)] => destruct (mapM f (l_cd m)) as [cd|] eqn:E3 end; [|discriminate].
  intros <-%Ok_inj. apply take_picks in E1. apply mapM_Ok in E2, E3.
  pose proof (picks_len _ _ _ E1) as Hl.
  unfold split_spec; cbn [l_pts l_cells l_pd l_cd]. repeat split.
  - exact E1.
  - pose proof (pieces_runs b ([] ++ ps ++ []) (seq (length (@nil P)) (length ps)) ps (picks_seq [] ps [])) as Hp.
    cbn [app length] in Hp. rewrite app_nil_r, Hl in Hp. exact Hp.
  - intros k. destruct b.
    + rewrite segments_nth, !nth_error_seq. replace (0 + k) with k by lia.
      destruct (k + 1 <? length ids) eqn:E.
      * apply Nat.ltb_lt in E. rewrite (proj2 (Nat.ltb_lt k _)), (proj2 (Nat.ltb_lt (S k) _)) by lia.
        cbn. now rewrite Nat.add_1_r.
      * apply Nat.ltb_ge in E. rewrite (proj2 (Nat.ltb_ge (S k) _)) by lia.
        destruct (k <? length ids); auto.
    + destruct k; auto. now destruct k.
  - revert E2. apply Forall2_impl. intros [k v] [k' v']; cbn [fst snd].
    destruct (take v ids) as [w|] eqn:E; [|discriminate]. intros [= <- <-].
    split; auto. now apply take_picks.
  - revert E3. apply Forall2_impl. intros [k v] [k' v']; cbn [fst snd].
    unfold at_res. destruct (nth_error v i) as [x|] eqn:E; [|discriminate]. intros [= <- <-].
    split; auto. exists x; split; auto. now rewrite cells_length.
Qed.

Lemma combine_seq_Forall2 {A B} (P : nat -> A -> B -> Prop) (l : list A) (out : list B) s :
  Forall2 (fun x y => P (fst x) (snd x) y) (combine (seq s (length l)) l) out <->
  length out = length l /\ forall i x y, nth_error l i = Some x -> nth_error out i = Some y -> P (s + i) x y.
Proof.
  revert s out; induction l as [|a l IH]; intros s out; cbn [length seq combine].
  - split; [inversion 1; subst; split; auto; intros [] ? ? ?; discriminate|].
    intros [H _]. destruct out; [constructor|discriminate].
  - split.
    + inversion 1 as [|? ? ? ? Ha Hr]; subst. apply IH in Hr as [Hl Hr]. split; [cbn; lia|].
      intros [|i] x z; cbn [nth_error].
      * intros [= <-] [= <-]. rewrite Nat.add_0_r. exact Ha.
      * intros Hx Hy. rewrite Nat.add_succ_r. exact (Hr i x z Hx Hy).
    + intros [Hl H]. destruct out as [|y out]; [discriminate|]. constructor.
      * specialize (H 0 a y eq_refl eq_refl). now rewrite Nat.add_0_r in H.
      * apply IH. split; [cbn in Hl; lia|]. intros i x z Hx Hz.
        specialize (H (S i) x z Hx Hz). now rewrite Nat.add_succ_r in H.
Qed.

Lemma split_lines_faithful {P D} b (m : lmesh P D) out :
  split_lines b m = Ok out ->
  length out = length (l_cells m) /\
  forall i ids l, nth_error (l_cells m) i = Some ids -> nth_error out i = Some l ->
  picks (l_pts m) ids (l_pts l) /\
  runs (l_pts l) (l_cells l) (pieces b (l_pts l)) /\
  (forall k, nth_error (l_cells l) k =
     if b then if k + 1 <? length ids then Some [k; k + 1] else None
     else if k =? 0 then Some (seq 0 (length ids)) else None) /\
  Forall2 (fun kv kv' => fst kv' = fst kv /\ picks (snd kv) ids (snd kv')) (l_pd m) (l_pd l) /\
  Forall2 (fun kv kv' => fst kv' = fst kv /\ exists x, nth_error (snd kv) i = Some x /\
     snd kv' = repeat x (if b then length ids - 1 else 1)) (l_cd m) (l_cd l).
Proof.
  unfold split_lines. intros H%mapM_Ok.
  apply (combine_seq_Forall2 (fun i ids l => split_line b m i ids = Ok l)) in H as [Hl H].
  split; auto. intros i ids l Hi Hj. exact (split_line_spec _ _ _ _ _ (H i ids l Hi Hj)).
Qed.

Lemma split_lines_defined {P D} b (m : lmesh P D) : wf_lines m -> exists out, split_lines b m = Ok out.
Proof.
  intros (H1 & H2 & H3). unfold split_lines. apply mapM_def. intros [i ids] Hi.
  apply in_combine_nth in Hi as (j & Hj & Hi). rewrite nth_error_seq in Hj.
  destruct (j <? length (l_cells m)) eqn:Ej; [|discriminate]. injection Hj as <-. apply Nat.ltb_lt in Ej. change (0 + j) with j.
  cbn [fst snd]. unfold split_line, bind.
  assert (Hr : in_range (length (l_pts m)) ids) by (apply H1; eapply nth_error_In; eauto).
  destruct (picks_exists (l_pts m) ids Hr) as [ps Hps%take_picks]. rewrite Hps.
  match goal with |- context [mapM ?f (l_pd m)] =>
    assert (Hd : exists r, mapM f (l_pd m) = Ok r) end.
  { apply mapM_def. intros [k v] Hk. cbn [fst snd].
    destruct (picks_exists v ids) as [w Hw%take_picks]; [rewrite (H2 k v Hk); auto|]. rewrite Hw. eauto. }
  destruct Hd as [pd ->].
  match goal with |- context [mapM ?f (l_cd m)] =>
    assert (Hd : exists r, mapM f (l_cd m) = Ok r) end.
  { apply mapM_def. intros [k v] Hk. cbn [fst snd]. unfold at_res.
    destruct (nth_error v j) eqn:E; [eauto|]. apply nth_error_None in E.
    rewrite (H3 k v Hk) in E. lia. }
  destruct Hd as [cd ->]. eauto.
Qed.

(* ---- merge_lines ---- *)
Lemma common_keys_in {D} (ds : list (list (string * list D))) k :
  In k (common_keys ds) <-> ds <> [] /\ forall d, In d ds -> In k (map fst d).
Proof.
  destruct ds as [|d ds]; cbn [common_keys]; [split; [easy|tauto]|].
  rewrite filter_In, forallb_forall. split.
  - intros [H1 H2]. split; [discriminate|]. intros d' [<-|Hd]; auto.
    specialize (H2 d' Hd). apply existsb_exists in H2 as ([k' v] & Hin & He).
    apply String.eqb_eq in He as ->. apply in_map_iff. exists (k', v); auto.
  - intros [_ H]. split; [apply H; now left|]. intros d' Hd.
    specialize (H d' (or_intror Hd)). apply in_map_iff in H as ([k' v] & He & Hin).
    apply existsb_exists. exists (k', v); split; auto. apply String.eqb_eq; auto.
Qed.

Lemma get_In {D} k (d : list (string * list D)) v : get k d = Some v -> In (k, v) d.
Proof.
  unfold get. destruct (find _ d) as [[k' v']|] eqn:E; [|discriminate]. intros [= <-].
  apply find_some in E as [E1 E2]. apply String.eqb_eq in E2 as ->. exact E1.
Qed.

Lemma get_some {D} k (d : list (string * list D)) : In k (map fst d) -> exists v, get k d = Some v.
Proof.
  intros H. unfold get. destruct (find _ d) as [[k' v']|] eqn:E; [eexists; reflexivity|].
  apply in_map_iff in H as ([k' v] & He & Hin). pose proof (find_none _ _ E _ Hin) as Hn.
  cbn in He, Hn. subst. now rewrite String.eqb_refl in Hn.
Qed.

Lemma get_Forall2 {D} (R : list D -> list D -> Prop) k (d d' : list (string * list D)) v :
  Forall2 (fun kv kv' => fst kv' = fst kv /\ R (snd kv) (snd kv')) d d' ->
  get k d = Some v -> exists v', get k d' = Some v' /\ R v v'.
Proof.
  intros H. unfold get. induction H as [|[a x] [b y] l m [Ha Hr] _ IH]; [discriminate|].
  cbn [find fst snd] in *. subst. destruct (String.eqb k a); [|exact IH].
  intros [= <-]. exists y; auto.
Qed.

Lemma get_res_Ok {D} (d : list (string * list D)) k v : get_res d k = Ok v <-> get k d = Some v.
Proof. unfold get_res. destruct (get k d); split; try discriminate; [intros ->%Ok_inj|intros [= ->]]; auto. Qed.

Lemma mapM_app {A B} (f : A -> res B) a b r : mapM f (a ++ b) = Ok r ->
  exists r1 r2, r = r1 ++ r2 /\ mapM f a = Ok r1 /\ mapM f b = Ok r2.
Proof.
  intros H%mapM_Ok. apply Forall2_app_inv_l in H as (r1 & r2 & H1 & H2 & ->).
  exists r1, r2; repeat split; now apply mapM_Ok.
Qed.

Lemma mapM_concat {A B} (f : A -> res B) ls r : mapM f (concat ls) = Ok r ->
  exists rs, r = concat rs /\ Forall2 (fun l r => mapM f l = Ok r) ls rs.
Proof.
  revert r; induction ls as [|l ls IH]; intros r H; cbn [concat] in H.
  - cbn in H. apply Ok_inj in H as <-. exists []; split; [reflexivity|constructor].
  - apply mapM_app in H as (r1 & r2 & -> & H1 & H2). destruct (IH _ H2) as (rs & -> & Hrs).
    exists (r1 :: rs); split; [reflexivity|constructor; auto].
Qed.

Lemma merged_cells_runs {P D A} b (ls : list (lmesh P D)) (vs : list (list A)) u w :
  Forall2 (fun l v => length v = length (l_pts l)) ls vs ->
  runs (u ++ concat vs ++ w) (merged_cells b (length u) ls) (flat_map (pieces b) vs).
Proof.
  intros H. revert u; induction H as [|l v ls vs Hl _ IH]; intros u; [constructor|].
  cbn [concat merged_cells flat_map]. apply Forall2_app.
  - apply pieces_runs. rewrite <- Hl, <- app_assoc. apply picks_seq.
  - specialize (IH (u ++ v)). rewrite app_length, <- app_assoc, Hl in IH.
    rewrite <- app_assoc. exact IH.
Qed.

Lemma merged_cells_runs0 {P D A} b (ls : list (lmesh P D)) (vs : list (list A)) :
  Forall2 (fun l v => length v = length (l_pts l)) ls vs ->
  runs (concat vs) (merged_cells b 0 ls) (flat_map (pieces b) vs).
Proof. intros H. pose proof (merged_cells_runs b ls vs [] [] H) as Hm. cbn [app length] in Hm. now rewrite app_nil_r in Hm. Qed.

Lemma Forall2_concat {A B} (R : A -> B -> Prop) ls ms :
  Forall2 (Forall2 R) ls ms -> Forall2 R (concat ls) (concat ms).
Proof. induction 1; cbn; [constructor|]. now apply Forall2_app. Qed.

Lemma Forall2_map_l {A B C} (R : B -> C -> Prop) (f : A -> B) l m :
  Forall2 R (map f l) m <-> Forall2 (fun x y => R (f x) y) l m.
Proof.
  split; revert m; induction l as [|a l IH]; intros m H; inversion H; subst; constructor; auto.
Qed.

Lemma Forall2_from_nth {A B} (R : A -> B -> Prop) l m : length m = length l ->
  (forall i x y, nth_error l i = Some x -> nth_error m i = Some y -> R x y) -> Forall2 R l m.
Proof.
  revert m; induction l as [|a l IH]; intros [|y m] Hl H; try discriminate; constructor.
  - exact (H 0 a y eq_refl eq_refl).
  - apply IH; [cbn in Hl; lia|]. intros i x z Hx Hz. exact (H (S i) x z Hx Hz).
Qed.

Lemma split_runs {P D} (m : lmesh P D) ls : split_lines false m = Ok ls ->
  runs (l_pts m) (l_cells m) (map l_pts ls).
Proof.
  intros H. apply split_lines_faithful in H as [Hl H]. apply Forall2_from_nth; [now rewrite map_length|].
  intros i ids y Hi Hy. rewrite nth_error_map in Hy. destruct (nth_error ls i) as [l|] eqn:E; [|discriminate].
  injection Hy as <-. exact (proj1 (H i ids l Hi E)).
Qed.

Lemma split_pd {P D} (m : lmesh P D) ls k vs : split_lines false m = Ok ls ->
  In k (map fst (l_pd m)) -> mapM (fun l => get_res (l_pd l) k) ls = Ok vs ->
  (exists w, In (k, w) (l_pd m) /\ runs w (l_cells m) vs) /\
  Forall2 (fun l v => length v = length (l_pts l)) ls vs.
Proof.
  intros H Hk Hv. apply get_some in Hk as [w Hw]. apply mapM_Ok in Hv.
  apply split_lines_faithful in H as [Hl H].
  pose proof (Forall2_len _ _ _ Hv) as Hlv. split.
  - exists w; split; [now apply get_In|]. apply Forall2_from_nth; [congruence|].
    intros i ids v Hi Hvi. destruct (nth_error ls i) as [l|] eqn:E.
    2:{ apply nth_error_None in E. assert (nth_error vs i <> None) by congruence. apply nth_error_Some in H0. lia. }
    destruct (H i ids l Hi E) as (_ & _ & _ & Hpd & _).
    apply (get_Forall2 (fun x y => picks x ids y)) with (k := k) (v := w) in Hpd as (v' & Hv' & Hp); auto.
    destruct (Forall2_nth_error _ _ _ _ _ Hv E) as (z & Hz & Hg). apply get_res_Ok in Hg.
    rewrite Hvi in Hz. injection Hz as <-. rewrite Hv' in Hg. injection Hg as <-. exact Hp.
  - apply Forall2_from_nth; [congruence|]. intros i l v E Hvi.
    destruct (nth_error (l_cells m) i) as [ids|] eqn:Hi.
    2:{ apply nth_error_None in Hi. assert (nth_error ls i <> None) by congruence. apply nth_error_Some in H0. lia. }
    destruct (H i ids l Hi E) as (Hpt & _ & _ & Hpd & _).
    apply (get_Forall2 (fun x y => picks x ids y)) with (k := k) (v := w) in Hpd as (v' & Hv' & Hp); auto.
    destruct (Forall2_nth_error _ _ _ _ _ Hv E) as (z & Hz & Hg). apply get_res_Ok in Hg.
    rewrite Hvi in Hz. injection Hz as <-. rewrite Hv' in Hg. injection Hg as <-.
    now rewrite (picks_len _ _ _ Hp), (picks_len _ _ _ Hpt).
Qed.

Lemma split_cd {P D} b (m : lmesh P D) ls k vs : split_lines false m = Ok ls ->
  In k (map fst (l_cd m)) ->
  mapM (fun l => let! v := get_res (l_cd l) k in
                 Ok (if b : bool then tile v (length (l_pts l) - 1) else v)) ls = Ok vs ->
  exists w, In (k, w) (l_cd m) /\
  forall i line v, nth_error (map l_pts ls) i = Some line -> nth_error vs i = Some v ->
    exists x, nth_error w i = Some x /\ v = repeat x (length (pieces b line)).
Proof.
  intros H Hk Hv. apply get_some in Hk as [w Hw]. apply mapM_Ok in Hv.
  apply split_lines_faithful in H as [Hl H].
  exists w; split; [now apply get_In|]. intros i line v Hi Hvi.
  rewrite nth_error_map in Hi. destruct (nth_error ls i) as [l|] eqn:E; [|discriminate]. injection Hi as <-.
  destruct (nth_error (l_cells m) i) as [ids|] eqn:Hi.
  2:{ apply nth_error_None in Hi. assert (nth_error ls i <> None) by congruence. apply nth_error_Some in H0. lia. }
  destruct (H i ids l Hi E) as (Hpt & _ & _ & _ & Hcd).
  apply (get_Forall2 (fun x y => exists z, nth_error x i = Some z /\ y = repeat z 1)) with (k := k) (v := w)
    in Hcd as (v' & Hv' & x & Hx & Hp); auto.
  destruct (Forall2_nth_error _ _ _ _ _ Hv E) as (z & Hz & Hg).
  rewrite Hvi in Hz. injection Hz as <-.
  destruct (get_res (l_cd l) k) as [v0|] eqn:Eg; [|discriminate]. apply get_res_Ok in Eg.
  rewrite Hv' in Eg. injection Eg as <-. cbn [bind] in Hg. apply Ok_inj in Hg. subst v'.
  exists x; split; auto. destruct b; [|now subst].
  rewrite <- Hg. unfold pieces. rewrite map_length.
  assert (Hpl : forall q : list P, length (pairs q) = length q - 1).
  { clear. induction q as [|a [|c q] IH]; auto. cbn [pairs length] in *. lia. }
  rewrite Hpl. clear. induction (length (l_pts l) - 1) as [|n IH]; auto. cbn [tile repeat app]. now f_equal.
Qed.

Lemma Forall2_compose {A B C} (R : A -> B -> Prop) (S : B -> C -> Prop) (T : A -> C -> Prop) l m n :
  Forall2 R l m -> Forall2 S m n -> (forall a b c, In a l -> R a b -> S b c -> T a c) -> Forall2 T l n.
Proof.
  intros H. revert n; induction H as [|a b l m Hab _ IH]; intros n Hn HT; inversion Hn; subst; constructor.
  - eapply HT; eauto. now left.
  - apply IH; auto. intros; eapply HT; eauto. now right.
Qed.
