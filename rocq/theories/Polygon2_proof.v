(* Grouping of the holes of extract_boundary_polygons. *)
From Coq Require Import Permutation Lia.
From Verif Require Import Prelude Lines_spec Lines5_proof Polygon_model Polygon_spec.

Lemma in_permutations2 n i j : In (i, j) (permutations2 n) <-> i < n /\ j < n /\ i <> j.
Proof.
  unfold permutations2. rewrite in_flat_map. split.
  - intros (k & Hk & H). apply in_map_iff in H as (l & [= -> ->] & Hl).
    apply filter_In in Hl as [Hl Hn]. apply in_seq in Hk, Hl.
    apply negb_true_iff, Nat.eqb_neq in Hn. lia.
  - intros (Hi & Hj & Hn). exists i. split; [apply in_seq; lia|].
    apply in_map_iff. exists j. split; [reflexivity|]. apply filter_In. split; [apply in_seq; lia|].
    apply negb_true_iff, Nat.eqb_neq. exact Hn.
Qed.

Lemma is_hole_spec (holes : list (nat * nat)) i :
  existsb (fun h => fst h =? i) holes = true <-> In i (map fst holes).
Proof.
  rewrite existsb_exists, in_map_iff. split.
  - intros (h & Hh & E). apply Nat.eqb_eq in E. eauto.
  - intros (h & E & Hh). exists h. split; [exact Hh | apply Nat.eqb_eq; exact E].
Qed.

Definition good_holes (contains : nat -> nat -> bool) (n : nat) (holes : list (nat * nat)) : Prop :=
  NoDup (map fst holes) /\
  forall j i, In (j, i) holes -> j < n /\ i < n /\ contains i j = true.

Lemma add_hole_good contains n holes i j :
  i < n -> j < n -> good_holes contains n holes -> good_holes contains n (add_hole contains holes (i, j)).
Proof.
  intros Hi Hj [H1 H2]. unfold add_hole.
  destruct (existsb (fun h => fst h =? i) holes || existsb (fun h => fst h =? j) holes) eqn:E; [split; assumption|].
  apply orb_false_iff in E as [_ E].
  destruct (contains i j) eqn:C; [|split; assumption].
  assert (Nj : ~ In j (map fst holes)) by (rewrite <- is_hole_spec, E; discriminate).
  split.
  - rewrite map_app. cbn [map fst]. apply Permutation_NoDup with (l := j :: map fst holes).
    + apply Permutation_cons_append.
    + constructor; assumption.
  - intros a b H. apply in_app_or in H as [H | [[= <- <-] | []]]; [apply H2; exact H | auto].
Qed.

Lemma fold_holes_good contains n L : (forall i j, In (i, j) L -> i < n /\ j < n) -> forall holes,
  good_holes contains n holes -> good_holes contains n (fold_left (add_hole contains) L holes).
Proof.
  induction L as [|[i j] L IH]; intros HL holes H; [exact H|].
  cbn [fold_left]. apply IH; [intros; apply HL; right; assumption|].
  destruct (HL i j (or_introl eq_refl)). apply add_hole_good; assumption.
Qed.

Lemma find_holes_good contains n : good_holes contains n (find_holes contains n).
Proof.
  apply fold_holes_good.
  - intros i j H. apply in_permutations2 in H. lia.
  - split; [constructor | intros ? ? []].
Qed.

Lemma add_hole_incl contains holes ij h : In h holes -> In h (add_hole contains holes ij).
Proof.
  destruct ij as [i j]. unfold add_hole. intros H.
  destruct (_ || _); [exact H|]. destruct (contains i j); [apply in_or_app; left|]; exact H.
Qed.
Lemma fold_holes_incl contains L : forall holes h,
  In h holes -> In h (fold_left (add_hole contains) L holes).
Proof. induction L as [|x L IH]; intros holes h H; [exact H|]. cbn [fold_left]. apply IH, add_hole_incl, H. Qed.

Lemma fold_holes_found contains n i j : forall L holes, In (i, j) L ->
  (forall a b, In (a, b) L -> a < n /\ b < n) -> good_holes contains n holes ->
  contains i j = true -> (forall k, k < n -> contains k i = false) ->
  In j (map fst (fold_left (add_hole contains) L holes)).
Proof.
  induction L as [|[a b] L IH]; intros holes Hin HL Hg Hc Hi; [destruct Hin|].
  cbn [fold_left].
  assert (Hg' : good_holes contains n (add_hole contains holes (a, b))).
  { destruct (HL a b (or_introl eq_refl)). apply add_hole_good; assumption. }
  destruct Hin as [[= -> ->] | Hin].
  - assert (Hj : In j (map fst (add_hole contains holes (i, j)))).
    { unfold add_hole. destruct (existsb (fun h => fst h =? i) holes) eqn:E1.
      - exfalso. apply is_hole_spec, in_map_iff in E1 as ([x y] & E & Hx). cbn in E. subst x.
        destruct Hg as [_ Hg]. apply Hg in Hx as (_ & Hy & Hy'). rewrite Hi in Hy' by exact Hy. discriminate.
      - destruct (existsb (fun h => fst h =? j) holes) eqn:E2; cbn [orb].
        + apply is_hole_spec. exact E2.
        + rewrite Hc. rewrite map_app. apply in_or_app. right. left. reflexivity. }
    apply in_map_iff in Hj as (h & E & Hh). apply in_map_iff. exists h. split; [exact E|].
    apply fold_holes_incl, Hh.
  - apply IH; auto. intros x y H. apply HL. right. exact H.
Qed.

(* ---- appending the holes to their rings ---- *)
Definition put (ps : list (list nat)) (h : nat * nat) := upd (snd h) (nth (snd h) ps [] ++ [fst h]) ps.

Lemma put_length ps h : length (put ps h) = length ps.
Proof. apply upd_length. Qed.
Lemma puts_length hs : forall ps, length (fold_left put hs ps) = length ps.
Proof. induction hs as [|h hs IH]; intros ps; [reflexivity|]. cbn [fold_left]. rewrite IH. apply put_length. Qed.

Lemma nth_of_error {A} (l : list A) j d : nth j l d = match nth_error l j with Some x => x | None => d end.
Proof. revert j. induction l as [|x l IH]; intros [|j]; cbn; auto. Qed.

Lemma nth_upd_other {A} i (x : A) l j d : j <> i -> nth j (upd i x l) d = nth j l d.
Proof.
  intros H. rewrite !nth_of_error, upd_nth_error.
  rewrite (proj2 (Nat.eqb_neq i j)) by congruence. reflexivity.
Qed.

Lemma puts_nth hs : forall ps v, v < length ps ->
  nth v (fold_left put hs ps) [] = nth v ps [] ++ map fst (filter (fun h => snd h =? v) hs).
Proof.
  induction hs as [|h hs IH]; intros ps v Hv; [cbn; rewrite app_nil_r; reflexivity|].
  cbn [fold_left filter]. rewrite IH by (rewrite put_length; exact Hv).
  unfold put at 1. destruct (Nat.eqb_spec (snd h) v) as [E|E].
  - subst v. rewrite nth_upd by exact Hv. rewrite Nat.eqb_refl.
    cbn [map]. rewrite <- app_assoc. reflexivity.
  - rewrite nth_upd_other by congruence. reflexivity.
Qed.

Lemma concat_upd_perm (ps : list (list nat)) i x : i < length ps ->
  Permutation (concat (upd i (nth i ps [] ++ [x]) ps)) (x :: concat ps).
Proof.
  revert i. induction ps as [|p ps IH]; intros i Hi; [cbn in Hi; lia|].
  destruct i as [|i]; cbn [upd nth concat].
  - rewrite <- app_assoc. symmetry. apply Permutation_middle.
  - rewrite IH by (cbn in Hi; lia). symmetry. apply Permutation_middle.
Qed.

Lemma puts_perm hs : forall ps, (forall h, In h hs -> snd h < length ps) ->
  Permutation (concat (fold_left put hs ps)) (map fst hs ++ concat ps).
Proof.
  induction hs as [|h hs IH]; intros ps H; [reflexivity|].
  cbn [fold_left map]. rewrite IH.
  - unfold put. rewrite concat_upd_perm by (apply H; left; reflexivity).
    symmetry. apply Permutation_middle.
  - intros h' Hh'. rewrite put_length. apply H. right. exact Hh'.
Qed.

Lemma concat_filter_nonempty {A} (ls : list (list A)) :
  concat (filter (fun l => negb (length l =? 0)) ls) = concat ls.
Proof. induction ls as [|l ls IH]; [reflexivity|]. cbn [filter]. destruct l; cbn; rewrite IH; reflexivity. Qed.

Definition init_rings (holes : list (nat * nat)) (n : nat) : list (list nat) :=
  map (fun i => if existsb (fun h => fst h =? i) holes then [] else [i]) (seq 0 n).

Lemma init_concat holes n :
  concat (init_rings holes n) = filter (fun i => negb (existsb (fun h => fst h =? i) holes)) (seq 0 n).
Proof.
  unfold init_rings. induction (seq 0 n) as [|i l IH]; [reflexivity|].
  cbn [map concat filter]. destruct (existsb _ holes); cbn; rewrite IH; reflexivity.
Qed.

Lemma group_holes_eq contains n :
  group_holes contains n =
  filter (fun l => negb (length l =? 0))
    (fold_left put (find_holes contains n) (init_rings (find_holes contains n) n)).
Proof. reflexivity. Qed.

Lemma group_holes_perm contains n : Permutation (concat (group_holes contains n)) (seq 0 n).
Proof.
  rewrite group_holes_eq, concat_filter_nonempty.
  destruct (find_holes_good contains n) as [Hd Hg]. set (hs := find_holes contains n) in *.
  rewrite puts_perm.
  2:{ intros [j i] H. apply Hg in H as (_ & H & _). unfold init_rings. rewrite map_length, seq_length. exact H. }
  rewrite init_concat. apply NoDup_Permutation.
  - apply NoDup_app.
    + exact Hd.
    + apply NoDup_filter, seq_NoDup.
    + intros x Hx Hy. apply filter_In in Hy as [_ Hy]. apply is_hole_spec in Hx. rewrite Hx in Hy. discriminate.
  - apply seq_NoDup.
  - intros x. rewrite in_app_iff, filter_In, negb_true_iff, <- not_true_iff_false, is_hole_spec, !in_seq.
    split.
    + intros [H | [H _]]; [|exact H]. apply in_map_iff in H as ([j i] & <- & H). apply Hg in H as (H & _). cbn. lia.
    + intros H. destruct (in_dec Nat.eq_dec x (map fst hs)); auto.
Qed.

Lemma group_holes_nonempty contains n : Forall (fun l => l <> []) (group_holes contains n).
Proof.
  rewrite group_holes_eq. apply Forall_forall. intros l H. apply filter_In in H as [_ H].
  intros ->. discriminate.
Qed.

Lemma group_holes_flat contains n :
  (forall i j k, i < n -> j < n -> k < n -> contains i j = true -> contains j k = false) ->
  Forall (fun p => exists ring holes, p = ring :: holes /\ ring < n /\
            (forall i, i < n -> contains i ring = false) /\
            Forall (fun h => h < n /\ contains ring h = true) holes) (group_holes contains n).
Proof.
  intros Hflat. rewrite group_holes_eq. apply Forall_forall. intros p Hp.
  apply filter_In in Hp as [Hp Hne].
  destruct (find_holes_good contains n) as [Hd Hg].
  assert (Hfound : forall i j, i < n -> j < n -> contains i j = true -> In j (map fst (find_holes contains n))).
  { intros i j Hi Hj Hc.
    assert (Hij : i <> j) by (intros ->; assert (E := Hflat j j j Hj Hj Hj Hc); congruence).
    unfold find_holes. apply (fold_holes_found contains n i j).
    - apply in_permutations2. auto.
    - intros a b H. apply in_permutations2 in H. lia.
    - split; [constructor | intros ? ? []].
    - exact Hc.
    - intros k Hk. destruct (contains k i) eqn:E; [|reflexivity].
      rewrite (Hflat k i j Hk Hi Hj E) in Hc. discriminate. }
  set (hs := find_holes contains n) in *.
  apply (In_nth _ _ []) in Hp as (v & Hv & E).
  rewrite puts_length in Hv. assert (Hv' := Hv). unfold init_rings in Hv'. rewrite map_length, seq_length in Hv'.
  rewrite puts_nth in E by exact Hv.
  assert (Ei : nth v (init_rings hs n) [] = if existsb (fun h => fst h =? v) hs then [] else [v]).
  { unfold init_rings. rewrite nth_of_error, nth_error_map, nth_error_seq.
    rewrite (proj2 (Nat.ltb_lt v n) Hv'). reflexivity. }
  rewrite Ei in E.
  assert (Hh : Forall (fun h => h < n /\ contains v h = true) (map fst (filter (fun h => snd h =? v) hs))).
  { apply Forall_forall. intros h H. apply in_map_iff in H as ([j i] & <- & H).
    apply filter_In in H as [H Hi]. cbn [snd] in Hi. apply Nat.eqb_eq in Hi. subst i.
    apply Hg in H as (H1 & _ & H2). auto. }
  destruct (existsb (fun h => fst h =? v) hs) eqn:Ev.
  - exfalso. apply is_hole_spec, in_map_iff in Ev as ([j i] & E1 & Hji). cbn in E1. subst j.
    apply Hg in Hji as (_ & Hi & Hc).
    destruct (map fst (filter (fun h => snd h =? v) hs)) as [|h t].
    + cbn in E. subst p. discriminate.
    + inversion Hh as [|? ? [Hhn Hvh] _]; subst. rewrite (Hflat i v h Hi Hv' Hhn Hc) in Hvh. discriminate.
  - cbn [app] in E. subst p. eexists _, _. split; [reflexivity|]. split; [exact Hv'|]. split; [|exact Hh].
    intros i Hi. destruct (contains i v) eqn:Ec; [|reflexivity].
    apply (Hfound i v Hi Hv'), is_hole_spec in Ec. rewrite Ec in Ev. discriminate.
Qed.

(* ---- the edges ---- *)
Lemma map_nth_seq {A} (l : list A) d : map (fun i => nth i l d) (seq 0 (length l)) = l.
Proof.
  apply nth_error_ext. intros i. rewrite nth_error_map, nth_error_seq.
  destruct (Nat.ltb_spec i (length l)) as [H|H].
  - cbn. rewrite nth_of_error. destruct (nth_error l i) eqn:E; [reflexivity|].
    apply nth_error_None in E. lia.
  - cbn. symmetry. apply nth_error_None. lia.
Qed.

Lemma polygons_none {E} contains w (edges : list E) :
  extract_boundary_polygons contains w edges = None <-> edges = [].
Proof. destruct edges; cbn; split; congruence. Qed.

Lemma polygons_perm {E} contains w (edges : list E) polys :
  extract_boundary_polygons contains w edges = Some polys ->
  Permutation (concat polys) edges /\ Forall (fun p => p <> []) polys.
Proof.
  destruct edges as [|e0 edges]; [discriminate|]. cbn [extract_boundary_polygons].
  set (l := e0 :: edges). intros [= <-]. destruct w.
  - split.
    + rewrite <- concat_map. etransitivity; [apply Permutation_map, group_holes_perm|].
      change (Permutation (map (fun i => nth i l e0) (seq 0 (length l))) l).
      rewrite map_nth_seq. reflexivity.
    + apply Forall_map. eapply Forall_impl; [|apply group_holes_nonempty].
      intros [|x t] H; [congruence | discriminate].
  - split.
    + change (Permutation (concat (map (fun e => [e]) l)) l). clearbody l.
      induction l as [|x t IH]; [reflexivity|]. cbn. apply perm_skip. exact IH.
    + apply Forall_forall. intros p Hp. change (In p (map (fun e => [e]) l)) in Hp.
      apply in_map_iff in Hp as (e & <- & _). discriminate.
Qed.

Lemma polygons_without_holes {E} contains (edges : list E) polys :
  extract_boundary_polygons contains false edges = Some polys -> polys = map (fun e => [e]) edges.
Proof. destruct edges as [|e0 edges]; [discriminate|]. cbn [extract_boundary_polygons]. congruence. Qed.

Lemma polygons_flat {E} contains (edges : list E) polys :
  flat_nesting contains edges -> extract_boundary_polygons contains true edges = Some polys ->
  Forall (fun p => exists ring holes, p = ring :: holes /\ In ring edges /\
            (forall e, In e edges -> contains e ring = false) /\
            Forall (fun h => contains ring h = true) holes) polys.
Proof.
  intros Hf H. destruct edges as [|e0 edges]; [discriminate|].
  set (l := e0 :: edges) in *.
  assert (E1 : polys = map (map (fun i => nth i l e0))
                        (group_holes (fun i j => contains (nth i l e0) (nth j l e0)) (length l)))
    by (injection H; intros <-; reflexivity).
  clear H. subst polys. clearbody l.
  apply Forall_map. eapply Forall_impl; [|apply group_holes_flat].
  - intros p (ring & holes & -> & Hr & Hc & Hh). eexists _, _. split; [reflexivity|].
    split; [apply nth_In; exact Hr|]. split.
    + intros e He. apply (In_nth _ _ e0) in He as (i & Hi & <-). apply Hc, Hi.
    + apply Forall_map. eapply Forall_impl; [|exact Hh]. intros h [_ H]. exact H.
  - intros i j k Hi Hj Hk H. apply (Hf (nth i l e0) (nth j l e0) (nth k l e0)); auto using nth_In.
Qed.

(* 3 is around 0, which is around 1 and 2 *)
Definition nested (a b : nat) : bool :=
  match a, b with
  | 0, 1 | 0, 2 | 3, 0 | 3, 1 | 3, 2 => true
  | _, _ => false
  end.

Lemma polygons_nested :
  (forall a b c, nested a b = true -> nested b c = true -> nested a c = true) /\
  (forall a, nested a a = false) /\
  extract_boundary_polygons nested true [0; 1; 2; 3] = Some [[1; 2]; [3; 0]] /\ nested 1 2 = false.
Proof.
  split; [|split; [|split; reflexivity]].
  - intros a b c. destruct a as [|[|[|[|a]]]], b as [|[|[|[|b]]]], c as [|[|[|[|c]]]]; cbn; congruence.
  - intros a. destruct a as [|[|[|[|a]]]]; reflexivity.
Qed.
