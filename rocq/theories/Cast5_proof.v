From Coq Require Import Reals Lra Lia Sorted Permutation.
From Verif Require Import Prelude RealAux Perc_model Surface_model Volume_model Lines_model Objects_model Cast_model Cast_spec Topo2_proof Lines1_proof Cast1_proof Cast2_proof Cast3_proof Cast4_proof.
Open Scope R_scope.

(* ---- ray_cast ---- *)
Lemma ray_mixed {A} s (orig : list A) find own a b tol ma : su_faces s <> [] -> su_lines s <> [] ->
  ray_cast true s orig find own a b tol ma = Err ValueError.
Proof.
  intros Hf Hl. unfold ray_cast. destruct (su_faces s); [contradiction|]. destruct (su_lines s); [contradiction|]. reflexivity.
Qed.

Lemma ray_total {A} poly s (orig : list A) find own a b tol ma :
  (poly = true -> su_faces s = [] \/ su_lines s = []) ->
  (forall i, In i (find a b) -> (i < length (if Nat.eqb (length (su_faces s)) 0 then su_lines s else su_faces s))%nat) ->
  (poly = false -> forall i, In i (find a b) -> (i < length orig)%nat) ->
  exists r, ray_cast poly s orig find own a b tol ma = Ok r.
Proof.
  intros H1 H2 H3. unfold ray_cast. cbn zeta.
  replace (poly && _ && _)%bool with false.
  2:{ symmetry. destruct poly; [|reflexivity]. destruct (H1 eq_refl) as [-> | ->]; cbn; [reflexivity|now rewrite andb_false_r]. }
  destruct (length (id_sort (find a b)) =? 0)%nat; [eauto|].
  assert (AT : forall X (l : list X), (forall i, In i (find a b) -> (i < length l)%nat) ->
    exists r, mapM (fun i => let! f := at_res l i in Ok (i, f)) (id_sort (find a b)) = Ok r /\ (forall p, In p r -> In (fst p) (find a b))).
  { intros X l Hl. destruct (mapM_def (fun i => let! f := at_res l i in Ok (i, f)) (id_sort (find a b))) as [r Hr].
    - intros i Hi. rewrite id_sort_in in Hi. specialize (Hl i Hi). unfold at_res. destruct (nth_error l i) eqn:E; [cbn; eauto|]. apply nth_error_None in E. lia.
    - exists r. split; [exact Hr|]. apply mapM_pair in Hr as [Hr _]. intros p Hp. rewrite <- id_sort_in, <- Hr. now apply in_map. }
  match goal with |- ex (fun r => bind ?K ?G = Ok r) => assert (KE : exists kept, K = Ok kept /\ forall p, In p kept -> In (fst p) (find a b)) end.
  { destruct (length (su_faces s) =? 0)%nat; cbn [negb].
    - destruct (AT _ _ H2) as (r & -> & Hr). cbn [bind]. eexists. split; [reflexivity|]. intros p Hp. apply in_map_iff in Hp as (q & <- & Hq). cbn [fst]. now apply Hr.
    - destruct (AT _ _ H2) as (r & -> & Hr). cbn [bind]. eexists. split; [reflexivity|]. intros p Hp. apply in_map_iff in Hp as (q & <- & Hq). apply filter_In in Hq as [Hq _]. cbn [fst]. now apply Hr. }
  destruct KE as (kept & -> & Hk). cbn [bind]. destruct (length kept =? 0)%nat; [eauto|].
  match goal with |- ex (fun r => bind (mapM ?g kept) ?G = Ok r) => destruct (mapM_def g kept) as [r Hr] end; [|rewrite Hr; cbn; eauto].
  intros p Hp. destruct poly; [cbn; eauto|]. specialize (H3 eq_refl _ (Hk _ Hp)). unfold at_res. destruct (nth_error orig (fst p)) eqn:E; [cbn; eauto|].
  apply nth_error_None in E. lia.
Qed.

Lemma ray_lines_selected {A} poly s (orig : list A) find own a b tol ma r : ray_cast poly s orig find own a b tol ma = Ok r -> su_faces s = [] ->
  match r with
  | None => find a b = []
  | Some rows => Permutation (map (fun row => fst (fst row)) rows) (find a b) /\ StronglySorted le (map (fun row => fst (fst row)) rows) /\
      forall i x w, In (i, x, w) rows -> if poly then w = own i else nth_error orig i = Some w
  end.
Proof.
  intros H Hf. apply cast_inv in H as (kept & Hk & Hr). rewrite Hf in Hk. cbn [length Nat.eqb negb] in Hk. destruct Hk as (es & Hes & _ & ->).
  destruct r as [rows|].
  - destruct Hr as (_ & Hr & Hw). rewrite <- (map_map fst fst), Hr, map_map. cbn [fst]. change (map (fun x : nat * (pt * pt) => fst x) es) with (map fst es). rewrite Hes. split; [apply id_sort_perm|]. split; [apply id_sort_sorted|exact Hw].
  - destruct es; [|discriminate]. cbn in Hes. symmetry in Hes. apply Permutation_nil. rewrite <- Hes. apply id_sort_perm.
Qed.

Lemma ray_parallel : exists s a b, su_faces s = [] /\ su_lines s = [(px 0, px 2)] /\ a = px (-1) /\ b = px 1 /\
  forall tol ma, ray_cast true s [] (fun _ _ => [0%nat]) (fun i => i) a b tol ma = Ok (Some [(0%nat, None, 0%nat)]).
Proof.
  exists (mkSurf [] [(px 0, px 2)]), (px (-1)), (px 1). repeat split; auto. intros tol ma.
  destruct (ray_total true (mkSurf [] [(px 0, px 2)]) [] (fun _ _ => [0%nat]) (fun i : nat => i) (px (-1)) (px 1) tol ma) as [r Hr].
  - now left.
  - intros i [<-|[]]. cbn. lia.
  - discriminate.
  - rewrite Hr. f_equal. pose proof (ray_lines_selected _ _ _ _ _ _ _ _ _ _ Hr eq_refl) as K. destruct r as [rows|]; [|discriminate].
    destruct K as (K1 & _ & K3). assert (L : length rows = 1%nat) by (apply Permutation_length in K1; rewrite map_length in K1; exact K1).
    destruct rows as [|[[i ox] w] [|]]; try discriminate. cbn in K1. apply Permutation_length_1 in K1. subst i.
    specialize (K3 _ _ _ (or_introl eq_refl)). cbn in K3. subst w.
    assert (Hne : px (-1) <> px 1) by (intros [= E]; lra).
    destruct (rays_on_lines _ _ _ _ _ _ _ _ _ _ Hr eq_refl Hne 0%nat ox 0%nat (or_introl eq_refl)) as (p & q & Hpq & _ & Hn).
    cbn in Hpq. injection Hpq as <- <-. rewrite Hn; [reflexivity|]. unfold cross, sub3, px. repeat apply f_equal2; ring.
Qed.

(* ---- intersect_polyline ---- *)
Lemma apart_shift tol p q c : apart tol p q -> apart tol (add3 p c) (add3 q c).
Proof.
  destruct p as [[x y] z], q as [[x' y'] z'], c as [[u v] w]. unfold apart, add3.
  replace (x + u - (x' + u)) with (x - x') by ring. replace (y + v - (y' + v)) with (y - y') by ring. now replace (z + w - (z' + w)) with (z - z') by ring.
Qed.
Lemma dist_shift p q c : dist (add3 p c) (add3 q c) = dist p q.
Proof.
  destruct p as [[x y] z], q as [[x' y'] z'], c as [[u v] w]. unfold dist, add3. f_equal. ring.
Qed.
Lemma add_sub p c : add3 (sub3 p c) c = p.
Proof. destruct p as [[x y] z], c as [[u v] w]. unfold add3, sub3. repeat match goal with |- (_, _) = (_, _) => apply f_equal2 end; ring. Qed.

Section poly.
Context {F D : Type}.
Variables (o : oracles F) (ml tol : R) (ia : bool) (fuel : nat) (ib pass : bool) (c : pt) (lines : list (list pt)) (data : list (string * list D)).

Lemma poly_inv ps ls cs d : intersect_polyline o ml tol ia fuel ib pass c lines data = Some (Ok (ps, ls, cs, d)) ->
  exists pts rest ps0, lines = pts :: rest /\ crossings o ml tol ia fuel ib (map (fun p => sub3 p c) pts) = Some (Ok (ps0, ls, cs)) /\
    (2 <= length ps0)%nat /\ ps = map (fun p => add3 p c) ps0 /\
    (if pass then mapM (fun kv => let! v := take (snd kv) ls in Ok (fst kv, v))
       (filter (fun kv => negb (existsb (String.eqb (fst kv)) ["Length"; "vtkOriginalCellIds"; "IntersectedCellIds"]%string)) data) else Ok []) = Ok d.
Proof.
  unfold intersect_polyline. destruct lines as [|pts rest]; [discriminate|].
  destruct (crossings _ _ _ _ _ _ _) as [[[[ps0 ls0] cs0]|]|] eqn:E; [|discriminate|discriminate].
  intros H. injection H as H. unfold multiple_lines in H. destruct (Nat.leb_spec 2 (length ps0)); [|discriminate]. cbn [bind] in H.
  destruct (if pass then _ else _) as [d0|] eqn:Ed; [|discriminate]. cbn [bind] in H. injection H as <- <- <- <-.
  exists pts, rest, ps0. repeat split; auto.
Qed.

Lemma poly_arrays ps ls cs d : intersect_polyline o ml tol ia fuel ib pass c lines data = Some (Ok (ps, ls, cs, d)) ->
  exists pts rest, lines = pts :: rest /\ (1 <= length ls)%nat /\ length ps = S (length ls) /\ length cs = length ls /\ StronglySorted le ls /\
    (forall l, In l ls -> (S l < length pts)%nat) /\ (ib = false -> hd_error ps = hd_error pts).
Proof.
  intros H. apply poly_inv in H as (pts & rest & ps0 & -> & H & Hl & -> & _). exists pts, rest. split; [reflexivity|].
  apply crossings_ok in H as (H1 & H2 & H3 & H4 & H5 & _). rewrite map_length in *.
  destruct H1 as [(-> & _)|H1]; [cbn in Hl; lia|]. repeat split; auto; [lia|].
  intros E. specialize (H4 E). destruct ps0 as [|p ps0]; [discriminate|]. destruct pts as [|p' pts]; [discriminate|]. cbn in *. injection H4 as ->. now rewrite add_sub.
Qed.

Lemma poly_spacing ps ls cs d : intersect_polyline o ml tol ia fuel ib pass c lines data = Some (Ok (ps, ls, cs, d)) ->
  forall k p q cid, nth_error ps k = Some p -> nth_error ps (S k) = Some q -> nth_error cs k = Some cid ->
  apart tol p q /\ (cid <> (-1)%Z -> ml <= dist p q).
Proof.
  intros H k p q cid Hp Hq Hc. apply poly_inv in H as (pts & rest & ps0 & -> & H & Hl & -> & _).
  apply crossings_ok in H as (_ & H2 & _ & _ & _ & H6 & _).
  rewrite nth_error_map in Hp, Hq. destruct (nth_error ps0 k) as [p0|] eqn:Ep; [|discriminate]. destruct (nth_error ps0 (S k)) as [q0|] eqn:Eq; [|discriminate].
  cbn in Hp, Hq. injection Hp as <-. injection Hq as <-.
  assert (Lk : (k < length ls)%nat) by (rewrite <- H2; apply nth_error_Some; congruence).
  destruct (nth_error ls k) as [l|] eqn:El; [|apply nth_error_None in El; lia].
  destruct (H6 _ _ _ _ _ Ep Eq El Hc) as (G1 & G2 & _). split; [now apply apart_shift|]. now rewrite dist_shift.
Qed.

Lemma poly_sources ps ls cs d : intersect_polyline o ml tol ia fuel ib pass c lines data = Some (Ok (ps, ls, cs, d)) ->
  forall k q l cid, nth_error ps (S k) = Some q -> nth_error ls k = Some l -> nth_error cs k = Some cid ->
  exists pts rest a b, lines = pts :: rest /\ nth_error pts l = Some a /\ nth_error pts (S l) = Some b /\
    (q = b /\ cid = (-1)%Z \/
     q = b /\ S (S l) = length pts /\ contains o cid (sub3 b c) = true \/
     exists cell rows f, cast o cell (sub3 a c) (sub3 b c) = Some rows /\ In (sub3 q c, f) rows /\ (cid = cell \/ cid = (-1)%Z)).
Proof.
  intros H k q l cid Hq Hl Hc. apply poly_inv in H as (pts & rest & ps0 & -> & H & Hn & -> & _). exists pts, rest.
  apply crossings_ok in H as (_ & _ & _ & _ & _ & H6 & _).
  rewrite nth_error_map in Hq. destruct (nth_error ps0 (S k)) as [q0|] eqn:Eq; [|discriminate]. cbn in Hq. injection Hq as <-.
  destruct (nth_error ps0 k) as [p0|] eqn:Ep. 2:{ apply nth_error_None in Ep. assert (S k < length ps0)%nat by (apply nth_error_Some; congruence). lia. }
  destruct (H6 _ _ _ _ _ Ep Eq Hl Hc) as (_ & _ & a & b & Ha & Hb & S0).
  rewrite nth_error_map in Ha, Hb. destruct (nth_error pts l) as [a'|]; [|discriminate]. destruct (nth_error pts (S l)) as [b'|]; [|discriminate].
  cbn in Ha, Hb. injection Ha as <-. injection Hb as <-. exists a', b'. repeat split; auto. rewrite map_length in S0.
  assert (Eadd : sub3 (add3 q0 c) c = q0).
  { destruct q0 as [[? ?] ?], c as [[? ?] ?]. unfold add3, sub3. repeat match goal with |- (_, _) = (_, _) => apply f_equal2 end; ring. }
  destruct S0 as [[-> [->|[S1 S2]]]|(cell & rows & f & S1 & S2 & S3)].
  - left. split; [apply add_sub|reflexivity].
  - right. left. split; [apply add_sub|]. split; [lia|exact S1].
  - right. right. exists cell, rows, f. rewrite Eadd. auto.
Qed.

Lemma poly_labels ps ls cs d : intersect_polyline o ml tol ia fuel ib pass c lines data = Some (Ok (ps, ls, cs, d)) ->
  (ib = true -> forall i j ci cj, (i < j)%nat -> nth_error cs i = Some ci -> nth_error cs j = Some cj -> ci = (-1)%Z -> cj = (-1)%Z) /\
  (ia = true -> forall i j ci cj, (i < j)%nat -> nth_error cs i = Some ci -> nth_error cs j = Some cj -> cj = (-1)%Z -> ci = (-1)%Z).
Proof.
  intros H. apply poly_inv in H as (pts & rest & ps0 & -> & H & _). apply crossings_ok in H as (_ & _ & _ & _ & _ & _ & m1 & cs1 & m2 & -> & Hno & H1 & H2).
  assert (RP : forall m i x, nth_error (repeat (-1)%Z m) i = Some x -> x = (-1)%Z).
  { intros m i x Hx. apply nth_error_In in Hx. now apply repeat_spec in Hx. }
  split; intros Hf i j ci cj Hij Hi Hj E.
  - destruct (H1 Hf) as [->| ->].
    + cbn [app] in Hj. rewrite <- repeat_app in Hj. eauto.
    + cbn [repeat app] in Hi, Hj. destruct (Nat.lt_ge_cases i (length cs1)) as [L|L].
      * rewrite nth_error_app1 in Hi by exact L. apply nth_error_In in Hi. congruence.
      * rewrite nth_error_app2 in Hj by lia. eauto.
  - destruct (H2 Hf) as [->| ->].
    + cbn [app] in Hi. rewrite <- repeat_app in Hi. eauto.
    + cbn [repeat] in Hi, Hj. rewrite app_nil_r in Hi, Hj. destruct (Nat.lt_ge_cases i (length (repeat (-1)%Z m1))) as [L|L].
      * rewrite nth_error_app1 in Hi by exact L. eauto.
      * rewrite nth_error_app2 in Hj by lia. apply nth_error_In in Hj. congruence.
Qed.
End poly.

Lemma reserved_spec k : negb (existsb (String.eqb k) ["Length"; "vtkOriginalCellIds"; "IntersectedCellIds"]%string) = true <-> ~ In k ["Length"; "vtkOriginalCellIds"; "IntersectedCellIds"]%string.
Proof.
  rewrite negb_true_iff, <- not_true_iff_false, existsb_exists. split; intros H K; apply H.
  - exists k. split; [exact K|apply String.eqb_refl].
  - destruct K as (x & Hx & E). apply String.eqb_eq in E. now subst.
Qed.

Lemma poly_values {F D} (o : oracles F) ml tol ia fuel ib c lines (data : list (string * list D)) ps ls cs d :
  intersect_polyline o ml tol ia fuel ib true c lines data = Some (Ok (ps, ls, cs, d)) ->
  map fst d = filter (fun k => negb (existsb (String.eqb k) ["Length"; "vtkOriginalCellIds"; "IntersectedCellIds"]%string)) (map fst data) /\
  forall k v, In (k, v) data -> ~ In k ["Length"; "vtkOriginalCellIds"; "IntersectedCellIds"]%string ->
    exists w, In (k, w) d /\ length w = length ls /\ forall i l, nth_error ls i = Some l -> nth_error v l <> None /\ nth_error w i = nth_error v l.
Proof.
  intros H. apply poly_inv in H as (pts & rest & ps0 & _ & _ & _ & _ & H). apply mapM_Ok in H. 
  set (keep := fun k => negb (existsb (String.eqb k) _)).
  change (Forall2 (fun (x : string * list D) y => (let! v := take (snd x) ls in Ok (fst x, v)) = Ok y) (filter (fun kv : string * list D => keep (fst kv)) data) d) in H.
  split.
  - transitivity (map fst (filter (fun kv : string * list D => keep (fst kv)) data)).
    + clear -H. revert H. generalize (filter (fun kv : string * list D => keep (fst kv)) data) as l. intros l H.
      induction H as [|x y l d Hx H IH]; [reflexivity|]. destruct (take (snd x) ls); [|discriminate]. cbn in Hx. injection Hx as <-. cbn. congruence.
    + clear. induction data as [|[k v] data IH]; [reflexivity|]. cbn. destruct (keep k); cbn; congruence.
  - intros k v Hin Hk. assert (Hf : In (k, v) (filter (fun kv : string * list D => keep (fst kv)) data)) by (apply filter_In; split; [exact Hin|now apply reserved_spec]).
    assert (G : forall l d', Forall2 (fun (x : string * list D) y => (let! v := take (snd x) ls in Ok (fst x, v)) = Ok y) l d' -> In (k, v) l ->
      exists w, In (k, w) d' /\ take v ls = Ok w).
    { clear. induction 1 as [|x y l d' Hx H IH]; intros Hin; [destruct Hin|]. destruct Hin as [->|Hin].
      - cbn [fst snd] in Hx. destruct (take v ls) as [w|]; [|discriminate]. cbn in Hx. injection Hx as <-. exists w. split; [now left|reflexivity].
      - destruct (IH Hin) as (w & Hw & E). exists w. split; [now right|exact E]. }
    destruct (G _ _ H Hf) as (w & Hw & Ew). exists w. split; [exact Hw|]. unfold take in Ew. apply mapM_Ok in Ew. clear - Ew. split; [induction Ew; cbn; congruence|].
    intros i l Hi. revert i Hi. induction Ew as [|x y ls w Hx Ew IH]; intros i Hi; [destruct i; discriminate|]. destruct i as [|i].
    + cbn in Hi. injection Hi as ->. apply at_res_ok in Hx. cbn. rewrite Hx. split; [discriminate|reflexivity].
    + exact (IH i Hi).
Qed.

Lemma poly_enough {F D} (o : oracles F) ml tol ia fuel ib c pts rest (data : list (string * list D)) ps ls cs :
  crossings o ml tol ia fuel ib (map (fun p => sub3 p c) pts) = Some (Ok (ps, ls, cs)) -> (2 <= length ps)%nat ->
  (forall k v, In (k, v) data -> (length pts <= S (length v))%nat) ->
  exists d, intersect_polyline o ml tol ia fuel ib true c (pts :: rest) data = Some (Ok (map (fun p => add3 p c) ps, ls, cs, d)).
Proof.
  intros H Hl Hd. unfold intersect_polyline. rewrite H. unfold multiple_lines. destruct (Nat.leb_spec 2 (length ps)); [|lia]. cbn [bind].
  match goal with |- context [mapM ?g ?l] => destruct (mapM_def g l) as [d Ed] end; [|rewrite Ed; cbn; eauto].
  intros [k v] Hin. apply filter_In in Hin as [Hin _]. specialize (Hd _ _ Hin). apply crossings_ok in H as (_ & _ & _ & _ & H & _). rewrite map_length in H.
  destruct (mapM_def (at_res v) ls) as [w Ew].
  - intros l Hls. specialize (H l Hls). unfold at_res. destruct (nth_error v l) eqn:E; [eauto|]. apply nth_error_None in E. lia.
  - cbn [fst snd]. unfold take. rewrite Ew. cbn. eauto.
Qed.

Lemma poly_enough_same {F D} (o : oracles F) ml tol ia fuel ib c pts rest (data : list (string * list D)) ps ls cs d0 :
  intersect_polyline o ml tol ia fuel ib false c (pts :: rest) data = Some (Ok (ps, ls, cs, d0)) ->
  (forall k v, In (k, v) data -> (length pts <= S (length v))%nat) ->
  exists d, intersect_polyline o ml tol ia fuel ib true c (pts :: rest) data = Some (Ok (ps, ls, cs, d)).
Proof.
  intros H Hd. unfold intersect_polyline in H.
  destruct (crossings o ml tol ia fuel ib (map (fun p => sub3 p c) pts)) as [[[[ps0 ls0] cs0]|]|] eqn:E; try discriminate.
  unfold multiple_lines in H. destruct (Nat.leb_spec 2 (length ps0)) as [L|L]; cbn [bind] in H; [|discriminate].
  injection H as <- <- <- <-. now apply (poly_enough o ml tol ia fuel ib c pts rest data ps0 ls0 cs0).
Qed.

(* no cell at all *)
Lemma sub_zero x : sub3 (px x) (0, 0, 0) = px x.
Proof. unfold sub3, px. repeat match goal with |- (_, _) = (_, _) => apply f_equal2 end; ring. Qed.

Lemma far_px tol x y : tol + / 100000 * Rabs y < Rabs (x - y) -> far tol (px x) (px y).
Proof. unfold far, px. auto. Qed.

Lemma poly_too_few fuel : intersect_polyline (row []) (/ 10000) (/ 100000000) false fuel false true (0, 0, 0)
  [[px 0; px 1; px 3]] [("Material"%string, [7%nat])] = Some (Err IndexError).
Proof.
  unfold intersect_polyline. cbn [map]. rewrite !sub_zero.
  rewrite miss_crossings; [reflexivity|discriminate|].
  intros [|[|[|k]]] a b Ha Hb; cbn in Ha, Hb; try discriminate; injection Ha as <-; injection Hb as <-; (split; [reflexivity|]); apply far_px; num.
Qed.

Lemma merged_far fuel : apart (/ 100000000) (px 1000) (px (1000 + / 1000)) /\
  intersect_polyline (D := nat) (row []) (/ 10000) (/ 100000000) false fuel false false (0, 0, 0)
    [[px 1000; px (1000 + / 1000)]] [] = Some (Err ValueError).
Proof.
  split.
  - unfold apart, px. left. num.
  - unfold intersect_polyline, crossings. cbn [map]. rewrite !sub_zero. cbn [segments length Nat.sub tr_cell]. unfold first_cell. cbn [find row length Nat.sub seq filter id_sort fold_right].
    unfold add_point. change (last_pt _) with (px 1000). rewrite close_px by lra. unfold close1. rewrite Rleb_t by num. reflexivity.
Qed.

Lemma inside_rejected fuel : intersect_polyline (D := nat) (row [0; 2]) (/ 10000) (/ 100000000) false (S fuel) false false (0, 0, 0)
    [[px (/ 2); px (3 / 2)]] [] = Some (Err ValueError).
Proof.
  unfold intersect_polyline. cbn [map]. rewrite !sub_zero. 
  assert (E : crossings (row [0; 2]) (/ 10000) (/ 100000000) false (S fuel) false [px (/ 2); px (3 / 2)] = Some (Ok ([px (/ 2)], [], []))).
  { start. ev_first. ev_turn. reflexivity. }
  rewrite E. reflexivity.
Qed.

(* ---- row of cells ---- *)
Lemma row_line tol ml (ia ib : bool) (u v : list R) a b fuel : 0 <= tol -> StronglySorted Rlt (u ++ v) -> (2 <= length u)%nat -> (3 <= length (u ++ v))%nat ->
  separated tol ml (a :: u ++ [b]) -> (forall x, In x v -> b <= x) -> (length u <= fuel)%nat ->
  exists ls cs, let ps := map px ((if ib then [] else [a]) ++ u ++ (if ia && (length v =? 0)%nat then [] else [b])) in
    crossings (row (u ++ v)) ml tol ia fuel ib [px a; px b] = Some (Ok (ps, ls, cs)) /\
    right_labels (u ++ v) ps cs /\ length ps = S (length cs) /\ length ls = length cs.
Proof.
  intros H1 H2 H3 HX H4 H5 H6.
  pose proof (row_crossings tol ml ia u v a b H1 H2 H3 HX H4 H5 fuel ib H6) as E.
  pose proof (row_right_all tol ml ia u v a b H1 H2 H3 HX H4 H5 ib) as L.
  exists (match crossings (row (u ++ v)) ml tol ia fuel ib [px a; px b] with Some (Ok (_, ls, _)) => ls | _ => [] end).
  exists ((if ib then [] else [(-1)%Z]) ++ map Z.of_nat (seq 0 (length u - 1)) ++ end_labels ia u v).
  cbn zeta. rewrite E.
  assert (P : map px ((if ib then [] else [a]) ++ u ++ (if (ia && (length v =? 0)%nat)%bool then [] else [b])) =
    (if ib then [] else [px a]) ++ map px u ++ ends ia v b).
  { rewrite !map_app. f_equal; [now destruct ib|]. f_equal. unfold ends. destruct v; cbn [length Nat.eqb]; [rewrite andb_true_r|rewrite andb_false_r; reflexivity]. now destruct ia. }
  rewrite P. split; [reflexivity|]. split; [exact L|].
  assert (Q : length (ends ia v b) = length (end_labels ia u v)) by (unfold ends, end_labels; destruct v; [destruct ia|]; reflexivity).
  rewrite !app_length, !map_length, !repeat_length, !seq_length, Q. destruct ib; cbn [length]; lia.
Qed.

Lemma label_unique : ~ right_labels [0; 1; 2] [px (/ 2); px 1; px (3 / 2)] [-1; 1]%Z.
Proof.
  intros H. destruct (H 0%nat _ _ _ eq_refl eq_refl eq_refl) as [[_ K]|(k & K & _)]; [|lia].
  apply (K 0%nat). unfold in_cell, bound, px, coord. cbn. split; [lra|lia].
Qed.
Lemma start_wrong : exists ps ls cs, crossings (row [0; 1; 2]) (/ 10000) (/ 100000000) false 1 false [px (/ 2); px (3 / 2)] = Some (Ok (ps, ls, cs)) /\
  ~ right_labels [0; 1; 2] ps cs.
Proof. rewrite start_inside. repeat eexists. exact label_unique. Qed.
Lemma end_wrong : exists ps ls cs, crossings (row [0; 1; 2]) (/ 10000) (/ 100000000) false 1 false [px (-1); px (/ 2)] = Some (Ok (ps, ls, cs)) /\
  ~ right_labels [0; 1; 2] ps cs.
Proof.
  rewrite end_first. do 3 eexists. split; [reflexivity|]. intros H. destruct (H 1%nat _ _ _ eq_refl eq_refl eq_refl) as [[_ K]|(k & K & _)]; [|lia].
  apply (K 0%nat). unfold in_cell, bound, px, coord. cbn. split; [lra|lia].
Qed.

Lemma boundary_lost : exists xs a b ps ls cs,
  crossings (row xs) (/ 10000) (/ 100000000) false 1 false [px a; px b] = Some (Ok (px a :: ps, ls, cs)) /\
  right_labels xs (px a :: ps) cs /\ ~ In (-1)%Z cs /\
  exists ls' cs', crossings (row xs) (/ 10000) (/ 100000000) false 1 true [px a; px b] = Some (Ok (ps, ls', cs')).
Proof.
  exists [0; 1; 2], 0, (3 / 2), [px 1; px (3 / 2)], [0; 0]%nat, [0; 1]%Z. split.
  { start. ev_first. ev_turn. reflexivity. }
  split; [|split; [intros [?|[?|[]]]; discriminate|rewrite start_boundary; eauto]].
  intros k p q c Hp Hq Hc. right. destruct k as [|[|[|k]]]; cbn in Hp, Hq, Hc; try discriminate;
    injection Hp as <-; injection Hq as <-; injection Hc as <-.
  - exists 0%nat. split; [reflexivity|]. unfold in_cell, bound, px, coord. cbn. split; [lra|lia].
  - exists 1%nat. split; [reflexivity|]. unfold in_cell, bound, px, coord. cbn. split; [lra|lia].
Qed.

Lemma row_last tol ml (ia ib : bool) (u v : list R) a b fuel : 0 <= tol -> StronglySorted Rlt (u ++ v) -> (2 <= length u)%nat -> (3 <= length (u ++ v))%nat ->
  separated tol ml (a :: u ++ [b]) -> (forall x, In x v -> b <= x) -> (length u <= fuel)%nat -> ia = false \/ v <> [] ->
  exists ps ls cs, crossings (row (u ++ v)) ml tol ia fuel ib [px a; px b] = Some (Ok (ps ++ [px b], ls, cs)).
Proof.
  intros H1 H2 H3 HX H4 H5 H6 H7. destruct (row_line tol ml ia ib u v a b fuel H1 H2 H3 HX H4 H5 H6) as (ls & cs & E & _). cbn zeta in E. rewrite E.
  exists (map px ((if ib then [] else [a]) ++ u)), ls, cs. do 4 f_equal.
  replace (ia && (length v =? 0)%nat)%bool with false. 2:{ symmetry. destruct H7 as [->|H7]; [reflexivity|]. destruct v; [contradiction|]. now rewrite andb_false_r. }
  now rewrite app_assoc, map_app.
Qed.

Lemma row_terminates tol ml (ia ib : bool) (u v : list R) a b : 0 <= tol -> StronglySorted Rlt (u ++ v) -> (2 <= length u)%nat -> (3 <= length (u ++ v))%nat ->
  separated tol ml (a :: u ++ [b]) -> (forall x, In x v -> b <= x) ->
  exists r, forall fuel, (length u <= fuel)%nat -> crossings (row (u ++ v)) ml tol ia fuel ib [px a; px b] = Some (Ok r).
Proof.
  intros H1 H2 H3 HX H4 H5. eexists. intros fuel H6. apply (row_crossings tol ml ia u v a b); assumption.
Qed.

Lemma row_example : StronglySorted Rlt ([0; 1; 2] ++ [3]) /\ separated (/ 100000000) (/ 10000) (-1 :: [0; 1; 2] ++ [5 / 2]).
Proof.
  split; [repeat constructor; lra|]. cbn. unfold separate. repeat split; num.
Qed.

(* counterexamples *)
Lemma thin_refuted : exists xs a b c, StronglySorted Rlt xs /\
  forall fuel, crossings (row xs) (/ 10000) (/ 100000000) false fuel false [px a; px b; px c] = None.
Proof. exists thin, (-1), (3 / 2), 3. split; [unfold thin; repeat constructor; lra|exact thin_forever]. Qed.
Lemma merged_refuted : exists tol p q, 0 < tol /\ apart tol p q /\ forall fuel,
  intersect_polyline (D := nat) (row []) (/ 10000) tol false fuel false false (0, 0, 0) [[p; q]] [] = Some (Err ValueError).
Proof. exists (/ 100000000), (px 1000), (px (1000 + / 1000)). split; [lra|]. split; [apply (merged_far 0)|]. intros fuel. apply merged_far. Qed.
Lemma too_few_refuted : exists line data, forall fuel,
  intersect_polyline (row []) (/ 10000) (/ 100000000) false fuel false false (0, 0, 0) [line] data = Some (Ok (line, [0; 1]%nat, [-1; -1]%Z, [])) /\
  intersect_polyline (row []) (/ 10000) (/ 100000000) false fuel false true (0, 0, 0) [line] data = Some (Err IndexError) /\
  length data = 1%nat /\ Forall (fun kv : string * list nat => length (snd kv) = 1%nat) data.
Proof.
  exists [px 0; px 1; px 3], [("Material"%string, [7%nat])]. intros fuel. split; [|split; [apply poly_too_few|split; [reflexivity|repeat constructor]]].
  unfold intersect_polyline. cbn [map]. rewrite !sub_zero. rewrite miss_crossings.
  - assert (E : forall x, add3 (px x) (0, 0, 0) = px x) by (intros x; unfold add3, px; repeat match goal with |- (_, _) = (_, _) => apply f_equal2 end; ring).
    cbn -[add3 px]. now rewrite !E.
  - discriminate.
  - intros [|[|[|k]]] a b Ha Hb; cbn in Ha, Hb; try discriminate; injection Ha as <-; injection Hb as <-; (split; [reflexivity|]); apply far_px; num.
Qed.
Lemma inside_refuted : exists xs a b, 0 < a < b /\ right_label xs (px a) (px b) 0 /\
  forall fuel, intersect_polyline (D := nat) (row xs) (/ 10000) (/ 100000000) false (S fuel) false false (0, 0, 0) [[px a; px b]] [] = Some (Err ValueError).
Proof.
  exists [0; 2], (/ 2), (3 / 2). split; [lra|]. split; [|exact inside_rejected].
  right. exists 0%nat. split; [reflexivity|]. unfold in_cell, bound, px, coord. cbn. split; [lra|lia].
Qed.
