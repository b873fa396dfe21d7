From Coq Require Import Reals Lra Lia Sorted Permutation.
From Verif Require Import Prelude RealAux Surface_model Volume_model Objects_model Cast_model Cast_spec Cast1_proof Cast2_proof Cast3_proof Cast4_proof Trip_spec.
Open Scope R_scope.
Local Notation norm := Objects_model.norm.

Lemma dist_sym p q : dist p q = dist q p.
Proof. destruct p as [[x y] z], q as [[x' y'] z']. unfold dist. f_equal. ring. Qed.
Lemma dist_self p : dist p p = 0.
Proof. destruct p as [[x y] z]. unfold dist. replace (_ + _ + _) with 0 by ring. apply sqrt_0. Qed.
Lemma dist_pos p q : p <> q -> 0 < dist p q.
Proof. intros H. rewrite <- norm_dist. apply norm_sub_pos. congruence. Qed.
Lemma close_self tol p : 0 <= tol -> close tol p p = true.
Proof.
  intros H. destruct p as [[x y] z]. unfold close, close1. rewrite !Rminus_eq_0, !Rabs_R0.
  pose proof (Rabs_pos x). pose proof (Rabs_pos y). pose proof (Rabs_pos z). rewrite !Rleb_t by lra. reflexivity.
Qed.
Lemma spaced_app tol ml l1 l2 : spaced tol ml (l1 ++ l2) -> spaced tol ml l1 /\ spaced tol ml l2.
Proof.
  induction l1 as [|p [|q l1] IH]; intros H; [split; [constructor|exact H]| |].
  - split; [constructor|]. destruct l2 as [|q l2]; [constructor|]. apply H.
  - destruct H as (H1 & H2 & H3). destruct (IH H3) as [H4 H5]. split; [split; [|split]; assumption|exact H5].
Qed.
Lemma spaced_last tol ml l1 p l2 : spaced tol ml (l1 ++ p :: l2) -> spaced tol ml (p :: l2).
Proof. intros H. now apply spaced_app in H. Qed.

Section Trip.
Context {F : Type} (o : oracles F).
Variables (ml tol : R) (ia : bool) (fin : pt).
Hypothesis (Htol : 0 <= tol).
Notation add := (add_point tol ml).
Notation step := (turn o ml tol ia).

Lemma add_spaced t p l c : far tol (last_pt t) p -> ml <= dist (last_pt t) p ->
  add t p l c = mkT (tr_pts t ++ [p]) (tr_lines t ++ [l]) (tr_cells t ++ [c]) (tr_in t) (tr_out t) (tr_count t) (tr_cell t).
Proof.
  intros H H'. unfold add_point. rewrite (far_close tol _ _ H), norm_dist, (Rleb_t _ _ H'), orb_true_r. reflexivity.
Qed.
Lemma add_again t p l c : last_pt t = p -> add t p l c = t.
Proof. intros H. unfold add_point. rewrite H, close_self by exact Htol. reflexivity. Qed.
Lemma far_neq p q : far tol p q -> p <> q.
Proof. intros H E. subst q. apply far_close in H. rewrite close_self in H by exact Htol. discriminate. Qed.

Lemma one_row (r : list (pt * F)) x f : Permutation (map fst r) [x] -> In (x, f) r -> r = [(x, f)].
Proof.
  intros P I. apply Permutation_sym, Permutation_length_1_inv in P. destruct r as [|[y g] [|]]; try discriminate.
  destruct I as [->|[]]. reflexivity.
Qed.
Lemma two_rows (r : list (pt * F)) e x f : Permutation (map fst r) [e; x] -> In (x, f) r -> x <> e ->
  exists g, r = [(e, g); (x, f)] \/ r = [(x, f); (e, g)].
Proof.
  intros P I N. apply Permutation_sym, Permutation_length_2_inv in P as [P|P]; destruct r as [|[y g] [|[y' g'] [|]]]; try discriminate;
    cbn in P; injection P as -> ->; destruct I as [I|[I|[]]]; inversion I; subst; try contradiction; eauto.
Qed.

(* one step from a cell entered at e *)
Lemma step_leaves lid final a b t e c x d : leaves o ml fin a b e c x d -> tr_in t = true -> tr_cell t = Some c ->
  e = [] \/ e = [last_pt t] -> far tol (last_pt t) x -> ml <= dist (last_pt t) x ->
  exists f, Permutation (sides o f) [c; d] /\ step lid final a b fin t = through o ml tol ia lid final b fin t c x f.
Proof.
  intros (_ & _ & Ne & r & f & Ec & P & I & S) Hin Hc He Hf Hd. exists f. split; [exact S|]. unfold turn. rewrite Hc, Ec.
  destruct He as [-> | ->]; cbn [app] in P.
  - rewrite (one_row _ _ _ P I). rewrite Hin. cbn [negb]. rewrite (far_close _ _ _ Hf). reflexivity.
  - cbn in Ne. destruct (two_rows _ _ _ _ P I) as (g & [-> | ->]); [intros E; subst; tauto| |]; rewrite Hin; cbn [negb].
    + rewrite (Rleb_f (norm (sub3 x (last_pt t)))); [reflexivity|]. rewrite !norm_dist, dist_self. apply dist_pos. now apply far_neq.
    + rewrite (Rleb_t (norm (sub3 (last_pt t) (last_pt t)))); [reflexivity|]. rewrite !norm_dist, dist_self. apply Rlt_le, dist_pos. now apply far_neq.
Qed.

Definition put t p lid c := mkT (tr_pts t ++ [p]) (tr_lines t ++ [lid]) (tr_cells t ++ [c]) (tr_in t) (tr_out t) (tr_count t) (tr_cell t).

Lemma existsb_in c l : existsb (Z.eqb c) l = true <-> In c l.
Proof.
  rewrite existsb_exists. split; [intros (x & H & E); apply Z.eqb_eq in E; congruence|]. intros H. exists c. split; [exact H|apply Z.eqb_refl].
Qed.
Lemma others c d l : Permutation l [c; d] -> c <> d -> filter (fun x => negb (Z.eqb x c)) l = [d].
Proof.
  intros P N. apply Permutation_sym, Permutation_length_2_inv in P as [-> | ->]; cbn; rewrite Z.eqb_refl; cbn;
    destruct (Z.eqb_spec d c); try congruence; reflexivity.
Qed.

Lemma through_inside lid final b t c x f d : Permutation (sides o f) [c; d] -> c <> d -> c <> (-1)%Z -> d <> (-1)%Z -> ml <= dist x fin ->
  far tol (last_pt t) x -> ml <= dist (last_pt t) x ->
  through o ml tol ia lid final b fin t c x f =
  Ok (if (final && contains o d b)%bool then (false, add (move d (put t x lid c)) b lid d) else (true, move d (put t x lid c))).
Proof.
  intros S Hcd Hc Hd Hx Hf Hl. unfold through. rewrite add_spaced by assumption. fold (put t x lid c).
  rewrite Rltb_f by (rewrite norm_dist, dist_sym; exact Hx). rewrite (Permutation_length S). cbn [length Nat.eqb]. cbv iota.
  rewrite (proj2 (existsb_in c (sides o f))) by (rewrite S; now left). cbn [negb].
  destruct (existsb (Z.eqb (-1)) (sides o f)) eqn:E; [apply existsb_in in E; rewrite S in E; cbn in E; intuition congruence|].
  rewrite (others c d) by assumption. destruct (_ && _)%bool; reflexivity.
Qed.
Lemma through_outside lid final b t c x f : Permutation (sides o f) [c; (-1)%Z] -> ml <= dist x fin ->
  far tol (last_pt t) x -> ml <= dist (last_pt t) x ->
  through o ml tol ia lid final b fin t c x f =
  Ok (false, leave (if ia then put t x lid c else add (put t x lid c) b lid (-1)%Z)).
Proof.
  intros S Hx Hf Hl. unfold through. rewrite add_spaced by assumption. fold (put t x lid c).
  rewrite Rltb_f by (rewrite norm_dist, dist_sym; exact Hx). rewrite (Permutation_length S). cbn [length Nat.eqb]. cbv iota.
  rewrite (proj2 (existsb_in c (sides o f))) by (rewrite S; now left). cbn [negb].
  rewrite (proj2 (existsb_in (-1) (sides o f))) by (rewrite S; right; now left). reflexivity.
Qed.

(* the trail t' continues t with these points *)
Definition grown (t t' : trail) (l : list (pt * nat * Z)) : Prop :=
  tr_pts t' = tr_pts t ++ map point_of l /\ tr_lines t' = tr_lines t ++ map line_of l /\ tr_cells t' = tr_cells t ++ map cell_of l /\
  tr_in t' = tr_in t /\ tr_count t' = tr_count t.
Lemma grown_nil t : grown t t [].
Proof. unfold grown. cbn. rewrite !app_nil_r. repeat split. Qed.
Lemma grown_trans t t1 t2 l1 l2 : grown t t1 l1 -> grown t1 t2 l2 -> grown t t2 (l1 ++ l2).
Proof.
  intros (A1 & A2 & A3 & A4 & A5) (B1 & B2 & B3 & B4 & B5). unfold grown.
  rewrite B1, B2, B3, B4, B5, A1, A2, A3, !map_app, !app_assoc. repeat split; assumption.
Qed.
Lemma grown_put t p lid c : grown t (put t p lid c) [(p, lid, c)].
Proof. repeat split. Qed.
Lemma grown_last t t' p l : grown t t' (l ++ [p]) -> last_pt t' = point_of p.
Proof. intros (E & _). unfold last_pt. rewrite E, map_app, app_assoc. apply last_last. Qed.
Lemma grown_move t t' l c : grown t t' l -> grown t (move c t') l.
Proof. exact (fun H => H). Qed.
Lemma grown_leave t t' l : grown t t' l -> grown t (leave t') l.
Proof. exact (fun H => H). Qed.
Lemma last_put t p lid c : last_pt (put t p lid c) = p.
Proof. apply last_last. Qed.

Lemma walk_follows final a b lid e c l z : follows o ml fin final a b e c l z -> forall t fuel, c <> (-1)%Z ->
  tr_in t = true -> tr_out t = false -> tr_cell t = Some c -> e = [] \/ e = [last_pt t] ->
  spaced tol ml (last_pt t :: map fst l ++ (if Z.eqb z (-1) then [b] else [])) -> (length l < fuel)%nat ->
  exists t', walk o ml tol ia fuel lid final a b fin t = Some (Ok t') /\
    grown t t' (labelled lid l ++ (if Z.eqb z (-1) && negb ia then [(b, lid, (-1)%Z)] else [])) /\
    tr_out t' = Z.eqb z (-1) /\ exists k, tr_cell t' = Some k /\ (z <> (-1)%Z -> k = z).
Proof.
  induction 1 as [e c Hfin Hs|e c x d l z Hl Hd Hnc _ IH|e c x d Hfin Hl Hd Hcon|e c x Hl]; intros t fuel Hc Hin Hout Hcell He Hsp Hfu;
    (destruct fuel as [|fuel]; [cbn in Hfu; lia|]); cbn [walk].
  - exists t. assert (step lid final a b fin t = Ok (false, t)) as ->.
    { unfold turn. rewrite Hcell. destruct He as [-> | ->]; unfold shows in Hs.
      - rewrite Hs. reflexivity.
      - destruct Hs as (r & -> & P). apply Permutation_sym, Permutation_length_1_inv in P.
        destruct r as [|[y g] [|]]; try discriminate. cbn in P. injection P as ->. rewrite Hin. cbn [negb].
        rewrite close_self, add_again by (assumption || reflexivity). reflexivity. }
    split; [reflexivity|]. apply Z.eqb_neq in Hc as Ec. rewrite Ec. cbn [andb]. split; [apply grown_nil|]. split; [exact Hout|]. eauto.
  - cbn [map fst app spaced] in Hsp. destruct Hsp as (Hf & Hdist & Hsp).
    destruct (step_leaves lid final a b t e c x d Hl Hin Hcell He Hf Hdist) as (f & S & ->).
    destruct Hl as (Hx & Hcd & _). rewrite (through_inside lid final b t c x f d) by assumption.
    assert ((final && contains o d b)%bool = false) as -> by (destruct final; [rewrite Hnc; reflexivity|reflexivity]).
    destruct (IH (move d (put t x lid c)) fuel) as (t' & E & G & R); auto.
    + right. rewrite (last_put t x lid c : last_pt (move d (put t x lid c)) = x). reflexivity.
    + rewrite (last_put t x lid c : last_pt (move d (put t x lid c)) = x). exact Hsp.
    + cbn in Hfu. lia.
    + exists t'. split; [exact E|]. split; [|exact R].
      exact (grown_trans t (move d (put t x lid c)) t' [(x, lid, c)] _ (grown_put t x lid c) G).
  - cbn [map fst app spaced] in Hsp. destruct Hsp as (Hf & Hdist & Hfb & Hdb & _).
    destruct (step_leaves lid final a b t e c x d Hl Hin Hcell He Hf Hdist) as (f & S & ->).
    destruct Hl as (Hx & Hcd & _). rewrite (through_inside lid final b t c x f d) by assumption. rewrite Hfin, Hcon. cbn [andb].
    pose proof (last_put t x lid c : last_pt (move d (put t x lid c)) = x) as El.
    rewrite add_spaced by (rewrite El; assumption).
    eexists. split; [reflexivity|]. apply Z.eqb_neq in Hd as Ed. rewrite Ed. cbn [andb]. split.
    + exact (grown_trans t (move d (put t x lid c)) _ [(x, lid, c)] [(b, lid, d)] (grown_put t x lid c) (grown_put (move d (put t x lid c)) b lid d)).
    + split; [exact Hout|]. exists d. split; [reflexivity|auto].
  - cbn [map fst app spaced Z.eqb Pos.eqb] in Hsp. destruct Hsp as (Hf & Hdist & Hfb & Hdb & _).
    destruct (step_leaves lid final a b t e c x (-1)%Z Hl Hin Hcell He Hf Hdist) as (f & S & ->).
    destruct Hl as (Hx & _). rewrite (through_outside lid final b t c x f) by assumption.
    eexists. split; [reflexivity|]. cbn [Z.eqb Pos.eqb andb]. split; [|split].
    + destruct ia; cbn [negb].
      * rewrite app_nil_r. exact (grown_put t x lid c).
      * rewrite add_spaced by (rewrite last_put; assumption).
        exact (grown_trans t (put t x lid c) _ [(x, lid, c)] [(b, lid, (-1)%Z)] (grown_put t x lid c) (grown_put (put t x lid c) b lid (-1)%Z)).
    + reflexivity.
    + exists c. split; [|congruence]. destruct ia; [exact Hcell|]. rewrite add_spaced by (rewrite last_put; assumption). exact Hcell.
Qed.

(* after the exit *)
Lemma out_segments fuel n rest : forall lid t b k, tr_out t = true -> tr_cell t = Some k ->
  (ia = false -> last_pt t = b) -> spaced tol ml (b :: rest) ->
  exists t', segments o ml tol ia fuel n lid fin t (b :: rest) = Some (Ok t') /\ grown t t' (if ia then [] else outside lid rest).
Proof.
  induction rest as [|p rest IH]; intros lid t b k Hout Hc Hl Hsp.
  - exists t. split; [reflexivity|]. destruct ia; apply grown_nil.
  - cbn [segments]. rewrite Hc. cbn [move tr_out]. rewrite Hout. cbn [negb]. destruct ia eqn:Eia.
    + exists (move k t). split; [reflexivity|]. exact (grown_nil t).
    + destruct Hsp as (Hf & Hd & Hsp). pose proof (Hl eq_refl) as El.
      assert (El' : last_pt (move k t) = b) by exact El.
      rewrite add_spaced by (rewrite El'; assumption).
      destruct (IH (S lid) (put (move k t) p lid (-1)%Z) p k Hout eq_refl) as (t' & E & G).
      * intros _. apply last_put.
      * exact Hsp.
      * exists t'. split; [exact E|]. exact (grown_trans t _ t' [(p, lid, (-1)%Z)] _ (grown_put (move k t) p lid (-1)%Z) G).
Qed.

Lemma map_points lid l : map point_of (labelled lid l) = map fst l.
Proof. unfold labelled. rewrite map_map. reflexivity. Qed.
Lemma outside_points l : forall lid, map point_of (outside lid l) = l.
Proof. induction l as [|p l IH]; intros lid; [reflexivity|]. cbn. f_equal. apply IH. Qed.

Lemma segments_inside fuel n e lid c ps mid post : inside o ml fin e lid c ps mid post -> forall t,
  n = (lid + length ps - 1)%nat -> c <> (-1)%Z ->
  tr_in t = true -> tr_out t = false -> tr_cell t = Some c -> e = [] \/ e = [last_pt t] ->
  spaced tol ml (last_pt t :: map point_of (mid ++ post)) -> (length mid < fuel)%nat ->
  exists t', segments o ml tol ia fuel n lid fin t ps = Some (Ok t') /\ grown t t' (mid ++ (if ia then [] else post)).
Proof.
  induction 1 as [e lid c a b l d Hl Hd|e lid c a b b' rest l d mid post Hl Hd _ IH|e lid c a b rest l Hl];
    intros t Hn Hc Hin Hout Hcell He Hsp Hfu; cbn [segments]; rewrite Hcell.
  - assert (Hm : move c t = t) by (unfold move; rewrite <- Hcell; destruct t; reflexivity). rewrite Hm, Hout. cbn [negb].
    assert ((S lid =? n)%nat = true) as -> by (apply Nat.eqb_eq; cbn in Hn; lia).
    apply Z.eqb_neq in Hd as Ed.
    destruct (walk_follows true a b lid e c l d Hl t fuel) as (t' & E & G & _); auto.
    + rewrite Ed, app_nil_r. rewrite app_nil_r, map_points in Hsp. exact Hsp.
    + unfold labelled in Hfu. now rewrite map_length in Hfu.
    + rewrite E. exists t'. split; [reflexivity|]. rewrite Ed in G. cbn [andb] in G. destruct ia; exact G.
  - assert (Hm : move c t = t) by (unfold move; rewrite <- Hcell; destruct t; reflexivity). rewrite Hm, Hout. cbn [negb].
    assert ((S lid =? n)%nat = false) as -> by (apply Nat.eqb_neq; cbn in Hn; lia).
    apply Z.eqb_neq in Hd as Ed. rewrite app_length in Hfu. unfold labelled in Hfu at 1. rewrite map_length in Hfu.
    assert (Hsp1 : spaced tol ml (last_pt t :: map fst l)).
    { rewrite <- app_assoc, map_app, map_points in Hsp. exact (proj1 (spaced_app tol ml (last_pt t :: map fst l) _ Hsp)). }
    destruct (walk_follows false a b lid e c l d Hl t fuel) as (t1 & E & G & Ho & k & Hk & Hkd); auto.
    + now rewrite Ed, app_nil_r.
    + lia.
    + rewrite E. rewrite Ed in G, Ho. cbn [andb] in G. rewrite app_nil_r in G.
      destruct (IH t1) as (t' & E' & G'); auto.
      * cbn in Hn |- *. lia.
      * destruct G as (_ & _ & _ & G & _). congruence.
      * rewrite Hk, (Hkd Hd). reflexivity.
      * rewrite <- app_assoc, map_app in Hsp. clear - G Hsp. destruct (labelled lid l) as [|y0 l0].
        -- destruct G as (G & _). unfold last_pt. rewrite G, app_nil_r. exact Hsp.
        -- destruct (exists_last (l := y0 :: l0)) as (l' & y & Ey); [discriminate|]. rewrite Ey in *.
           rewrite (grown_last _ _ _ _ G). rewrite map_app in Hsp. cbn [map] in Hsp. rewrite <- app_assoc in Hsp.
           exact (spaced_last tol ml (last_pt t :: map point_of l') (point_of y) _ Hsp).
      * lia.
      * exists t'. split; [exact E'|]. rewrite <- app_assoc. exact (grown_trans _ _ _ _ _ G G').
  - assert (Hm : move c t = t) by (unfold move; rewrite <- Hcell; destruct t; reflexivity). rewrite Hm, Hout. cbn [negb].
    assert ((S lid =? n)%nat = match rest with [] => true | _ => false end) as ->.
    { destruct rest; cbn in Hn; [apply Nat.eqb_eq; lia|apply Nat.eqb_neq; lia]. }
    rewrite map_app, map_points, outside_points in Hsp. unfold labelled in Hfu. rewrite map_length in Hfu.
    destruct (walk_follows _ a b lid e c l (-1)%Z Hl t fuel) as (t1 & E & G & Ho & k & Hk & _); auto.
    + cbn [Z.eqb Pos.eqb]. assert (Hs : spaced tol ml ((last_pt t :: map fst l ++ [b]) ++ rest)) by (cbn [app]; rewrite <- app_assoc; exact Hsp).
      exact (proj1 (spaced_app _ _ _ _ Hs)).
    + rewrite E. cbn [Z.eqb Pos.eqb andb] in G, Ho.
      destruct (out_segments fuel n rest (S lid) t1 b k) as (t' & E' & G'); auto.
      * intros Eia. rewrite Eia in G. cbn [negb] in G. exact (grown_last _ _ _ _ G).
      * exact (spaced_last tol ml (last_pt t :: map fst l) b rest Hsp).
      * exists t'. split; [exact E'|]. destruct ia; cbn [negb] in *.
        -- rewrite !app_nil_r in *. pose proof (grown_trans _ _ _ _ _ G G') as Q. rewrite app_nil_r in Q. exact Q.
        -- pose proof (grown_trans _ _ _ _ _ G G') as Q. rewrite <- app_assoc in Q. exact Q.
Qed.

(* entering the mesh *)
Definition entered t x0 lid c := move c (enter (put (counted t) x0 lid (-1)%Z)).
Lemma walk_entry final a b lid x0 c l z t fuel : follows o ml fin final a b [x0] c l z ->
  (forall x, shows o a b c [x0; x] -> dist x0 a < dist x a) -> (shows o a b c [x0] -> (1 < length (tr_pts t))%nat) ->
  tr_in t = false -> tr_out t = false -> last_pt t = a -> far tol a x0 -> ml <= dist a x0 -> spaced tol ml (x0 :: map fst l) ->
  walk o ml tol ia (S fuel) lid final a b fin (move c t) = walk o ml tol ia (S fuel) lid final a b fin (entered t x0 lid c).
Proof.
  intros Hf Hnear Hcnt Hin Hout Hl Hfx Hdx Hsp. cbn [walk].
  assert (E0 : forall t', last_pt t' = a -> add t' x0 lid (-1)%Z = put t' x0 lid (-1)%Z) by (intros t' E; apply add_spaced; now rewrite E).
  assert (step lid final a b fin (move c t) = step lid final a b fin (entered t x0 lid c)) as ->; [|reflexivity].
  assert (Q : forall x d, leaves o ml fin a b [x0] c x d -> step lid final a b fin (move c t) = step lid final a b fin (entered t x0 lid c)).
  { intros x d (Hx & Hcd & Ne & r & f & Ec & P & I & S). unfold turn.
    assert (tr_cell (move c t) = Some c) as -> by reflexivity. assert (tr_cell (entered t x0 lid c) = Some c) as -> by reflexivity. rewrite Ec.
    assert (Hd : dist x0 a < dist x a) by (apply Hnear; exists r; auto).
    assert (Hne : x <> x0) by (intros E; apply Ne; now left).
    pose proof (dist_pos x x0 Hne) as Hp.
    assert (El : last_pt (entered t x0 lid c) = x0) by apply last_put.
    assert (El' : last_pt (move c t) = a) by exact Hl.
    assert (Ei : tr_in (move c t) = false) by exact Hin. assert (Ei' : tr_in (entered t x0 lid c) = true) by reflexivity.
    destruct (two_rows _ _ _ _ P I Hne) as (g & [-> | ->]); rewrite !norm_dist, El, El', Ei, Ei'; cbn [negb].
    + rewrite (dist_sym a x0), (dist_sym a x), (Rleb_t (dist x0 a)), (Rleb_f (dist x a)), (Rleb_f (dist x0 x)) by (rewrite ?dist_self, ?(dist_sym x0 x); lra).
      rewrite E0 by exact Hl. reflexivity.
    + rewrite (dist_sym a x0), (dist_sym a x), (Rleb_f (dist x a)), (Rleb_t (dist x0 a)), (Rleb_t (dist x0 x0)) by (rewrite ?dist_self, ?(dist_sym x0 x); lra).
      rewrite E0 by exact Hl. reflexivity. }
  inversion Hf as [e c' Hfin Hs|e c' x d l' z' Hlv|e c' x d Hfin Hlv|e c' x Hlv]; subst; eauto.
  unfold turn.
  assert (tr_cell (move z t) = Some z) as -> by reflexivity. assert (tr_cell (entered t x0 lid z) = Some z) as -> by reflexivity.
  pose proof (Hcnt Hs) as Hlen. destruct Hs as (r & -> & P).
  apply Permutation_sym, Permutation_length_1_inv in P. destruct r as [|[y g] [|]]; try discriminate. cbn in P. injection P as ->.
  assert (El : last_pt (entered t x0 lid z) = x0) by apply last_put.
  assert (tr_in (move z t) = false) as -> by exact Hin. assert (tr_in (entered t x0 lid z) = true) as -> by reflexivity. cbn [negb].
  rewrite El, close_self by exact Htol. rewrite (add_again (entered t x0 lid z)) by exact El. rewrite E0 by reflexivity.
  change (tr_count _) with (length (tr_pts t)). rewrite (proj2 (Nat.ltb_lt _ _) Hlen). reflexivity.
Qed.

(* before the entry *)
Lemma segments_before fuel n ps : forall j lid t,
  (forall k p q, (k < j)%nat -> nth_error ps k = Some p -> nth_error ps (S k) = Some q -> find o p q = []) ->
  (j < length ps)%nat -> spaced tol ml (firstn (S j) ps) -> tr_cell t = None -> tr_in t = false -> tr_out t = false ->
  hd_error ps = Some (last_pt t) ->
  exists t', segments o ml tol ia fuel n lid fin t ps = segments o ml tol ia fuel n (lid + j) fin t' (skipn j ps) /\
    grown t t' (map (fun k => (nth (S k) ps origin, (lid + k)%nat, (-1)%Z)) (seq 0 j)) /\
    tr_cell t' = None /\ tr_out t' = false /\ hd_error (skipn j ps) = Some (last_pt t').
Proof.
  induction ps as [|p ps IH]; intros j lid t Hm Hj Hsp Hc Hin Hout Hh; [cbn in Hj; lia|].
  destruct j as [|j].
  - exists t. rewrite Nat.add_0_r. split; [reflexivity|]. split; [apply grown_nil|auto].
  - destruct ps as [|q ps]; [cbn in Hj; lia|]. cbn in Hh. injection Hh as ->.
    rewrite segments_cons by (auto; apply (Hm 0%nat); auto; lia).
    cbn [firstn spaced] in Hsp. destruct Hsp as (Hf & Hd & Hsp). rewrite add_spaced by assumption.
    destruct (IH j (S lid) (put t q lid (-1)%Z)) as (t' & E & G & H1 & H2 & H3).
    + intros k. intros. apply (Hm (S k)); auto. lia.
    + cbn in Hj |- *. lia.
    + exact Hsp.
    + exact Hc.
    + exact Hin.
    + exact Hout.
    + now rewrite last_put.
    + exists t'. split; [etransitivity; [exact E|f_equal; lia]|]. split; [|auto]. cbn [seq map nth].
      pose proof (grown_trans _ _ _ _ _ (grown_put t q lid (-1)%Z) G) as Q. cbn [app] in Q. rewrite Nat.add_0_r.
      rewrite <- seq_shift, map_map. erewrite map_ext; [exact Q|]. intros k. cbn beta. rewrite Nat.add_succ_r. reflexivity.
Qed.

Lemma nearest_unique a c : forall ids best, (best = c \/ In c ids) ->
  (forall i, i = best \/ In i ids -> i <> c -> dist (center o c) a < dist (center o i) a) -> nearest o a best ids = c.
Proof.
  induction ids as [|i ids IH]; intros best Hb H; cbn [nearest]; [destruct Hb as [|[]]; assumption|].
  rewrite !norm_dist, !(dist_sym a). destruct (Rltb_spec (dist (center o i) a) (dist (center o best) a)) as [Hlt|Hge].
  - apply IH.
    + destruct Hb as [->|[->|Hb]]; auto. destruct (Nat.eq_dec i c) as [|Hi]; [auto|]. specialize (H i ltac:(right; now left) Hi). lra.
    + intros k [->|Hk]; apply H; right; [now left|now right].
  - apply IH.
    + destruct Hb as [->|[->|Hb]]; auto. destruct (Nat.eq_dec best c) as [|Hi]; [auto|]. specialize (H best (or_introl eq_refl) Hi). lra.
    + intros k [->|Hk]; apply H; [now left|right; now right].
Qed.
Lemma first_cell_nearest a b c : In c (find o a b) -> (forall i, In i (find o a b) -> i <> c -> dist (center o c) a < dist (center o i) a) ->
  first_cell o a b = Some (Z.of_nat c).
Proof.
  intros Hc H. unfold first_cell. assert (E : forall x, In x (id_sort (find o a b)) <-> In x (find o a b)) by (intros; apply id_sort_in).
  destruct (id_sort (find o a b)) as [|i ids]; [now apply E in Hc|]. f_equal. f_equal. apply nearest_unique.
  - apply E in Hc as [->|Hc]; auto.
  - intros k Hk. apply H. apply E. destruct Hk; [now left|now right].
Qed.
End Trip.

Lemma skipn_cons {A} (l : list A) j a : nth_error l j = Some a -> skipn j l = a :: skipn (S j) l.
Proof. revert l. induction j as [|j IH]; intros [|x l] H; try discriminate; cbn in *; [congruence|]. rewrite (IH l H). reflexivity. Qed.
Lemma firstn_snoc {A} (l : list A) j a : nth_error l j = Some a -> firstn (S j) l = firstn j l ++ [a].
Proof. revert l. induction j as [|j IH]; intros [|x l] H; try discriminate; cbn in *; [congruence|]. f_equal. apply (IH l H). Qed.
Lemma map_nth_tl (ps : list pt) j : (j < length ps)%nat -> map (fun k => nth (S k) ps origin) (seq 0 j) = tl (firstn (S j) ps).
Proof.
  destruct ps as [|p ps]; [cbn; lia|]. cbn [length firstn tl]. intros H. revert ps H. induction j as [|j IH]; intros ps H; [reflexivity|].
  destruct ps as [|q ps]; [cbn in H; lia|]. cbn [seq map firstn nth]. f_equal. rewrite <- seq_shift, map_map. rewrite <- IH by (cbn in H; lia).
  apply map_ext. intros k. reflexivity.
Qed.

Lemma inside_start {F} (o : oracles F) ml tol fin e lid c a b rest mid post n x0 : inside o ml fin e lid c (a :: b :: rest) mid post ->
  n = (lid + S (length rest))%nat -> spaced tol ml (x0 :: map point_of (mid ++ post)) ->
  exists l z, follows o ml fin (S lid =? n)%nat a b e c l z /\ spaced tol ml (x0 :: map fst l).
Proof.
  intros H -> Hsp. remember (a :: b :: rest) as ps eqn:Eps. destruct H as [e lid c a' b' l d Hfo Hd|e lid c a' b' b'' rest' l d mid post Hfo Hd _|e lid c a' b' rest' l Hfo];
    injection Eps as -> -> E; subst.
  - replace (S lid =? _)%nat with true by (symmetry; apply Nat.eqb_eq; cbn; lia).
    exists l, d. split; [exact Hfo|]. rewrite app_nil_r, map_points in Hsp. exact Hsp.
  - replace (S lid =? _)%nat with false by (symmetry; apply Nat.eqb_neq; cbn; lia).
    exists l, d. split; [exact Hfo|]. rewrite <- app_assoc, map_app, map_points in Hsp. exact (proj1 (spaced_app tol ml (x0 :: map fst l) _ Hsp)).
  - exists l, (-1)%Z. rewrite map_app, map_points in Hsp. split; [|exact (proj1 (spaced_app tol ml (x0 :: map fst l) _ Hsp))].
    replace (S lid =? _)%nat with (match rest with [] => true | _ => false end); [exact Hfo|].
    destruct rest; symmetry; [apply Nat.eqb_eq|apply Nat.eqb_neq]; cbn; lia.
Qed.

Theorem trip_crossings {F} (o : oracles F) ml tol fin pts j x0 c0 mid post : 0 <= tol ->
  trip o ml fin pts j x0 c0 mid post -> spaced tol ml (firstn (S j) pts ++ x0 :: map point_of (mid ++ post)) ->
  forall (ia ib : bool) fuel, (length mid < fuel)%nat ->
  let keep := mid ++ (if ia then [] else post) in
  crossings o ml tol ia fuel ib pts =
  Some (Ok ((if ib then [] else firstn (S j) pts) ++ x0 :: map point_of keep,
            (if ib then [] else seq 0 (S j)) ++ map line_of keep,
            (if ib then [] else repeat (-1)%Z (S j)) ++ map cell_of keep)).
Proof.
  intros Htol (Hfin & Hm & a & b & Ha & Hb & Hc0 & Hnear & Hx & Hj & Hins) Hsp ia ib fuel Hfuel. cbv zeta.
  assert (Hlen : (S j < length pts)%nat) by (apply nth_error_Some; congruence).
  pose proof (skipn_cons _ _ _ Ha) as E1. pose proof (skipn_cons _ _ _ Hb) as E2. rewrite E1, E2 in Hins.
  unfold crossings. destruct pts as [|p0 pts'] eqn:Ep; [discriminate|]. rewrite <- Ep in *. assert (Hh : hd_error pts = Some p0) by now rewrite Ep.
  rewrite <- Hfin. clear pts' Ep. set (t0 := mkT [p0] [] [] false false 0 None).
  destruct (spaced_app _ _ _ _ Hsp) as [Hsp0 _].
  destruct (segments_before o ml tol ia fin fuel (length pts - 1) pts j 0%nat t0 Hm) as (t & E & G & Tc & To & Th); auto; [lia|].
  rewrite E. rewrite E1, E2 in Th |- *. cbn in Th. injection Th as Hla. cbn [Nat.add].
  assert (Hts : tr_pts t = firstn (S j) pts).
  { destruct G as (G & _). rewrite G, map_map. cbn [t0 tr_pts point_of fst]. rewrite map_nth_tl by lia.
    destruct pts; [discriminate|]. cbn in Hh. injection Hh as ->. reflexivity. }
  assert (Hax : far tol a x0 /\ ml <= dist a x0 /\ spaced tol ml (x0 :: map point_of (mid ++ post))).
  { rewrite (firstn_snoc _ _ _ Ha), <- app_assoc in Hsp. cbn [app] in Hsp. apply spaced_last in Hsp. exact Hsp. }
  destruct Hax as (Hfx & Hdx & Hspm).
  set (c := Z.of_nat c0) in *. assert (Hc : c <> (-1)%Z) by (unfold c; lia).
  assert (Hstart : segments o ml tol ia fuel (length pts - 1) j fin t (a :: b :: skipn (S (S j)) pts) =
    segments o ml tol ia fuel (length pts - 1) j fin (entered t x0 j c) (a :: b :: skipn (S (S j)) pts)).
  { cbn [segments]. rewrite Tc, (first_cell_nearest o a b c0 Hc0 Hnear). fold c.
    assert (tr_cell (entered t x0 j c) = Some c) as -> by reflexivity.
    assert (tr_out (move c t) = false) as -> by exact To. assert (move c (entered t x0 j c) = entered t x0 j c) as -> by reflexivity.
    assert (tr_out (entered t x0 j c) = false) as -> by exact To. cbn [negb].
    destruct fuel as [|fuel]; [lia|].
    destruct (inside_start o ml tol fin [x0] j c a b (skipn (S (S j)) pts) mid post (length pts - 1) x0 Hins) as (l & z & Hfo & Hsl);
      [rewrite skipn_length; lia|exact Hspm|].
    rewrite (walk_entry o ml tol ia fin Htol _ a b j x0 c l z t fuel Hfo Hx); auto.
    - intros Hs. rewrite Hts, firstn_length. destruct j as [|j']; [now destruct (Hj eq_refl)|]. lia.
    - destruct G as (_ & _ & _ & G & _). exact G. }
  rewrite Hstart.
  assert (El : last_pt (entered t x0 j c) = x0) by apply last_put.
  destruct (segments_inside o ml tol ia fin Htol fuel (length pts - 1) _ _ _ _ _ _ Hins (entered t x0 j c)) as (t' & E' & G'); auto.
  - cbn [length]. rewrite skipn_length. lia.
  - right. now rewrite El.
  - rewrite El. exact Hspm.
  - rewrite E'. set (keep := mid ++ (if ia then [] else post)) in *.
    destruct G as (_ & G2 & G3 & _ & _). destruct G' as (P1 & P2 & P3 & _ & P5).
    assert (C1 : tr_count t' = S j) by (rewrite P5; cbn; rewrite Hts, firstn_length; lia).
    assert (L1 : tr_pts (entered t x0 j c) = firstn (S j) pts ++ [x0]) by (cbn; now rewrite Hts).
    assert (L2 : tr_lines (entered t x0 j c) = seq 0 (S j)).
    { cbn [entered move enter put counted tr_lines]. rewrite G2. cbn [t0 tr_lines app]. rewrite map_map. cbn [line_of fst snd].
      rewrite map_id, seq_S. reflexivity. }
    assert (L3 : tr_cells (entered t x0 j c) = repeat (-1)%Z (S j)).
    { cbn [entered move enter put counted tr_cells]. rewrite G3. cbn [t0 tr_cells app]. rewrite map_map. cbn [cell_of snd].
      rewrite <- repeat_snoc. f_equal. clear. generalize 0%nat as s. induction j as [|j IH]; intros s; [reflexivity|]. cbn. f_equal. apply IH. }
    rewrite P1, P2, P3, L1, L2, L3, C1, <- app_assoc. cbn [app]. destruct ib; [|reflexivity].
    assert (Sk : forall B (l l' : list B), length l = S j -> skipn (S j) (l ++ l') = l').
    { intros B l l' E0. rewrite <- E0, skipn_app, skipn_all, Nat.sub_diag. reflexivity. }
    rewrite !Sk; [reflexivity|apply repeat_length|apply seq_length|]. rewrite firstn_length. lia.
Qed.

Lemma outside_last l : forall lid b, last (map point_of (outside lid (b :: l))) origin = last (b :: l) origin.
Proof. intros. now rewrite outside_points. Qed.
Lemma last_app_ne {A} (l l' : list A) d : l' <> [] -> last (l ++ l') d = last l' d.
Proof.
  intros H. destruct (exists_last H) as (l1 & x & ->). rewrite app_assoc, !last_last. reflexivity.
Qed.
Lemma follows_end {F} (o : oracles F) ml fin a b e c l z : follows o ml fin true a b e c l z -> z <> (-1)%Z ->
  l <> [] /\ last (map fst l) origin = b.
Proof.
  intros H Hz. induction H as [| e c x d l z Hl Hd Hn H IH | | ]; try congruence.
  - destruct (IH Hz) as [H1 H2]. split; [discriminate|]. cbn [map]. destruct (map fst l) eqn:E; [destruct l; [contradiction|discriminate]|]. exact H2.
  - split; [discriminate|reflexivity].
Qed.
Lemma inside_last {F} (o : oracles F) ml fin e lid c ps mid post : inside o ml fin e lid c ps mid post ->
  mid ++ post <> [] /\ last (map point_of (mid ++ post)) origin = last ps origin.
Proof.
  induction 1 as [e lid c a b l d Hl Hd|e lid c a b b' rest l d mid post Hl Hd _ IH|e lid c a b rest l Hl].
  - destruct (follows_end _ _ _ _ _ _ _ _ _ Hl Hd) as [H1 H2]. rewrite app_nil_r, map_points. split; [destruct l; [contradiction|discriminate]|exact H2].
  - destruct IH as [H1 H2]. rewrite <- app_assoc, map_app. split.
    + intros E. apply app_eq_nil in E as [_ E]. contradiction.
    + rewrite last_app_ne by (destruct (mid ++ post); [contradiction|discriminate]). exact H2.
  - split; [destruct (labelled lid l); discriminate|]. rewrite map_app, last_app_ne by discriminate. rewrite outside_last. reflexivity.
Qed.
Lemma last_skipn {A} (l : list A) j d : (j < length l)%nat -> last (skipn j l) d = last l d.
Proof.
  revert l. induction j as [|j IH]; intros [|x l] H; cbn in H; try lia; [reflexivity|]. cbn [skipn]. rewrite IH by lia.
  destruct l; [cbn in H; lia|reflexivity].
Qed.
Lemma trip_last {F} (o : oracles F) ml tol fin pts j x0 c0 mid post : 0 <= tol ->
  trip o ml fin pts j x0 c0 mid post -> spaced tol ml (firstn (S j) pts ++ x0 :: map point_of (mid ++ post)) ->
  forall (ia ib : bool) fuel, (length mid < fuel)%nat -> ia = false \/ post = [] ->
  exists ps ls cs, crossings o ml tol ia fuel ib pts = Some (Ok (ps ++ [last pts origin], ls, cs)).
Proof.
  intros Ht Htr Hsp ia ib fuel Hf Hor.
  pose proof (trip_crossings o ml tol fin pts j x0 c0 mid post Ht Htr Hsp ia ib fuel Hf) as E. cbv zeta in E.
  destruct Htr as (_ & _ & a & b & Ha & _ & _ & _ & _ & _ & Hins). apply inside_last in Hins as [Hne Hl].
  rewrite last_skipn in Hl by (apply nth_error_Some; congruence).
  assert (mid ++ (if ia then [] else post) = mid ++ post) as Em by (destruct Hor as [-> | ->]; [reflexivity|destruct ia; reflexivity]).
  rewrite Em in E. destruct (exists_last (l := map point_of (mid ++ post))) as (l & x & El); [destruct (mid ++ post); [contradiction|discriminate]|].
  rewrite El, last_last in Hl. subst x. rewrite E, El.
  exists ((if ib then [] else firstn (S j) pts) ++ x0 :: l). do 2 eexists. rewrite <- app_assoc. reflexivity.
Qed.
