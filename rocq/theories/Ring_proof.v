(* Lemmas on closed rings of vertices and VTK cell streams. *)
From Verif Require Import Grid Volume_spec.
From Coq Require Import Permutation.
Open Scope nat_scope.

Section Rings.
Context {A : Type}.
Implicit Types (l f : list A).

Definition sw {B} (e : B * B) : B * B := (snd e, fst e).

Lemma pairs_cons x y l : pairs (x :: y :: l) = (x, y) :: pairs (y :: l).
Proof. reflexivity. Qed.

Lemma pairs_app l x m : pairs (l ++ x :: m) = pairs (l ++ [x]) ++ pairs (x :: m).
Proof.
  induction l as [|y l IH]; [reflexivity|].
  destruct l as [|z l]; [reflexivity|].
  cbn [app]. rewrite !pairs_cons. cbn [app]. f_equal. apply IH.
Qed.

Lemma pairs_rev l : pairs (rev l) = rev (map sw (pairs l)).
Proof.
  induction l as [|x l IH]; [reflexivity|].
  destruct l as [|y l]; [reflexivity|].
  rewrite pairs_cons. cbn [map rev]. rewrite <- IH.
  cbn [rev]. rewrite <- app_assoc. cbn [app]. rewrite pairs_app. reflexivity.
Qed.

Lemma pairs_combine x l : pairs (x :: l) = combine (x :: l) l.
Proof.
  revert x; induction l as [|y l IH]; intros x; [reflexivity|].
  rewrite pairs_cons, IH. reflexivity.
Qed.

Lemma combine_app_l (l m k : list A) : combine (l ++ m) k = combine l k ++ combine m (skipn (length l) k).
Proof.
  revert k; induction l as [|x l IH]; intros k; [reflexivity|].
  destruct k; simpl; [rewrite combine_nil; auto|]. f_equal; auto.
Qed.

Lemma ring_edges_combine x l : ring_edges (x :: l) = combine (x :: l) (l ++ [x]).
Proof.
  unfold ring_edges. rewrite pairs_combine.
  change (x :: l ++ [x]) with ((x :: l) ++ [x]).
  rewrite combine_app_l, skipn_all2 by (rewrite app_length; simpl; lia).
  rewrite combine_nil, app_nil_r. reflexivity.
Qed.

Lemma ring_edges_length f : length (ring_edges f) = length f.
Proof.
  destruct f as [|x l]; [reflexivity|].
  rewrite ring_edges_combine, combine_length, app_length; cbn [length]; lia.
Qed.

Lemma ring_edges_fst f : map fst (ring_edges f) = f.
Proof.
  destruct f as [|x l]; [reflexivity|]. rewrite ring_edges_combine.
  assert (length (x :: l) = length (l ++ [x])) as H by (rewrite app_length; simpl; lia).
  revert H. generalize (x :: l) (l ++ [x]). intros a; induction a as [|y a IH]; intros [|z b] H;
    simpl in *; try lia; auto. f_equal; apply IH; lia.
Qed.

Lemma ring_edges_snd x l : map snd (ring_edges (x :: l)) = l ++ [x].
Proof.
  rewrite ring_edges_combine.
  assert (length (x :: l) = length (l ++ [x])) as H by (rewrite app_length; simpl; lia).
  revert H. generalize (x :: l) (l ++ [x]). intros a; induction a as [|y a IH]; intros [|z b] H;
    simpl in *; try lia; auto. f_equal; apply IH; lia.
Qed.

Lemma ring_edges_snd_perm f : Permutation (map snd (ring_edges f)) f.
Proof.
  destruct f as [|x l]; [reflexivity|]. rewrite ring_edges_snd.
  symmetry; apply Permutation_cons_append.
Qed.

Lemma ring_edges_rotate x l : Permutation (ring_edges (l ++ [x])) (ring_edges (x :: l)).
Proof.
  destruct l as [|y l]; [reflexivity|].
  cbn [app ring_edges]. rewrite pairs_cons.
  rewrite <- app_assoc. cbn [app].
  change (y :: l ++ x :: [y]) with ((y :: l) ++ x :: [y]). rewrite pairs_app.
  cbn [pairs app]. symmetry. apply Permutation_cons_append.
Qed.

Lemma ring_edges_rev f : Permutation (ring_edges (rev f)) (map sw (ring_edges f)).
Proof.
  destruct f as [|x l]; [reflexivity|]. cbn [rev].
  rewrite ring_edges_rotate. cbn [ring_edges].
  replace (x :: rev l ++ [x]) with (rev (x :: l ++ [x]))
    by (cbn [rev]; rewrite rev_app_distr; reflexivity).
  rewrite pairs_rev. symmetry; apply Permutation_rev.
Qed.

Lemma ring_edges_in f u v : In (u, v) (ring_edges f) -> In u f /\ In v f.
Proof.
  intros H; split.
  - rewrite <- (ring_edges_fst f). change u with (fst (u, v)). apply in_map; auto.
  - eapply Permutation_in; [apply ring_edges_snd_perm|].
    change v with (snd (u, v)). apply in_map; auto.
Qed.

Lemma ring_edges_NoDup f : NoDup f -> NoDup (ring_edges f).
Proof. intros H; apply (NoDup_map_inv fst). rewrite ring_edges_fst; auto. Qed.

Lemma ring_edge_fun f u v w : NoDup f -> In (u, v) (ring_edges f) -> In (u, w) (ring_edges f) -> v = w.
Proof.
  intros Hn. assert (NoDup (map fst (ring_edges f))) as H by (rewrite ring_edges_fst; auto).
  revert H. generalize (ring_edges f) as es. induction es as [|[a b] es IH]; simpl; [tauto|].
  intros H; inversion H as [|? ? Ha Hes]; subst. intros [E1|H1] [E2|H2].
  - congruence.
  - exfalso; apply Ha. injection E1 as -> ->. change u with (fst (u, w)). apply in_map; auto.
  - exfalso; apply Ha. injection E2 as -> ->. change u with (fst (u, v)). apply in_map; auto.
  - auto.
Qed.

Lemma ring_edges_nth f i u v :
  nth_error (ring_edges f) i = Some (u, v) ->
  nth_error f i = Some u /\ nth_error f (if S i =? length f then 0 else S i) = Some v.
Proof.
  destruct f as [|x l]; [destruct i; discriminate|].
  intros H.
  assert (nth_error (map fst (ring_edges (x :: l))) i = Some u) as H1 by (rewrite nth_error_map, H; auto).
  assert (nth_error (map snd (ring_edges (x :: l))) i = Some v) as H2 by (rewrite nth_error_map, H; auto).
  rewrite ring_edges_fst in H1. rewrite ring_edges_snd in H2. split; auto.
  destruct (Nat.eqb_spec (S i) (length (x :: l))) as [E|E].
  - simpl in E. injection E as ->. rewrite nth_error_app2, Nat.sub_diag in H2 by lia. exact H2.
  - assert (i < length l).
    { assert (i < length (l ++ [x])) by (apply nth_error_Some; congruence).
      rewrite app_length in H0; simpl in *; lia. }
    rewrite nth_error_app1 in H2 by auto. exact H2.
Qed.

(* in a ring of at least three distinct vertices no edge is followed backwards *)
Lemma ring_edges_asym f u v :
  NoDup f -> 3 <= length f -> In (u, v) (ring_edges f) -> In (v, u) (ring_edges f) -> False.
Proof.
  intros Hn Hl H1 H2.
  apply In_nth_error in H1 as (i & Hi). apply In_nth_error in H2 as (j & Hj).
  assert (i < length f /\ j < length f) as [Hil Hjl].
  { rewrite <- (ring_edges_length f). split; apply nth_error_Some; congruence. }
  apply ring_edges_nth in Hi; apply ring_edges_nth in Hj.
  destruct Hi as [Hi1 Hi2], Hj as [Hj1 Hj2].
  assert (forall a b x, nth_error f a = Some x -> nth_error f b = Some x -> a = b) as Hinj.
  { intros a b x Ha Hb. eapply NoDup_nth_error; eauto; [apply nth_error_Some|]; congruence. }
  pose proof (Hinj _ _ _ Hi2 Hj1) as E1. pose proof (Hinj _ _ _ Hj2 Hi1) as E2.
  destruct (Nat.eqb_spec (S i) (length f)), (Nat.eqb_spec (S j) (length f)); lia.
Qed.

End Rings.

Lemma ring_edges_map {A B} (g : A -> B) f :
  ring_edges (map g f) = map (fun e => (g (fst e), g (snd e))) (ring_edges f).
Proof.
  destruct f as [|x l]; [reflexivity|]. cbn [map].
  rewrite !ring_edges_combine.
  replace (map g l ++ [g x]) with (map g (l ++ [x])) by (rewrite map_app; reflexivity).
  change (g x :: map g l) with (map g (x :: l)).
  generalize (x :: l) (l ++ [x]). intros a; induction a as [|y a IH]; intros [|z b]; simpl; auto.
  f_equal; auto.
Qed.


(* ------------------------------------------------------------------ *)
(* streams *)

Lemma decode_app ts1 s1 c1 ts2 s2 :
  decode ts1 s1 = Some c1 ->
  decode (ts1 ++ ts2) (s1 ++ s2) = option_map (app c1) (decode ts2 s2).
Proof.
  revert s1 c1; induction ts1 as [|t ts1 IH]; intros s1 c1 H; cbn [decode app] in *.
  - destruct s1; [|discriminate]. injection H as <-. cbn [app].
    destruct (decode ts2 s2); reflexivity.
  - destruct s1 as [|n s1]; [discriminate|]. cbn [app].
    destruct (Nat.ltb_spec (length s1) n) as [|Hn]; [discriminate|].
    destruct (Nat.ltb_spec (length (s1 ++ s2)) n) as [Hn'|_]; [rewrite app_length in Hn'; lia|].
    rewrite firstn_app, skipn_app. replace (n - length s1) with 0 by lia.
    cbn [firstn skipn]. rewrite app_nil_r.
    destruct (decode_cell t (firstn n s1)) as [c|]; [|discriminate].
    destruct (decode ts1 (skipn n s1)) as [cs|] eqn:E; [|discriminate].
    injection H as <-. rewrite (IH _ _ E). destruct (decode ts2 s2); reflexivity.
Qed.

Lemma take_faces_ok fs rest :
  take_faces (length fs) (flat_map (fun f => length f :: f) fs ++ rest) = Some (fs, rest).
Proof.
  induction fs as [|f fs IH]; [reflexivity|].
  cbn [length flat_map take_faces app].
  rewrite <- app_assoc.
  destruct (Nat.ltb_spec (length (f ++ flat_map (fun f => length f :: f) fs ++ rest)) (length f)) as [H|_].
  { rewrite !app_length in H; lia. }
  rewrite skipn_app, skipn_all, Nat.sub_diag. cbn [app skipn]. rewrite IH.
  rewrite firstn_app, firstn_all, Nat.sub_diag. cbn [firstn]. rewrite app_nil_r. reflexivity.
Qed.

Lemma decode_plain t ids : t <> 42 -> decode [t] (length ids :: ids) = Some [Plain t ids].
Proof.
  intros H; cbn [decode]. rewrite Nat.ltb_irrefl, firstn_all, skipn_all.
  unfold decode_cell. destruct (Nat.eqb_spec t 42); [contradiction|]. reflexivity.
Qed.

Lemma decode_poly fs :
  let body := flat_map (fun f => length f :: f) fs in
  decode [42] ((length body + 1) :: length fs :: body) = Some [Poly fs].
Proof.
  cbv zeta. set (body := flat_map _ fs). cbn [decode].
  replace (length body + 1) with (length (length fs :: body)) by (simpl; lia).
  rewrite Nat.ltb_irrefl, firstn_all, skipn_all.
  unfold decode_cell. cbn [Nat.eqb].
  pose proof (take_faces_ok fs []) as H. rewrite app_nil_r in H. fold body in H. rewrite H. reflexivity.
Qed.
