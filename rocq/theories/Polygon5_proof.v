(* Polygon: what is given to gmsh, and the mesh made of its answer. *)
From Coq Require Import Reals Lra Lia.
From Verif Require Import Prelude Surface_model Volume_spec Topo2_proof Lines_model Lines_spec Lines1_proof Lines5_proof
  Polygon_model Polygon_spec Polygon1_proof Polygon4_proof.
Open Scope nat_scope.

Lemma combine_fst {A B} (l : list A) : forall m : list B, length l <= length m -> map fst (combine l m) = l.
Proof.
  induction l as [|x l IH]; intros [|y m] H; try reflexivity; cbn in H; [lia|].
  cbn. rewrite IH by lia. reflexivity.
Qed.
Lemma nth_error_combine_some {A B} (l : list A) : forall (m : list B) k x y,
  nth_error l k = Some x -> nth_error m k = Some y -> nth_error (combine l m) k = Some (x, y).
Proof.
  induction l as [|a l IH]; intros [|b m] [|k] x y Hx Hy; cbn in *; try discriminate; [congruence | auto].
Qed.

Lemma added_app s t : added (s ++ t) = added s ++ added t.
Proof. induction s as [|o s IH]; [reflexivity|]. destruct o; cbn; rewrite ?IH; reflexivity. Qed.
Lemma drawn_app s t : drawn (s ++ t) = drawn s ++ drawn t.
Proof. induction s as [|o s IH]; [reflexivity|]. destruct o; cbn; rewrite ?IH; reflexivity. Qed.

Lemma draws_app t s e ends : draws t e ends -> draws (t ++ s) e ends.
Proof.
  intros (H1 & H2 & H3 & H4). unfold draws. rewrite added_app, map_app. repeat split; auto.
  - rewrite nth_error_app1; [exact H3|]. apply nth_error_Some. congruence.
  - rewrite nth_error_app1; [exact H4|]. apply nth_error_Some. congruence.
Qed.

(* ---- sizes ---- *)
Lemma row_norm_dist a b : row_norm a b = row_dist a b.
Proof.
  unfold row_norm, row_dist. f_equal. f_equal. revert b.
  induction a as [|x a IH]; intros [|y b]; try reflexivity. cbn [map2 combine map]. rewrite IH. f_equal.
  cbn [fst snd]. ring.
Qed.

Lemma diff_norms_length l : length (diff_norms l) = length l - 1.
Proof. unfold diff_norms. rewrite map2_length. destruct l; cbn [tl length]; lia. Qed.

Lemma diff_norms_nth l k a b : nth_error l k = Some a -> nth_error l (S k) = Some b ->
  nth_error (diff_norms l) k = Some (row_dist a b).
Proof.
  intros Ha Hb. unfold diff_norms. rewrite map2_nth_error, Ha.
  assert (E : nth_error (tl l) k = nth_error l (S k)) by (destruct l; [destruct k|]; reflexivity).
  rewrite E, Hb, row_norm_dist. reflexivity.
Qed.

Lemma nth_error_snoc_hd {A} (l : list A) p k c : nth_error l 0 = Some p ->
  k < length l -> nth_error l ((k + 1) mod length l) = Some c -> nth_error (l ++ [p]) (S k) = Some c.
Proof.
  intros Hp Hk Hc. destruct (Nat.eq_dec (k + 1) (length l)) as [E|E].
  - rewrite E, Nat.mod_same in Hc by lia. rewrite nth_error_app2 by lia.
    replace (S k - length l) with 0 by lia. cbn. congruence.
  - rewrite Nat.mod_small in Hc by lia. rewrite nth_error_app1 by lia.
    replace (S k) with (k + 1) by lia. exact Hc.
Qed.

Lemma mesh_sizes_spec tri cs p l : exists sizes,
  mesh_sizes tri cs ((p :: l) ++ [p]) = Ok sizes /\
  sized_as cs (if tri then 1 else 2)%R (p :: l) (combine (p :: l) sizes) /\ length sizes = length (p :: l).
Proof.
  set (ring := p :: l). set (f := if tri then 1%R else 2%R).
  assert (Hhd : nth_error ring 0 = Some p) by reflexivity.
  assert (Hpos : 0 < length ring) by (cbn; lia). clearbody ring.
  unfold mesh_sizes. destruct cs as [c|].
  - cbn [bind]. eexists. split; [reflexivity|]. rewrite app_length. cbn [length].
    replace (length ring + 1 - 1) with (length ring) by lia.
    split; [|rewrite map_length, repeat_length; reflexivity].
    cbn [sized_as]. fold f. clear. induction ring as [|r ring IH]; [reflexivity|].
    cbn [length repeat map combine]. rewrite IH. f_equal. f_equal. ring.
  - assert (Hn := diff_norms_length (ring ++ [p])). rewrite app_length in Hn. cbn [length] in Hn.
    assert (Hdn : forall k b c, nth_error ring k = Some b -> nth_error ring ((k + 1) mod length ring) = Some c ->
              nth_error (diff_norms (ring ++ [p])) k = Some (row_dist b c)).
    { intros k b c Hb Hc. assert (Hk : k < length ring) by (apply nth_error_Some; congruence).
      apply diff_norms_nth; [rewrite nth_error_app1 by lia; exact Hb|].
      apply nth_error_snoc_hd; assumption. }
    destruct (diff_norms (ring ++ [p])) as [|l0 ls] eqn:El; [cbn in Hn; lia|].
    set (L := l0 :: ls) in *. cbn [bind]. eexists. split; [reflexivity|].
    assert (Hlen : length (map2 Rmax (last L l0 :: L) L) = length ring).
    { rewrite map2_length. cbn [length]. lia. }
    split; [|rewrite map_length; exact Hlen].
    cbn [sized_as]. split.
    + rewrite combine_fst; [reflexivity|]. rewrite map_length. lia.
    + intros k a b c (Hb & Ha & Hc).
      assert (Hk : k < length ring) by (apply nth_error_Some; congruence).
      assert (Hbc := Hdn k b c Hb Hc).
      assert (Hprev : nth_error (last L l0 :: L) k = Some (row_dist a b)).
      { destruct k as [|k].
        - cbn [nth_error]. rewrite <- last_nth_error by (subst L; discriminate).
          rewrite Hn. replace (length ring + 1 - 1 - 1) with (length ring - 1) by lia.
          apply Hdn.
          + rewrite Nat.mod_small in Ha by lia. exact Ha.
          + replace (length ring - 1 + 1) with (length ring) by lia. rewrite Nat.mod_same by lia. exact Hb.
        - cbn [nth_error]. apply Hdn.
          + replace (S k + length ring - 1) with (k + 1 * length ring) in Ha by lia.
            rewrite Nat.mod_add, Nat.mod_small in Ha by lia. exact Ha.
          + rewrite Nat.mod_small by lia. replace (k + 1) with (S k) by lia. exact Hb. }
      apply nth_error_combine_some; [exact Hb|]. rewrite nth_error_map, map2_nth_error, Hprev, Hbc.
      cbn [option_map]. f_equal. fold f. ring.
Qed.

(* ---- calls ---- *)
Lemma call_ok g o t t' k : call g o t = (t', Ok k) -> t' = t ++ [o] /\ g t o = Some k.
Proof. unfold call. destruct (g t o); intros [= <- <-]; auto. Qed.

Lemma gbind_ok {A B} (m : gm A) (f : A -> gm B) t t' y :
  gbind m f t = (t', Ok y) -> exists t1 x, m t = (t1, Ok x) /\ f x t1 = (t', Ok y).
Proof. unfold gbind. destruct (m t) as [t1 [x|e]]; [eauto | discriminate]. Qed.

Lemma points_ok g : forall l t t' tags,
  gmapM (fun rs => if length (fst rs) =? 3 then call g (AddPoint (fst rs) (snd rs)) else gerr ValueError) l t
    = (t', Ok tags) ->
  t' = t ++ map (fun rs => AddPoint (fst rs) (snd rs)) l /\ length tags = length l /\
  (numbered g -> tags = seq (S (length (added t))) (length l)).
Proof.
  induction l as [|[r s] l IH]; intros t t' tags H.
  - cbn in H. injection H as <- <-. rewrite app_nil_r. auto.
  - cbn [gmapM fst snd] in H. apply gbind_ok in H as (t1 & k & H1 & H).
    apply gbind_ok in H as (t2 & ks & H2 & H). cbn in H. injection H as <- <-.
    destruct (length r =? 3); [|discriminate]. apply call_ok in H1 as [-> Hk].
    apply IH in H2 as (-> & Hl & Hn). cbn [map fst snd length]. split; [rewrite <- app_assoc; reflexivity|].
    split; [lia|]. intros N. rewrite (N _ _ _ _ Hk). cbn [seq]. f_equal. rewrite Hn by exact N.
    rewrite added_app. cbn [added]. rewrite app_length. cbn [length]. f_equal. lia.
Qed.

Lemma lines_ok g : forall l t t' tags,
  gmapM (fun ab => call g (AddLine (fst ab) (snd ab))) l t = (t', Ok tags) ->
  t' = t ++ map (fun ab => AddLine (fst ab) (snd ab)) l.
Proof.
  induction l as [|[a b] l IH]; intros t t' tags H.
  - cbn in H. injection H as <- _. rewrite app_nil_r. reflexivity.
  - cbn [gmapM fst snd] in H. apply gbind_ok in H as (t1 & k & H1 & H).
    apply gbind_ok in H as (t2 & ks & H2 & H). cbn in H. injection H as <- _.
    apply call_ok in H1 as [-> _]. apply IH in H2. rewrite H2. cbn [map fst snd]. rewrite <- app_assoc. reflexivity.
Qed.

Lemma added_points l : added (map (fun rs => AddPoint (fst rs) (snd rs)) l) = l.
Proof. induction l as [|[r s] l IH]; [reflexivity|]. cbn. rewrite IH. reflexivity. Qed.
Lemma drawn_points l : drawn (map (fun rs : list R * R => AddPoint (fst rs) (snd rs)) l) = [].
Proof. induction l as [|[r s] l IH]; [reflexivity|]. cbn. exact IH. Qed.
Lemma added_lines l : added (map (fun ab => AddLine (fst ab) (snd ab)) l) = [].
Proof. induction l as [|[r s] l IH]; [reflexivity|]. cbn. exact IH. Qed.
Lemma drawn_lines l : drawn (map (fun ab => AddLine (fst ab) (snd ab)) l) = l.
Proof. induction l as [|[r s] l IH]; [reflexivity|]. cbn. rewrite IH. reflexivity. Qed.

Lemma ring_edges_drawn {A} (t0 : A) tags :
  combine (removelast (t0 :: tags)) (tl (t0 :: tags)) ++ [(last (t0 :: tags) t0, t0)] = ring_edges (t0 :: tags).
Proof.
  cbn [ring_edges tl].
  assert (K : forall (tags : list A) x y d, combine (removelast (x :: tags)) tags ++ [(last (x :: tags) d, y)] = pairs (x :: tags ++ [y])).
  { clear. intros tags. induction tags as [|z tags IH]; intros x y d; [reflexivity|].
    change (removelast (x :: z :: tags)) with (x :: removelast (z :: tags)).
    change (last (x :: z :: tags) d) with (last (z :: tags) d).
    cbn [combine app]. rewrite IH. reflexivity. }
  apply K.
Qed.

(* what is drawn for some rings, after calls t *)
Definition outline (g : gmsh) (cs : option R) (f : R) (rings : list (list (list R))) (t s : list gop) : Prop :=
  (exists blocks, added s = concat blocks /\ Forall2 (sized_as cs f) rings blocks) /\
  (numbered g -> Forall2 (draws (t ++ s)) (drawn s) (flat_map ring_edges rings)).

Lemma sized_as_fst cs f ring block : sized_as cs f ring block -> map fst block = ring.
Proof.
  destruct cs as [c|]; cbn [sized_as]; [|intros [H _]; exact H].
  intros ->. rewrite map_map. cbn. apply map_id.
Qed.

Lemma seq_ring_edges {A} (ring : list A) a :
  Forall2 (fun e ends => a <= fst e /\ a <= snd e /\ nth_error ring (fst e - a) = Some (fst ends) /\
                         nth_error ring (snd e - a) = Some (snd ends))
          (ring_edges (seq a (length ring))) (ring_edges ring).
Proof.
  destruct ring as [|p l]; [constructor|]. cbn [length seq ring_edges].
  set (ring := p :: l). set (vs := seq (S a) (length l)).
  assert (K : forall ids rs,
    Forall2 (fun i r => a <= i /\ nth_error ring (i - a) = Some r) ids rs ->
    Forall2 (fun e ends => a <= fst e /\ a <= snd e /\ nth_error ring (fst e - a) = Some (fst ends) /\
                         nth_error ring (snd e - a) = Some (snd ends)) (pairs ids) (pairs rs)).
  { intros ids rs H. induction H as [|i r ids rs [Hi Hr] H IH]; [constructor|].
    destruct H as [|j r' ids rs [Hj Hr'] H]; [constructor|].
    cbn [pairs]. constructor; [cbn [fst snd]; auto | exact IH]. }
  apply K.
  assert (Hmid : Forall2 (fun i r => a <= i /\ nth_error ring (i - a) = Some r) (seq a (length ring)) ring).
  { apply Forall2_from_nth; [rewrite seq_length; reflexivity|]. intros i x y Hx Hy. rewrite nth_error_seq in Hx.
    destruct (i <? length ring); [|discriminate]. injection Hx as <-. split; [lia|].
    replace (a + i - a) with i by lia. exact Hy. }
  change (p :: l ++ [p]) with ((p :: l) ++ [p]). change (a :: vs ++ [a]) with ((a :: vs) ++ [a]).
  apply Forall2_app; [exact Hmid|]. constructor; [|constructor]. split; [lia|]. rewrite Nat.sub_diag. reflexivity.
Qed.

Lemma add_surface_outline g tri cs rl p l t t' k :
  add_surface g tri cs rl ((p :: l) ++ [p]) t = (t', Ok k) ->
  exists s, t' = t ++ s /\ outline g cs (if tri then 1 else 2)%R [p :: l] t s.
Proof.
  intros H. unfold add_surface in H.
  destruct (mesh_sizes_spec tri cs p l) as (sizes & Es & Hs & Hl). rewrite Es in H.
  apply gbind_ok in H as (t1 & sz & H1 & H). cbn in H1. injection H1 as <- <-.
  apply gbind_ok in H as (t2 & tags & H1 & H). rewrite removelast_snoc in H1.
  apply points_ok in H1 as (-> & Htl & Htags).
  apply gbind_ok in H as (t3 & lines & H1 & H). apply lines_ok in H1. subst t3.
  rewrite combine_length, Hl, Nat.min_id in Htl, Htags.
  destruct tags as [|t0 tags]; [discriminate|].
  apply gbind_ok in H as (t4 & l1 & H1 & H). apply call_ok in H1 as [-> _].
  apply gbind_ok in H as (t5 & loop & H1 & H). apply call_ok in H1 as [-> _].
  assert (E : exists s', t' = (((t ++ map (fun rs => AddPoint (fst rs) (snd rs)) (combine (p :: l) sizes)) ++
     map (fun ab => AddLine (fst ab) (snd ab)) (combine (removelast (t0 :: tags)) (tl (t0 :: tags)))) ++
     [AddLine (last (t0 :: tags) t0) t0]) ++ [AddCurveLoop (lines ++ [l1])] ++ s' /\ added s' = [] /\ drawn s' = []).
  { destruct rl.
    - cbn in H. injection H as <- _. exists []. rewrite app_nil_r. auto.
    - apply call_ok in H as [-> _]. eexists. rewrite <- app_assoc. split; [reflexivity|]. auto. }
  destruct E as (s' & -> & Ha & Hd).
  eexists. rewrite <- !app_assoc. split; [reflexivity|].
  set (block := combine (p :: l) sizes) in *.
  assert (Hfst := sized_as_fst _ _ _ _ Hs).
  match goal with |- outline _ _ _ _ _ ?S => set (s := S) end.
  assert (Eadd : added s = block).
  { unfold s. rewrite !added_app, added_points, added_lines. cbn [added app]. rewrite Ha, app_nil_r. reflexivity. }
  assert (Edr : drawn s = ring_edges (t0 :: tags)).
  { unfold s. rewrite !drawn_app, drawn_points, drawn_lines. cbn [drawn app]. rewrite Hd.
    apply ring_edges_drawn. }
  split.
  - exists [block]. rewrite Eadd. cbn [concat]. rewrite app_nil_r. split; [reflexivity | repeat constructor; exact Hs].
  - intros N. rewrite Edr, (Htags N). cbn [flat_map]. rewrite app_nil_r.
    assert (Q := seq_ring_edges (p :: l) (S (length (added t)))).
    induction Q as [|e ends es endss (Q1 & Q2 & Q3 & Q4) _ IH]; constructor; [|exact IH].
    unfold draws. rewrite added_app, Eadd, map_app, Hfst.
    split; [lia|]. split; [lia|].
    split; rewrite nth_error_app2; rewrite map_length; try lia.
    + rewrite <- Q3. f_equal. lia.
    + rewrite <- Q4. f_equal. lia.
Qed.

Lemma outline_app g cs f r1 r2 t s1 s2 :
  outline g cs f r1 t s1 -> outline g cs f r2 (t ++ s1) s2 -> outline g cs f (r1 ++ r2) t (s1 ++ s2).
Proof.
  intros [(b1 & A1 & F1) D1] [(b2 & A2 & F2) D2]. split.
  - exists (b1 ++ b2). rewrite added_app, A1, A2, concat_app. split; [reflexivity | apply Forall2_app; assumption].
  - intros N. rewrite drawn_app, flat_map_app. apply Forall2_app.
    + specialize (D1 N). rewrite app_assoc. eapply Forall2_impl; [|exact D1].
      intros. apply draws_app. assumption.
    + specialize (D2 N). rewrite <- app_assoc in D2. exact D2.
Qed.

Lemma outline_nil g cs f t s : added s = [] -> drawn s = [] -> outline g cs f [] t s.
Proof.
  intros Ha Hd. split.
  - exists []. split; [exact Ha | constructor].
  - intros _. rewrite Hd. constructor.
Qed.

Definition closed (ring : list (list R)) : list (list R) := ring ++ firstn 1 ring.

Lemma surfaces_outline_map g tri cs rl : forall rings t t' tags,
  Forall (fun r => r <> []) rings ->
  gmapM (add_surface g tri cs rl) (map closed rings) t = (t', Ok tags) ->
  exists s, t' = t ++ s /\ outline g cs (if tri then 1 else 2)%R rings t s.
Proof.
  induction rings as [|r rings IH]; intros t t' tags Hne H.
  - cbn in H. injection H as <- _. exists []. rewrite app_nil_r. split; [reflexivity | apply outline_nil; reflexivity].
  - inversion Hne as [|? ? Hr Hrs]; subst. cbn [map gmapM] in H.
    apply gbind_ok in H as (t1 & k & H1 & H). apply gbind_ok in H as (t2 & ks & H2 & H).
    cbn in H. injection H as <- _.
    destruct r as [|p l]; [congruence|]. apply add_surface_outline in H1 as (s1 & -> & O1).
    apply IH in H2 as (s2 & -> & O2); [|exact Hrs].
    exists (s1 ++ s2). rewrite app_assoc. split; [reflexivity|].
    change ((p :: l) :: rings) with ([p :: l] ++ rings). apply outline_app; assumption.
Qed.

Lemma surfaces_outline g tri cs engine shell holes t t' tags :
  shell <> [] -> Forall (fun r => r <> []) holes ->
  surfaces g tri cs engine (closed shell) (map closed holes) t = (t', Ok tags) ->
  exists s, t' = t ++ s /\ outline g cs (if tri then 1 else 2)%R (shell :: holes) t s.
Proof.
  intros Hs Hh H. unfold surfaces in H. destruct (String.eqb engine "gmsh").
  - apply gbind_ok in H as (t1 & ks & H1 & H).
    change (closed shell :: map closed holes) with (map closed (shell :: holes)) in H1.
    apply surfaces_outline_map in H1 as (s & -> & O); [|constructor; assumption].
    apply gbind_ok in H as (t2 & k & H1 & H). apply call_ok in H1 as [-> _]. cbn in H. injection H as <- _.
    exists (s ++ [AddPlaneSurface ks]). rewrite app_assoc. split; [reflexivity|].
    rewrite <- (app_nil_r (shell :: holes)). apply outline_app; [exact O | apply outline_nil; reflexivity].
  - destruct (String.eqb engine "occ"); [|discriminate].
    apply gbind_ok in H as (t1 & k & H1 & H).
    destruct shell as [|p l]; [congruence|]. apply add_surface_outline in H1 as (s1 & -> & O1).
    destruct holes as [|h holes].
    + cbn in H. injection H as <- _. eauto.
    + cbn [map] in H. apply gbind_ok in H as (t2 & ks & H1 & H).
      change (closed h :: map closed holes) with (map closed (h :: holes)) in H1.
      apply surfaces_outline_map in H1 as (s2 & -> & O2); [|exact Hh].
      apply gbind_ok in H as (t3 & c & H1 & H). apply call_ok in H1 as [-> _]. cbn in H. injection H as <- _.
      exists ((s1 ++ s2) ++ [Cut [k] ks]). rewrite !app_assoc. split; [reflexivity|].
      rewrite <- (app_nil_r ((p :: l) :: h :: holes)). apply outline_app; [|apply outline_nil; reflexivity].
      change ((p :: l) :: h :: holes) with ([p :: l] ++ h :: holes). apply outline_app; assumption.
Qed.

Lemma recombine_ok g : forall l t t' tags,
  gmapM (fun t => call g (SetRecombine t)) l t = (t', Ok tags) -> exists s, t' = t ++ s /\ added s = [] /\ drawn s = [].
Proof.
  induction l as [|a l IH]; intros t t' tags H.
  - cbn in H. injection H as <- _. exists []. rewrite app_nil_r. auto.
  - cbn [gmapM] in H. apply gbind_ok in H as (t1 & k & H1 & H).
    apply gbind_ok in H as (t2 & ks & H2 & H). cbn in H. injection H as <- _.
    apply call_ok in H1 as [-> _]. apply IH in H2 as (s & -> & Ha & Hd).
    exists (SetRecombine a :: s). rewrite <- app_assoc. auto.
Qed.

Lemma try_body_ok g result quad opt cs engine shell holes t' m :
  shell <> [] -> Forall (fun r => r <> []) holes ->
  try_body g result quad opt cs engine (closed shell) (map closed holes) [] = (t', Ok m) ->
  outline g cs (if quad then 2 else 1)%R (shell :: holes) [] t' /\ to_pyvista (result t') = Ok m.
Proof.
  intros Hs Hh H. unfold try_body in H.
  apply gbind_ok in H as (t1 & ? & H1 & H). apply call_ok in H1 as [-> _].
  apply gbind_ok in H as (t2 & tags & H1 & H). apply surfaces_outline in H1 as (s & -> & O); [|assumption|assumption].
  apply gbind_ok in H as (t3 & ? & H1 & H). apply call_ok in H1 as [-> _].
  apply gbind_ok in H as (t4 & ? & H1 & H). apply call_ok in H1 as [-> _].
  apply gbind_ok in H as (t5 & ? & H1 & H).
  assert (K : exists s', t5 = (((([] ++ [Initialize]) ++ s) ++ [SetOptions]) ++ [Synchronize]) ++ s' /\ added s' = [] /\ drawn s' = []).
  { destruct quad; [apply recombine_ok in H1; exact H1|].
    cbn in H1. injection H1 as <- _. exists []. rewrite app_nil_r. auto. }
  destruct K as (s' & -> & A1 & D1). clear H1.
  apply gbind_ok in H as (t6 & ? & H1 & H). apply call_ok in H1 as [-> _].
  apply gbind_ok in H as (t7 & ? & H1 & H).
  assert (K : exists s'', t7 = (((((([] ++ [Initialize]) ++ s) ++ [SetOptions]) ++ [Synchronize]) ++ s') ++ [Generate]) ++ s''
                /\ added s'' = [] /\ drawn s'' = []).
  { destruct opt; [apply call_ok in H1 as [-> _]; eexists; split; [reflexivity | auto]|].
    cbn in H1. injection H1 as <- _. exists []. rewrite app_nil_r. auto. }
  destruct K as (s'' & -> & A2 & D2). clear H1.
  apply gbind_ok in H as (t8 & ? & H1 & H). apply call_ok in H1 as [-> _].
  apply gbind_ok in H as (t9 & ? & H1 & H). apply call_ok in H1 as [-> _].
  injection H as <- Hm. split; [|exact Hm].
  assert (Et : (if negb quad then 1 else 2)%R = (if quad then 2 else 1)%R) by (destruct quad; reflexivity).
  rewrite Et in O.
  rewrite <- !app_assoc. cbn [app].
  change (outline g cs (if quad then 2 else 1)%R ([] ++ shell :: holes) []
    ([Initialize] ++ s ++ [SetOptions; Synchronize] ++ s' ++ Generate :: s'' ++ [GetNodes; GetElements])).
  apply outline_app; [apply outline_nil; reflexivity|].
  rewrite <- (app_nil_r (shell :: holes)). apply outline_app; [exact O|].
  apply outline_nil.
  - rewrite !added_app, A1. cbn [added app]. rewrite added_app, A2. reflexivity.
  - rewrite !drawn_app, D1. cbn [drawn app]. rewrite drawn_app, D2. reflexivity.
Qed.

Lemma mapM_closed holes : Forall open_ring holes -> Forall (rows_of 3) holes ->
  mapM to_points holes = Ok (map closed holes).
Proof.
  intros Ho Hr. induction Ho as [|h hs H _ IH]; [reflexivity|]. inversion Hr as [|? ? H1 H2]; subst.
  cbn [mapM map]. destruct (to_points_open 3 h H H1) as [-> _]. cbn [bind]. rewrite (IH H2). cbn [bind].
  f_equal. f_equal. rewrite widen3; [reflexivity|].
  apply Forall_app. split; [exact H1|]. destruct h; constructor; [|constructor]. inversion H1; assumption.
Qed.

Lemma polygon_outline g result opt cs engine ct shell holes t points cells :
  open_ring shell -> rows_of 3 shell -> Forall open_ring holes -> Forall (rows_of 3) holes ->
  polygon g result opt cs engine (Some ct) shell holes = (t, Ok (Meshed points cells)) ->
  (exists blocks, added t = concat blocks /\
     Forall2 (sized_as cs (if String.eqb ct "quad" then 2 else 1)%R) (shell :: holes) blocks) /\
  (numbered g -> Forall2 (draws t) (drawn t) (flat_map ring_edges (shell :: holes))) /\
  exists s, t = s ++ [Clear; Finalize] /\ to_pyvista (result s) = Ok (points, cells).
Proof.
  intros Ho Hr Hho Hhr H.
  assert (E1 := mapM_closed [shell] (Forall_cons _ Ho (Forall_nil _)) (Forall_cons _ Hr (Forall_nil _))).
  cbn [mapM map] in E1. destruct (to_points shell) as [sh|e] eqn:Es; [|discriminate].
  cbn [bind] in E1. injection E1 as ->.
  unfold polygon in H. rewrite Es, (mapM_closed holes Hho Hhr) in H.
  set (ct' := if String.eqb ct "" then _ else ct) in H.
  assert (Eq : String.eqb ct' "quad" = String.eqb ct "quad").
  { unfold ct'. destruct (String.eqb ct "") eqn:E; [|reflexivity].
    apply String.eqb_eq in E. subst ct. destruct (length (map closed holes) =? 0); reflexivity. }
  clearbody ct'.
  destruct (String.eqb ct' "polygon"); [destruct (map closed holes); discriminate|].
  destruct (String.eqb ct' "quad" || String.eqb ct' "triangle"); [|discriminate].
  rewrite Eq in H. unfold finally in H.
  destruct (gbind _ _ []) as [t1 r] eqn:Eb.
  unfold call in H. destruct (g t1 Clear); [|discriminate].
  destruct (g (t1 ++ [Clear]) Finalize); [|discriminate]. injection H as <- ->.
  apply gbind_ok in Eb as (t2 & m & Hb & H). cbn in H. injection H as <- <- <-.
  apply try_body_ok in Hb as [[O1 O2] Hm].
  2:{ intros ->. exact Ho. }
  2:{ eapply Forall_impl; [|exact Hho]. intros h Hh ->. exact Hh. }
  rewrite <- app_assoc. cbn [app]. split; [|split].
  - destruct O1 as (blocks & A & F). exists blocks. rewrite added_app. cbn [added]. rewrite app_nil_r. auto.
  - intros N. rewrite drawn_app. cbn [drawn]. rewrite app_nil_r. eapply Forall2_impl; [|exact (O2 N)].
    intros e ends He. apply draws_app. exact He.
  - exists t2. split; [reflexivity|]. rewrite Hm. destruct m; reflexivity.
Qed.

(* ---- the mesh of gmsh ---- *)
Lemma to_pyvista_cells gm points cells :
  map fst (fst gm) = seq 1 (length (fst gm)) ->
  Forall (fun te => Forall (in_tags (length (fst gm))) (snd te)) (snd gm) ->
  to_pyvista gm = Ok (points, cells) ->
  points = map snd (fst gm) /\
  Forall2 (fun te c => fst c = (if fst te =? 2 then 5 else 9) /\ (fst te = 2 \/ fst te = 3) /\
             Forall2 (same_points gm points) (snd te) (snd c))
    (filter (fun te => negb ((fst te =? 1) || (fst te =? 15))) (snd gm)) cells.
Proof.
  intros Hn Hr H. unfold to_pyvista in H.
  destruct (mapM _ _) as [cs|e] eqn:E; [|discriminate]. cbn [bind] in H.
  apply Ok_inj, pair_equal_spec in H as [<- <-]. split; [reflexivity|].
  apply mapM_Ok in E.
  assert (Hr' : Forall (fun te => Forall (in_tags (length (fst gm))) (snd te))
           (filter (fun te => negb ((fst te =? 1) || (fst te =? 15))) (snd gm))).
  { apply Forall_forall. intros te Hte. apply filter_In in Hte as [Hte _]. rewrite Forall_forall in Hr. auto. }
  assert (K : forall els, Forall (in_tags (length (fst gm))) els ->
    Forall2 (same_points gm (map snd (fst gm))) els (map (map (fun t => (Z.of_nat t - 1)%Z)) els)).
  { intros els Hels. induction Hels as [|el els Hel _ IH]; cbn [map]; constructor; [|exact IH].
    unfold same_points. induction el as [|t el IHel]; cbn [map]; constructor.
    - destruct (Hel t (or_introl eq_refl)) as [H1 H2].
      destruct (nth_error (fst gm) (t - 1)) as [[t' p]|] eqn:Et; [|apply nth_error_None in Et; lia].
      assert (Etag : nth_error (map fst (fst gm)) (t - 1) = Some t') by (rewrite nth_error_map, Et; reflexivity).
      rewrite Hn, nth_error_seq in Etag. rewrite (proj2 (Nat.ltb_lt _ _)) in Etag by lia.
      injection Etag as <-. exists (t - 1), p. split; [lia|]. split.
      + apply nth_error_In in Et. replace t with (1 + (t - 1)) at 1 by lia. exact Et.
      + rewrite nth_error_map, Et. reflexivity.
    - apply IHel. intros t' Ht'. apply Hel. right. exact Ht'. }
  induction E as [|te c tes cs H _ IH]; constructor.
  - inversion Hr' as [|? ? H1 H2]; subst. destruct te as [ty els]. cbn [fst snd] in *.
    destruct ty as [|[|[|[|ty]]]]; try discriminate; apply Ok_inj in H; subst c; cbn [fst snd Nat.eqb]; auto.
  - apply IH. inversion Hr'; assumption.
Qed.

Lemma to_pyvista_wrong :
  exists gm points cells,
    NoDup (map fst (fst gm)) /\ Forall (fun te => Forall (in_tags (length (fst gm))) (snd te)) (snd gm) /\
    to_pyvista gm = Ok (points, cells) /\
    snd gm = [(2, [[1; 2; 3]])] /\ cells = [(5, [[0; 1; 2]%Z])] /\
    ~ same_points gm points [1; 2; 3] [0; 1; 2]%Z.
Proof.
  exists ([(2%nat, (0, 0, 0)); (1%nat, (1, 0, 0)); (3%nat, (0, 1, 0))]%R, [(2, [[1; 2; 3]])]).
  exists [(0, 0, 0); (1, 0, 0); (0, 1, 0)]%R, [(5, [[0; 1; 2]%Z])].
  split; [cbn; repeat constructor; cbn; intuition lia|].
  split.
  { constructor; [|constructor]. constructor; [|constructor]. intros t Ht. cbn in *. intuition lia. }
  split; [reflexivity|]. split; [reflexivity|]. split; [reflexivity|].
  intros H. inversion H as [|t z l m (k & p & Hz & Hin & Hk) _]; subst.
  assert (k = 0) by lia. subst k. cbn in Hk. injection Hk as <-.
  cbn in Hin. destruct Hin as [Hin | [Hin | [Hin | []]]].
  - discriminate.
  - injection Hin. intros. lra.
  - discriminate.
Qed.
