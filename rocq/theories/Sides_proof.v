From Coq Require Import Reals Permutation Sorted Lia.
From Verif Require Import Prelude Volume_spec Topo_model Topo_spec Topo_proof Topo2_proof Topo3_proof Topo4_proof Bulk_spec Bulk_proof Lattice_spec Lattice_proof Lattice4_proof
  Lattice5_proof Lattice6_proof Ring_proof Strata_spec Strata_proof Strata2_proof Strata3_proof Sides_spec.
From Verif Require UVol_proof.
From Coq Require FinFun.
Open Scope nat_scope.

Lemma prod_nodup {A B} (l : list A) (l' : list B) : NoDup l -> NoDup l' -> NoDup (list_prod l l').
Proof.
  intros ND ND'. induction ND as [|x l Hx ND IH]; cbn [list_prod]; [constructor|].
  apply UVol_proof.NoDup_app_intro; [| exact IH |].
  - apply FinFun.Injective_map_NoDup; [|exact ND']. intros a b. congruence.
  - intros [a b] H1 H2. apply in_map_iff in H1 as (y & E & _). injection E as <- <-. apply in_prod_iff in H2 as [H2 _]. contradiction.
Qed.
Lemma same_count {A} (l l' : list A) : NoDup l -> NoDup l' -> (forall x, In x l <-> In x l') -> length l = length l'.
Proof. intros. apply Permutation_length, NoDup_Permutation; auto. Qed.

Section Sides.
Context (base : list (nat * list nat)) (np : nat) (es : list (nat * nat)).
Context (Hb : forall b, In b base -> surface_cell np b) (Hc : conforming base) (He : all_sides base es).
Notation nc := (length base).

Lemma side_of c b u v : nth_error base c = Some b -> side b u v -> u < v -> In (u, v) es.
Proof. intros Hcb S1 L. apply (proj2 He). split; [exact L|]. exists b. split; [eapply nth_error_In, Hcb|exact S1]. Qed.

Lemma row_of place u v cs m : (forall c c', c < c' -> place c < place c') -> In (u, v) es ->
  (forall i, In i cs <-> exists c b, nth_error base c = Some b /\ side b u v /\ i = place c) ->
  StronglySorted lt cs -> length cs + m = 2 -> side_row base place u v (map Z.of_nat cs ++ repeat (-1)%Z m).
Proof.
  intros Mono Hin H Hs L. apply (proj2 He) in Hin as (Luv & b0 & B0 & S0). apply In_nth_error in B0 as (c0 & B0).
  assert (Inj : forall c c', place c = place c' -> c = c').
  { intros c c' E. destruct (Nat.lt_trichotomy c c') as [T|[T|T]]; [apply Mono in T; lia|exact T|apply Mono in T; lia]. }
  destruct (row_two _ _ Hs ltac:(exists (place c0); apply H; eauto) L) as [(i & E & ->)|(i & j & Lt & E & ->)]; subst cs.
  - destruct (proj1 (H i) ltac:(now left)) as (c & b & B & S1 & ->). eapply sr_outer; [exact B|exact S1|]. intros c' b' B' S2.
    destruct (proj2 (H (place c')) ltac:(eauto)) as [E|[]]. symmetry. now apply Inj.
  - destruct (proj1 (H i) ltac:(now left)) as (c & b & B & S1 & ->). destruct (proj1 (H j) ltac:(cbn; auto)) as (c' & b' & B' & S2 & ->).
    eapply sr_inner; eauto. destruct (Nat.lt_trichotomy c c') as [T|[->|T]]; [exact T|lia|apply Mono in T; lia].
Qed.

Section Layers.
Context (n : nat) (invert : bool) (m : vmesh) (cells : list vcell) (Hm : holds m cells) (Hl : length cells = n * nc).
Context (HX : forall l c b, l < n -> nth_error base c = Some b -> exists cell, nth_error cells (l * nc + c) = Some cell /\ extruded invert np l b cell).

Definition all_keys : list (nat * nat + nat * nat * nat) :=
  map inl (list_prod (seq 0 nc) (seq 0 (S n))) ++ map inr (list_prod es (seq 0 n)).
Lemma all_keys_nodup : NoDup all_keys.
Proof.
  apply UVol_proof.NoDup_app_intro.
  - apply FinFun.Injective_map_NoDup; [intros a b; congruence|]. apply prod_nodup; apply seq_NoDup.
  - apply FinFun.Injective_map_NoDup; [intros a b; congruence|]. apply prod_nodup; [apply He|apply seq_NoDup].
  - intros k H1 H2. apply in_map_iff in H1 as (a & <- & _). apply in_map_iff in H2 as (b & E & _). discriminate.
Qed.
Lemma all_keys_in k : 0 < n -> (In k all_keys <-> exists i, khas base n i k).
Proof.
  intros Hn. unfold all_keys. rewrite in_app_iff, !in_map_iff. split.
  - intros [([c l] & <- & H)|([[u v] l] & <- & H)]; apply in_prod_iff in H as [H1 H2].
    + apply in_seq in H1, H2. destruct (nth_error base c) as [b|] eqn:E; [|apply nth_error_None in E; lia].
      destruct l as [|l]; [exists (0 * nc + c), 0, c, b|exists (l * nc + c), l, c, b]; (split; [lia|]); (split; [exact E|]); (split; [reflexivity|]); cbn [kof]; auto.
    + apply in_seq in H2. apply (proj2 He) in H1 as (L & b & B & S1). apply In_nth_error in B as (c & B). exists (l * nc + c), l, c, b. split; [lia|]. split; [exact B|]. split; [reflexivity|]. cbn [kof]. auto.
  - intros (i & l & c & b & Ln & B & _ & K). destruct k as [[c0 l0]|[[u v] l0]]; cbn [kof] in K.
    + left. exists (c0, l0). split; [reflexivity|]. apply in_prod_iff. destruct K as [-> K]. apply at_lt in B. split; apply in_seq; lia.
    + right. exists (u, v, l0). split; [reflexivity|]. apply in_prod_iff. destruct K as (-> & L & S1). split; [eapply side_of; eauto|apply in_seq; lia].
Qed.

Lemma strata_faces nonzero rg : (exists l c l' c', l < n /\ l' < n /\ c < nc /\ c' < nc /\ next_to base l c l' c') ->
  (rg = true -> forall f, layer_face base np n f -> nonzero f = true) ->
  exists g, extract_cell_geometry nonzero rg (DCells m) = Ok g /\ length (g_faces g) = S n * nc + n * length es /\ length (g_rows g) = length (g_faces g) /\
    (forall c b l, nth_error base c = Some b -> l <= n -> listed_once g (lift l np (corners b)) (beside n (fun t => t * nc + c) l)) /\
    (forall u v l, In (u, v) es -> l < n -> listed_once g [u + l * np; v + l * np; v + S l * np; u + S l * np] (side_row base (fun c => l * nc + c) u v)).
Proof.
  intros Hex Hz. assert (Pos : 0 < n /\ 0 < nc) by (destruct Hex as (? & ? & ? & ? & ? & ? & ? & ? & _); lia). destruct Pos as [Pn Pc].
  destruct (strata_geometry base np n invert Hb m cells Hm Hl HX nonzero rg ltac:(nia) Hz) as (g & w & faces & Ex & Ho & Hw & Len & HK).
  destruct (proj1 (strata_neighbors base np n invert Hb Hc m cells Hm Hl HX nonzero rg Hex Hz)) as (nb & En & _). unfold get_neighborhood in En. rewrite Ex in En. cbn [bind] in En.
  destruct (neighbor_loop_Ok _ _ _ En) as (_ & H2 & _).
  assert (Dom : forall i k, khas base n i k -> i < length faces).
  { intros i k (l & c & b & Ln & Hcb & -> & _). rewrite Len. eapply place_lt; eauto. }
  destruct (Lattice5_proof.keyed_faces faces (khas base n) (kset base np) HK Dom (kset_inj base np n Hb Hc) g Ho) as (keys & Lk & ND & Hin & H).
  assert (Two : forall k cs p, nth_error (g_rows g) k = Some (map Z.of_nat cs ++ repeat (-1)%Z p) -> length cs + p = 2).
  { intros k cs p Hr. specialize (H2 _ (nth_error_In _ _ Hr)). now rewrite app_length, map_length, repeat_length in H2. }
  exists g. split; [exact Ex|]. split; [|split; [destruct Ho as (pos & L1 & L2 & _); lia|split]].
  - rewrite <- Lk, (same_count keys all_keys ND all_keys_nodup); [|intros k; rewrite (all_keys_in k Pn); apply Hin].
    unfold all_keys. rewrite app_length, !map_length, !prod_length, !seq_length. lia.
  - intros c b l B Ll. assert (K : exists i, khas base n i (inl (c, l))).
    { apply all_keys_in; [exact Pn|]. apply in_app_iff. left. apply in_map. apply in_prod_iff. apply at_lt in B. split; apply in_seq; lia. }
    apply Hin in K. apply In_nth_error in K as (k & Hk). destruct (H k _ Hk) as (h & cs & p & Hh & S1 & U & Hrow & Hs & Hcs).
    cbn [kset] in S1, U. rewrite (ring_at_eq base _ _ B) in S1, U.
    exists k, h, (map Z.of_nat cs ++ repeat (-1)%Z p). split; [exact Hh|]. split; [exact S1|]. split; [exact U|]. split; [exact Hrow|].
    apply beside_row; [|intros; nia|exact Pn|exact Ll|exact Hs|eapply Two; eauto].
    intros i. rewrite (Hcs i). split.
    + intros (l' & c' & b' & L' & B' & -> & K). cbn [kof] in K. destruct K as [-> K]. exists l'. auto.
    + intros (t & Ht & Lt & ->). exists t, c, b. cbn [kof]. auto 10.
  - intros u v l E Ll. assert (K : exists i, khas base n i (inr (u, v, l))).
    { apply all_keys_in; [exact Pn|]. apply in_app_iff. right. apply in_map. apply in_prod_iff. split; [exact E|apply in_seq; lia]. }
    apply Hin in K. apply In_nth_error in K as (k & Hk). destruct (H k _ Hk) as (h & cs & p & Hh & S1 & U & Hrow & Hs & Hcs). cbn [kset] in S1, U.
    exists k, h, (map Z.of_nat cs ++ repeat (-1)%Z p). split; [exact Hh|]. split; [exact S1|]. split; [exact U|]. split; [exact Hrow|].
    apply row_of; [intros; lia|exact E| |exact Hs|eapply Two; eauto].
    intros i. rewrite (Hcs i). split.
    + intros (l' & c' & b' & L' & B' & -> & K). cbn [kof] in K. destruct K as (-> & Luv & Sd). eauto.
    + intros (c & b & B & Sd & ->). exists l, c, b. cbn [kof]. apply (proj2 He) in E as (Luv & _). auto 10.
Qed.
End Layers.

Lemma surface_edges nonzero rg m : surface_mesh m base -> (exists c c', touching base c c') ->
  (rg = true -> forall b u v, In b base -> side b u v -> nonzero [u; v] = true) ->
  exists g, extract_cell_geometry nonzero rg (DCells m) = Ok g /\ length (g_faces g) = length es /\ length (g_rows g) = length es /\
    forall u v, In (u, v) es -> listed_once g [u; v] (side_row base (fun c => c) u v).
Proof.
  intros Hm Hex Hz. assert (Pc : 0 < nc) by (destruct Hex as (c & c' & _ & b & _ & _ & _ & B & _); apply at_lt in B; lia).
  destruct (surface_geometry base np Hb m Hm nonzero rg Pc Hz) as (g & w & faces & Ex & Ho & Hw & Len & HK).
  destruct (proj1 (surface_neighbors base np Hb Hc m Hm nonzero rg Hex Hz)) as (nb & En & _). unfold get_neighborhood in En. rewrite Ex in En. cbn [bind] in En.
  destruct (neighbor_loop_Ok _ _ _ En) as (_ & H2 & _).
  assert (Dom : forall i k, ehas base i k -> i < length faces) by (intros i k (b & B & _); rewrite Len; eapply at_lt; eauto).
  destruct (Lattice5_proof.keyed_faces faces (ehas base) eset HK Dom (eset_inj base) g Ho) as (keys & Lk & ND & Hin & H).
  assert (Kes : forall k, In k es <-> exists c, ehas base c k).
  { intros [u v]. rewrite (proj2 He u v). split.
    - intros (L & b & B & S1). apply In_nth_error in B as (c & B). exists c, b. auto.
    - intros (c & b & B & L & S1). cbn [fst snd] in *. split; [exact L|]. exists b. split; [eapply nth_error_In, B|exact S1]. }
  assert (Lf : length (g_faces g) = length es).
  { rewrite <- Lk. apply same_count; [exact ND|apply He|]. intros k. rewrite (Kes k). apply Hin. }
  exists g. split; [exact Ex|]. split; [exact Lf|]. split; [destruct Ho as (pos & L1 & L2 & _); lia|].
  intros u v E. pose proof E as K. apply Kes, Hin in K. apply In_nth_error in K as (k & Hk). destruct (H k _ Hk) as (h & cs & p & Hh & S1 & U & Hrow & Hs & Hcs). cbn [eset fst snd] in S1, U.
  exists k, h, (map Z.of_nat cs ++ repeat (-1)%Z p). split; [exact Hh|]. split; [exact S1|]. split; [exact U|]. split; [exact Hrow|].
  apply row_of; [intros; lia|exact E| |exact Hs|].
  - intros i. rewrite (Hcs i). split.
    + intros (b & B & L & Sd). eauto.
    + intros (c & b & B & Sd & ->). exists b. apply (proj2 He) in E as (Luv & _). auto.
  - specialize (H2 _ (nth_error_In _ _ Hrow)). now rewrite app_length, map_length, repeat_length in H2.
Qed.
End Sides.

(* the sides of any surface can be listed *)
Lemma pair_dec (x y : nat * nat) : {x = y} + {x <> y}.
Proof. decide equality; apply Nat.eq_dec. Qed.
Lemma sides_exist base : exists es, all_sides base es.
Proof.
  set (both := fun b : nat * list nat => ring_edges (corners b) ++ map (fun '(u, v) => (v, u)) (ring_edges (corners b))).
  exists (nodup pair_dec (filter (fun e => fst e <? snd e) (flat_map both base))). split; [apply NoDup_nodup|].
  intros u v. rewrite nodup_In, filter_In, in_flat_map. cbn [fst snd]. rewrite Nat.ltb_lt. unfold both, side. split.
  - intros ((b & B & H) & L). split; [exact L|]. exists b. split; [exact B|]. apply in_app_iff in H as [H|H]; [now left|]. apply in_map_iff in H as ([x y] & E & H). injection E as -> ->. now right.
  - intros (L & b & B & S1). split; [|exact L]. exists b. split; [exact B|]. apply in_app_iff. destruct S1 as [S1|S1]; [now left|]. right. apply in_map_iff. exists (v, u). auto.
Qed.
