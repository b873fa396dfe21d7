From Coq Require Import Reals Permutation Sorted Lia.
From Verif Require Import Prelude Volume_spec Topo_model Topo_spec Topo_proof Topo2_proof Topo3_proof Topo4_proof Bulk_spec Bulk_proof Lattice_spec Lattice_proof Lattice4_proof
  Ring_proof Strata_spec.
Open Scope nat_scope.

Section Strata.
Context (base : list (nat * list nat)) (np n : nat) (invert : bool).
Context (Hb : forall b, In b base -> surface_cell np b) (Hc : conforming base).
Notation nc := (length base).
Notation key := (nat * nat + nat * nat * nat)%type.
Definition ring_at (c : nat) : list nat := corners (nth c base (0, [])).
Definition kset (k : key) : list nat :=
  match k with
  | inl (c, l) => lift l np (ring_at c)
  | inr (u, v, l) => [u + l * np; v + l * np; v + S l * np; u + S l * np]
  end.
Definition kof (l c : nat) (b : nat * list nat) (k : key) : Prop :=
  match k with
  | inl (c0, l0) => c0 = c /\ (l0 = l \/ l0 = S l)
  | inr (u, v, l0) => l0 = l /\ u < v /\ side b u v
  end.
Definition khas (i : nat) (k : key) : Prop :=
  exists l c b, l < n /\ nth_error base c = Some b /\ i = l * nc + c /\ kof l c b k.

Lemma place_inj (w l c l' c' : nat) : c < w -> c' < w -> l * w + c = l' * w + c' -> l = l' /\ c = c'.
Proof.
  intros H H' E. assert (D := Nat.div_unique (l * w + c) w l c H ltac:(lia)). assert (D' := Nat.div_unique (l * w + c) w l' c' H' ltac:(lia)).
  assert (l = l') as <- by congruence. split; lia.
Qed.
Lemma point_inj (u l u' l' : nat) : u < np -> u' < np -> u + l * np = u' + l' * np -> u = u' /\ l = l'.
Proof. intros H H' E. destruct (place_inj np l u l' u' H H' ltac:(lia)) as [-> ->]. auto. Qed.
Lemma at_lt c b : nth_error base c = Some b -> c < nc.
Proof. intros H. apply nth_error_Some. congruence. Qed.
Lemma ring_at_eq c b : nth_error base c = Some b -> ring_at c = corners b.
Proof. intros H. unfold ring_at. now rewrite (nth_error_nth _ _ _ H). Qed.
Lemma corners_form b : surface_cell np b -> NoDup (corners b) /\ 3 <= length (corners b) /\ forall u, In u (corners b) -> u < np.
Proof.
  intros (H & ND & Hu). split; [|split; [|intros u Hi; apply Hu, corners_in, Hi]].
  - destruct b as [t ids]. destruct H as [[[E L]|[[E|E] L]]|[E L]]; cbn [fst snd] in *; subst t; try exact ND.
    destruct ids as [|a [|b [|c [|d [|]]]]]; try discriminate. cbn [corners]. inversion ND as [|? ? N1 ND1]; subst. inversion ND1 as [|? ? N2 ND2]; subst.
    inversion ND2 as [|? ? N3 ND3]; subst. cbn [In] in *. repeat constructor; cbn [In]; intuition congruence.
  - destruct b as [t ids]. destruct H as [[[E L]|[[E|E] L]]|[E L]]; cbn [fst snd] in *; subst t; cbn [corners]; try lia.
    destruct ids as [|a [|b [|c [|d [|]]]]]; try discriminate. cbn. lia.
Qed.
Lemma side_in b u v : side b u v -> In u (corners b) /\ In v (corners b).
Proof. intros [H|H]; apply ring_edges_in in H; tauto. Qed.
Lemma side_lt c b u v : nth_error base c = Some b -> side b u v -> u < np /\ v < np.
Proof. intros H S1. apply side_in in S1 as [H1 H2]. destruct (corners_form b (Hb _ (nth_error_In _ _ H))) as (_ & _ & Hu). auto. Qed.

Lemma lift_in (l x : nat) (r : list nat) : In x (lift l np r) <-> exists u, In u r /\ x = u + l * np.
Proof. unfold lift. rewrite in_map_iff. split; intros (u & H1 & H2); exists u; auto. Qed.

Lemma kset_inj i i' k k' : khas i k -> khas i' k' -> same_set (kset k) (kset k') -> k = k'.
Proof.
  intros (l & c & b & Hl & Hcb & _ & Hk) (l' & c' & b' & Hl' & Hcb' & _ & Hk') Hs.
  destruct (corners_form b (Hb _ (nth_error_In _ _ Hcb))) as (ND & L3 & Hu). destruct (corners_form b' (Hb _ (nth_error_In _ _ Hcb'))) as (ND' & L3' & Hu').
  assert (Hx : forall l u v c0 l0 b0, nth_error base c0 = Some b0 -> side b u v -> u < np -> v < np -> (forall w, In w (corners b0) -> w < np) ->
    same_set [u + l * np; v + l * np; v + S l * np; u + S l * np] (lift l0 np (corners b0)) -> False).
  { intros l1 u v c0 l0 b0 _ _ Lu Lv Hw Hs'. pose proof (proj1 (Hs' (u + l1 * np)) ltac:(cbn; tauto)) as Q1. pose proof (proj1 (Hs' (u + S l1 * np)) ltac:(cbn; tauto)) as Q2.
    apply lift_in in Q1 as (w1 & W1 & E1). apply lift_in in Q2 as (w2 & W2 & E2). apply point_inj in E1 as [_ E1]; auto. apply point_inj in E2 as [_ E2]; auto. lia. }
  destruct k as [[c0 l0]|[[u v] l0]], k' as [[c0' l0']|[[u' v'] l0']]; cbn [kof kset] in *.
  - destruct Hk as [-> Hk], Hk' as [-> Hk']. rewrite (ring_at_eq _ _ Hcb), (ring_at_eq _ _ Hcb') in Hs.
    assert (El : l0 = l0').
    { destruct (corners b) as [|x r]; [cbn in L3; lia|]. pose proof (proj1 (Hs (x + l0 * np)) ltac:(apply lift_in; exists x; cbn; auto)) as Q.
      apply lift_in in Q as (w & W & E). apply point_inj in E as [_ E]; [exact E|apply Hu; now left|now apply Hu']. }
    subst l0'. f_equal. f_equal. apply (proj2 (proj2 Hc) c c' b b' Hcb Hcb'). intros x. split; intros Hx0.
    + pose proof (proj1 (Hs (x + l0 * np)) ltac:(apply lift_in; eauto)) as Q. apply lift_in in Q as (w & W & E). apply point_inj in E as [-> _]; auto.
    + pose proof (proj2 (Hs (x + l0 * np)) ltac:(apply lift_in; eauto)) as Q. apply lift_in in Q as (w & W & E). apply point_inj in E as [-> _]; auto.
  - exfalso. destruct Hk as [-> Hk], Hk' as (-> & Luv & Sd). rewrite (ring_at_eq _ _ Hcb) in Hs. destruct (side_lt _ _ _ _ Hcb' Sd) as [Lu Lv].
    pose proof (proj2 (Hs (u' + l' * np)) ltac:(cbn; tauto)) as Q1. pose proof (proj2 (Hs (u' + S l' * np)) ltac:(cbn; tauto)) as Q2.
    apply lift_in in Q1 as (w1 & W1 & E1). apply lift_in in Q2 as (w2 & W2 & E2). apply point_inj in E1 as [_ E1]; auto. apply point_inj in E2 as [_ E2]; auto. lia.
  - exfalso. destruct Hk' as [-> Hk'], Hk as (-> & Luv & Sd). rewrite (ring_at_eq _ _ Hcb') in Hs. destruct (side_lt _ _ _ _ Hcb Sd) as [Lu Lv].
    eapply (Hx l u v); eauto.
  - destruct Hk as (-> & Luv & Sd), Hk' as (-> & Luv' & Sd'). destruct (side_lt _ _ _ _ Hcb Sd) as [Lu Lv]. destruct (side_lt _ _ _ _ Hcb' Sd') as [Lu' Lv'].
    assert (Q : forall w k, w < np -> In (w + k * np) [u + l * np; v + l * np; v + S l * np; u + S l * np] <-> (w = u \/ w = v) /\ (k = l \/ k = S l)).
    { intros w k Lw. split.
      - intros [E|[E|[E|[E|[]]]]]; apply point_inj in E as [-> ->]; auto.
      - cbn [In]. intros [[ -> | ->] [ -> | ->]]; tauto. }
    assert (Q' : forall w k, w < np -> In (w + k * np) [u' + l' * np; v' + l' * np; v' + S l' * np; u' + S l' * np] <-> (w = u' \/ w = v') /\ (k = l' \/ k = S l')).
    { intros w k Lw. split.
      - intros [E|[E|[E|[E|[]]]]]; apply point_inj in E as [-> ->]; auto.
      - cbn [In]. intros [[ -> | ->] [ -> | ->]]; tauto. }
    assert (T : forall w k, w < np -> ((w = u \/ w = v) /\ (k = l \/ k = S l)) <-> ((w = u' \/ w = v') /\ (k = l' \/ k = S l'))).
    { intros w k Lw. rewrite <- (Q w k Lw), <- (Q' w k Lw). apply Hs. }
    pose proof (proj1 (T u l Lu) ltac:(lia)). pose proof (proj1 (T v (S l) Lv) ltac:(lia)). pose proof (proj2 (T u' l' Lu') ltac:(lia)). pose proof (proj2 (T v' (S l') Lv') ltac:(lia)).
    assert (u = u') by lia. assert (v = v') by lia. assert (l = l') by lia. congruence.
Qed.

Lemma khas_place l c i k : c < nc -> i = l * nc + c -> khas i k -> exists b, nth_error base c = Some b /\ l < n /\ kof l c b k.
Proof.
  intros Lc -> (l' & c' & b & Hl & Hcb & E & Hk). apply place_inj in E as [<- <-]; [eauto|exact Lc|eapply at_lt; eauto].
Qed.

Lemma ktwo i1 i2 i3 k : khas i1 k -> khas i2 k -> khas i3 k -> i1 = i2 \/ i2 = i3 \/ i1 = i3.
Proof.
  intros (l1 & c1 & b1 & _ & C1 & -> & K1) (l2 & c2 & b2 & _ & C2 & -> & K2) (l3 & c3 & b3 & _ & C3 & -> & K3).
  destruct k as [[c0 l0]|[[u v] l0]]; cbn [kof] in *.
  - destruct K1 as [<- K1], K2 as [<- K2], K3 as [<- K3]. assert (l1 = l2 \/ l2 = l3 \/ l1 = l3) as [->|[->| ->]] by lia; auto.
  - destruct K1 as (<- & _ & S1), K2 as (<- & _ & S2), K3 as (<- & _ & S3). destruct (proj1 Hc c1 c2 c3 b1 b2 b3 u v C1 C2 C3 S1 S2 S3) as [->|[->| ->]]; auto.
Qed.
Lemma kone i j k k' : i <> j -> khas i k -> khas j k -> khas i k' -> khas j k' -> k = k'.
Proof.
  intros N (l & c & b & Hl & Hcb & Ei & K1) (l' & c' & b' & Hl' & Hcb' & Ej & K2) K3 K4.
  apply (khas_place l c) in K3 as (b0 & E0 & _ & K3); [|eapply at_lt; eauto|exact Ei]. rewrite Hcb in E0. injection E0 as <-.
  apply (khas_place l' c') in K4 as (b0 & E0 & _ & K4); [|eapply at_lt; eauto|exact Ej]. rewrite Hcb' in E0. injection E0 as <-.
  destruct k as [[c0 l0]|[[u v] l0]], k' as [[c0' l0']|[[u' v'] l0']]; cbn [kof] in *.
  - assert (c = c') by lia. subst c'. assert (l <> l') by (intros ->; congruence). f_equal. f_equal; lia.
  - assert (c = c') by lia. assert (l = l') by lia. subst. congruence.
  - assert (c = c') by lia. assert (l = l') by lia. subst. congruence.
  - destruct K1 as (-> & Luv & S1), K2 as (-> & _ & S2), K3 as (-> & Luv' & S3), K4 as (_ & _ & S4).
    destruct (proj1 (proj2 Hc) c c' b b' u v u' v' Hcb Hcb' ltac:(intros ->; congruence) S1 S2 S3 S4) as [[-> ->]|[-> ->]]; [reflexivity|lia].
Qed.

(* ---- faces of one extruded cell ---- *)
Definition ekey (l : nat) (e : nat * nat) : key := inr (min (fst e) (snd e), max (fst e) (snd e), l).
Definition keys_of (l c : nat) (r : list nat) : list key := inl (c, l) :: inl (c, S l) :: map (ekey l) (ring_edges r).

Lemma ekeys_nodup l r : NoDup r -> 3 <= length r -> NoDup (map (ekey l) (ring_edges r)).
Proof.
  intros ND L. assert (H : forall a b e e', nth_error (ring_edges r) a = Some e -> nth_error (ring_edges r) b = Some e' -> ekey l e = ekey l e' -> a = b).
  { intros a b [u v] [u' v'] Ha Hb' E. unfold ekey in E. cbn [fst snd] in E. injection E as E1 E2.
    assert ((u = u' /\ v = v') \/ (u = v' /\ v = u')) as [[<- <-]|[<- <-]] by lia.
    - pose proof (ring_edges_NoDup r ND) as NE. rewrite NoDup_nth_error in NE. apply NE; [apply nth_error_Some; congruence|congruence].
    - exfalso. eapply (ring_edges_asym r u v); eauto using nth_error_In. }
  apply NoDup_nth_error. intros a b La E. rewrite map_length in La. rewrite !nth_error_map in E.
  destruct (nth_error (ring_edges r) a) as [e|] eqn:Ea; [|apply nth_error_None in Ea; lia]. destruct (nth_error (ring_edges r) b) as [e'|] eqn:Eb; [|discriminate].
  cbn in E. injection E as E. eapply H; eauto. unfold ekey. congruence.
Qed.
Lemma keys_nodup l c r : NoDup r -> 3 <= length r -> NoDup (keys_of l c r).
Proof.
  intros ND L. unfold keys_of. constructor; [|constructor; [|now apply ekeys_nodup]].
  - intros [E|Hin]; [injection E; lia|]. apply in_map_iff in Hin as (e & E & _). discriminate.
  - intros Hin. apply in_map_iff in Hin as (e & E & _). discriminate.
Qed.
Definition ring_of (b : nat * list nat) (r : list nat) : Prop := r = corners b \/ r = rev (corners b).
Lemma ring_of_side b r u v : ring_of b r -> (side b u v <-> In (u, v) (ring_edges r) \/ In (v, u) (ring_edges r)).
Proof.
  unfold side. intros [-> | ->]; [tauto|].
  assert (H : forall u v, In (u, v) (ring_edges (rev (corners b))) <-> In (v, u) (ring_edges (corners b))).
  { intros x y. split; intros Hin.
    - apply (Permutation_in _ (ring_edges_rev _)) in Hin. apply in_map_iff in Hin as ([p q] & E & Hin). unfold sw in E. cbn in E. injection E as -> ->. exact Hin.
    - apply (Permutation_in _ (Permutation_sym (ring_edges_rev _))). apply in_map_iff. exists (y, x). auto. }
  rewrite !H. tauto.
Qed.
Lemma keys_in l c b r k : nth_error base c = Some b -> ring_of b r -> (In k (keys_of l c r) <-> kof l c b k).
Proof.
  intros Hcb Hr. destruct (corners_form b (Hb _ (nth_error_In _ _ Hcb))) as (ND & L3 & Hu). unfold keys_of. cbn [In]. rewrite in_map_iff. split.
  - intros [<-|[<-|([u v] & <- & Hin)]]; cbn [kof]; auto.
    unfold ekey. cbn [fst snd kof]. assert (N : u <> v).
    { intros <-. assert (ND' : NoDup r) by (destruct Hr as [-> | ->]; [exact ND|now apply NoDup_rev]). assert (L' : 3 <= length r) by (destruct Hr as [-> | ->]; rewrite ?rev_length; exact L3).
      exact (ring_edges_asym r u u ND' L' Hin Hin). }
    split; [reflexivity|]. split; [lia|]. apply (ring_of_side b r _ _ Hr). destruct (Nat.le_gt_cases u v).
    + rewrite Nat.min_l, Nat.max_r by lia. auto.
    + rewrite Nat.min_r, Nat.max_l by lia. auto.
  - destruct k as [[c0 l0]|[[u v] l0]]; cbn [kof].
    + intros [-> [-> | ->]]; auto.
    + intros (-> & Luv & S1). right. right. apply (ring_of_side b r _ _ Hr) in S1 as [S1|S1]; [exists (u, v)|exists (v, u)]; (split; [|exact S1]); unfold ekey; cbn [fst snd]; f_equal; f_equal; [f_equal|f_equal]; lia.
Qed.
Lemma ekey_set l u v : same_set [u + l * np; v + l * np; v + S l * np; u + S l * np] (kset (ekey l (u, v))).
Proof.
  unfold ekey. cbn [fst snd kset]. destruct (Nat.le_gt_cases u v).
  - rewrite Nat.min_l, Nat.max_r by lia. intros x. reflexivity.
  - rewrite Nat.min_r, Nat.max_l by lia. intros x. cbn [In]. tauto.
Qed.

(* faces of an extruded cell, in some order *)
Definition keyed_faces (l c : nat) (b : nat * list nat) (fs : list (list nat)) : Prop :=
  exists ks, Forall2 (fun f k => same_set f (kset k)) fs ks /\ NoDup ks /\ forall k, In k ks <-> kof l c b k.
Lemma keyed_perm l c b r fs : nth_error base c = Some b -> ring_of b r ->
  (exists ks, Permutation ks (keys_of l c r) /\ Forall2 (fun f k => same_set f (kset k)) fs ks) -> keyed_faces l c b fs.
Proof.
  intros Hcb Hr (ks & P & F). exists ks. destruct (corners_form b (Hb _ (nth_error_In _ _ Hcb))) as (ND & L3 & Hu). split; [exact F|]. split.
  - apply (Permutation_NoDup (Permutation_sym P)). apply keys_nodup; destruct Hr as [-> | ->]; rewrite ?rev_length; auto. now apply NoDup_rev.
  - intros k. rewrite <- (keys_in l c b r k Hcb Hr). split; apply Permutation_in; [exact P|now apply Permutation_sym].
Qed.
Lemma keyed_table l c b t ids fs ks : nth_error base c = Some b -> Permutation ks (keys_of l c (corners b)) ->
  Forall2 (fun loc k => same_set (map (fun v => nth v ids 0) loc) (kset k)) (vtk_faces t) ks ->
  faces_of t (CIds ids) fs -> In t [12; 13] -> keyed_faces l c b fs.
Proof.
  intros Hcb P F HF Ht. inversion HF as [| |t' ids' table fs' _ Pt _ F' E1 E2 E3|]; subst.
  - cbn in Ht. lia.
  - destruct (Permutation_Forall2 (Permutation_sym Pt) F) as (ks' & P' & F2). apply (keyed_perm l c b (corners b)); [exact Hcb|now left|]. exists ks'. split.
    + eapply Permutation_trans; [apply Permutation_sym, P'|exact P].
    + clear - F' F2. revert ks' F2. induction F' as [|loc f table fs S1 _ IH]; intros ks' F2; inversion F2; subst; constructor; auto.
      eapply same_trans; eauto.
  - cbn in Ht. lia.
Qed.
Lemma wedge_keys l c p q r : nth_error base c = Some (5, [p; q; r]) ->
  Forall2 (fun loc k => same_set (map (fun v => nth v (lift l np [p; q; r] ++ lift (S l) np [p; q; r]) 0) loc) (kset k)) (vtk_faces 13) (keys_of l c [p; q; r]).
Proof.
  intros Hcb. unfold keys_of. cbn [vtk_faces ring_edges pairs app map lift nth].
  repeat (apply Forall2_cons || apply Forall2_nil).
  - intros x. cbn [kset]. rewrite (ring_at_eq _ _ Hcb). cbn [corners lift map In]. tauto.
  - intros x. cbn [kset]. rewrite (ring_at_eq _ _ Hcb). cbn [corners lift map In]. tauto.
  - eapply same_trans; [|apply ekey_set]. intros x. cbn [map In]. tauto.
  - eapply same_trans; [|apply ekey_set]. intros x. cbn [map In]. tauto.
  - eapply same_trans; [|apply ekey_set]. intros x. cbn [map In]. tauto.
Qed.
Lemma hexahedron_keys l c p q r s : ring_at c = [p; q; r; s] ->
  exists ks, Permutation ks (keys_of l c [p; q; r; s]) /\
  Forall2 (fun loc k => same_set (map (fun v => nth v (lift l np [p; q; r; s] ++ lift (S l) np [p; q; r; s]) 0) loc) (kset k)) (vtk_faces 12) ks.
Proof.
  intros Hr. exists [ekey l (s, p); ekey l (q, r); ekey l (p, q); ekey l (r, s); inl (c, l); inl (c, S l)]. split.
  - unfold keys_of. cbn [ring_edges pairs app map].
    apply (Permutation_trans (l' := [inl (c, l); inl (c, S l)] ++ [ekey l (s, p); ekey l (q, r); ekey l (p, q); ekey l (r, s)])).
    + exact (Permutation_app_comm [ekey l (s, p); ekey l (q, r); ekey l (p, q); ekey l (r, s)] [inl (c, l); inl (c, S l)]).
    + cbn [app]. do 2 apply perm_skip. apply (Permutation_trans (l' := [ekey l (q, r); ekey l (p, q); ekey l (r, s)] ++ [ekey l (s, p)])); [apply (Permutation_app_comm [ekey l (s, p)])|].
      cbn [app]. apply perm_swap.
  - cbn [vtk_faces lift app map nth]. repeat (apply Forall2_cons || apply Forall2_nil).
    + eapply same_trans; [|apply ekey_set]. intros x. cbn [map In]. tauto.
    + eapply same_trans; [|apply ekey_set]. intros x. cbn [map In]. tauto.
    + eapply same_trans; [|apply ekey_set]. intros x. cbn [map In]. tauto.
    + eapply same_trans; [|apply ekey_set]. intros x. cbn [map In]. tauto.
    + intros x. cbn [kset]. rewrite Hr. cbn [lift map In]. tauto.
    + intros x. cbn [kset]. rewrite Hr. cbn [lift map In]. tauto.
Qed.

Definition conn_of (cell : vcell) : nat * conn := match cell with Plain t ids => (t, CIds ids) | Poly fs => (42, CFaces fs) end.
Lemma extruded_keyed l c b cell fs : nth_error base c = Some b -> extruded invert np l b cell -> faces_of (fst (conn_of cell)) (snd (conn_of cell)) fs -> keyed_faces l c b fs.
Proof.
  intros Hcb HE HF. pose proof (Hb _ (nth_error_In _ _ Hcb)) as (Hs & ND & Hu). inversion HE as [ids E1 E2|ids E1 E2|p q r s E1 E2|ids ring Hring E1 E2]; subst; cbn [conn_of fst snd] in HF.
  - assert (L : length ids = 3) by (destruct Hs as [[[_ L]|[[E|E] _]]|[E _]]; cbn in *; try discriminate; exact L). destruct ids as [|p [|q [|r [|]]]]; try discriminate.
    eapply keyed_table; [exact Hcb| |apply wedge_keys, Hcb|exact HF|cbn; auto]. apply Permutation_refl.
  - assert (L : length ids = 4) by (destruct Hs as [[[E _]|[_ L]]|[E _]]; cbn in *; try discriminate; exact L). destruct ids as [|p [|q [|r [|s [|]]]]]; try discriminate.
    destruct (hexahedron_keys l c p q r s (ring_at_eq _ _ Hcb)) as (ks & P & F). eapply keyed_table; [exact Hcb|exact P|exact F|exact HF|cbn; auto].
  - destruct (hexahedron_keys l c p q s r (ring_at_eq _ _ Hcb)) as (ks & P & F). eapply keyed_table; [exact Hcb|exact P|exact F|exact HF|cbn; auto].
  - assert (Hr : ring_of (7, ids) ring) by (destruct Hring as [-> |[_ ->]]; [left|right]; reflexivity).
    assert (Set_ : same_set ring ids) by (destruct Hring as [-> |[_ ->]]; intros x; [reflexivity|symmetry; apply in_rev]).
    assert (HL : forall k, same_set (lift k np ring) (lift k np ids)) by (intros k x; rewrite !lift_in; split; intros (u & U1 & U2); exists u; (split; [now apply Set_|exact U2])).
    apply (keyed_perm l c (7, ids) ring fs Hcb Hr). exists (keys_of l c ring). split; [apply Permutation_refl|].
    inversion HF as [fs' E| | |]; subst.
    unfold keys_of. constructor; [|constructor].
    + cbn [kset]. rewrite (ring_at_eq _ _ Hcb). apply HL.
    + cbn [kset]. rewrite (ring_at_eq _ _ Hcb). destruct invert; [|apply HL]. intros x. rewrite <- in_rev. apply HL.
    + clear. induction (ring_edges ring) as [|[u v] es IH]; [constructor|]. cbn [map]. constructor; [|exact IH].
      eapply same_trans; [|apply ekey_set]. intros x. cbn [map In]. tauto.
Qed.
Lemma extruded_faces l c b cell : nth_error base c = Some b -> extruded invert np l b cell -> exists fs, faces_of (fst (conn_of cell)) (snd (conn_of cell)) fs.
Proof.
  intros Hcb HE. pose proof (Hb _ (nth_error_In _ _ Hcb)) as (Hs & ND & Hu).
  assert (T : forall t ids, In t [12; 13] -> (forall loc, In loc (vtk_faces t) -> forall v, In v loc -> v < length ids) -> exists fs, faces_of t (CIds ids) fs).
  { intros t ids Ht Hr. exists (map (fun loc => map (fun v => nth v ids 0) loc) (vtk_faces t)). apply (fo_linear t ids (vtk_faces t)); [cbn in *; lia|apply Permutation_refl|exact Hr|].
    induction (vtk_faces t) as [|loc tb IH]; constructor; [intros x; reflexivity|]. apply IH. intros loc' H'. apply Hr. now right. }
  inversion HE as [ids E1 E2|ids E1 E2|p q r s E1 E2|ids ring Hring E1 E2]; subst; cbn [conn_of fst snd].
  - assert (L : length ids = 3) by (destruct Hs as [[[_ L]|[[E|E] _]]|[E _]]; cbn in *; try discriminate; exact L). apply T; [cbn; auto|].
    intros loc Hl v Hv. rewrite app_length. unfold lift. rewrite !map_length, L. cbn in Hl. repeat (destruct Hl as [<-|Hl]; [cbn in Hv; lia|]). destruct Hl.
  - assert (L : length ids = 4) by (destruct Hs as [[[E _]|[_ L]]|[E _]]; cbn in *; try discriminate; exact L). apply T; [cbn; auto|].
    intros loc Hl v Hv. rewrite app_length. unfold lift. rewrite !map_length, L. cbn in Hl. repeat (destruct Hl as [<-|Hl]; [cbn in Hv; lia|]). destruct Hl.
  - apply T; [cbn; auto|]. intros loc Hl v Hv. cbn [lift map app length]. cbn in Hl. repeat (destruct Hl as [<-|Hl]; [cbn in Hv; lia|]). destruct Hl.
  - eexists. constructor.
Qed.
End Strata.
