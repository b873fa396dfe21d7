From Coq Require Import Permutation Sorted Lia.
From Verif Require Import Prelude Topo_model Volume_spec Topo_spec Topo_proof Topo2_proof Topo3_proof Topo4_proof Lattice_spec Lattice_proof Lattice2_proof Lattice3_proof Lattice5_proof Lattice6_proof.
Open Scope nat_scope.

Section Quadrilaterals.
Context (nx ny : nat).
Lemma edge_key a i j f : 0 < nx * ny -> edge nx ny a i j f -> f = set2 nx ny (a, i, j) /\ exists c, has2 nx ny c (a, i, j).
Proof.
  intros Hn [(-> & Hi & Hj & ->)|(-> & Hi & Hj & ->)]; (split; [reflexivity|]).
  - assert (0 < nx) by (destruct nx; [cbn in Hn|]; lia). destruct i as [|i].
    + exists (rank nx ny 0 j 0), 0, j. do 3 (split; [auto|]). apply in_keys2. lia.
    + exists (rank nx ny i j 0), i, j. do 3 (split; [auto|]). apply in_keys2. lia.
  - assert (0 < ny) by (destruct ny; [rewrite Nat.mul_0_r in Hn|]; lia). destruct j as [|j].
    + exists (rank nx ny i 0 0), i, 0. do 3 (split; [auto|]). apply in_keys2. lia.
    + exists (rank nx ny i j 0), i, j. do 3 (split; [auto|]). apply in_keys2. lia.
Qed.
Lemma key_edge c a i j : has2 nx ny c (a, i, j) -> edge nx ny a i j (set2 nx ny (a, i, j)).
Proof.
  intros (i' & j' & Hi & Hj & _ & H). apply in_keys2 in H. unfold edge. cbv zeta.
  destruct H as [(-> & H & ->)|(-> & -> & H)]; [left|right]; (split; [reflexivity|]); repeat (split; [lia|]); reflexivity.
Qed.
Definition number2 (x : nat * nat * nat) : nat :=
  let '(a, i, j) := x in match a with 0 => rank (S nx) ny i j 0 | _ => S nx * ny + rank nx (S ny) i j 0 end.
Lemma rank2_lt w h i j : i < w -> j < h -> rank w h i j 0 < w * h.
Proof. intros Hi Hj. pose proof (rank_lt w h 1 i j 0 Hi Hj ltac:(lia)). lia. Qed.
Lemma edges_count keys : 0 < nx * ny -> NoDup keys -> (forall x, In x keys <-> exists c, has2 nx ny c x) -> length keys = S nx * ny + nx * S ny.
Proof.
  intros Hn ND Hin.
  assert (V : forall a i j, In (a, i, j) keys <-> (a = 0 /\ i <= nx /\ j < ny) \/ (a = 1 /\ i < nx /\ j <= ny)).
  { intros a i j. rewrite Hin. split.
    - intros (c & Hc). apply key_edge in Hc. unfold edge in Hc. cbv zeta in Hc. tauto.
    - intros H. apply (edge_key a i j (set2 nx ny (a, i, j)) Hn). unfold edge. cbv zeta.
      destruct H as [(-> & H)|(-> & H)]; [left|right]; (split; [reflexivity|]); repeat (split; [lia|]); reflexivity. }
  apply (count_onto keys number2); [exact ND| | |].
  - intros [[a i] j] [[a' i'] j'] Hx Hy. apply V in Hx, Hy. cbn [number2].
    destruct Hx as [(-> & X)|(-> & X)]; destruct Hy as [(-> & Y)|(-> & Y)]; intros E;
      pose proof (rank2_lt (S nx) ny i j) as B0; pose proof (rank2_lt (S nx) ny i' j') as B0'; [|lia|lia|].
    + apply rank_inj in E as (-> & -> & _); [reflexivity|lia|lia|lia|lia].
    + apply Nat.add_cancel_l in E. apply rank_inj in E as (-> & -> & _); [reflexivity|lia|lia|lia|lia].
  - intros [[a i] j] Hx. apply V in Hx. cbn [number2]. destruct Hx as [(-> & X)|(-> & X)].
    + pose proof (rank2_lt (S nx) ny i j). lia.
    + pose proof (rank2_lt nx (S ny) i j). lia.
  - intros m Hm. destruct (Nat.lt_ge_cases m (S nx * ny)) as [L|L].
    + destruct (rank2_onto _ _ _ L) as (i & j & Hi & Hj & ->). exists (0, i, j). split; [apply V; lia|reflexivity].
    + destruct (rank2_onto nx (S ny) (m - S nx * ny) ltac:(lia)) as (i & j & Hi & Hj & E). exists (1, i, j). split; [apply V; lia|]. cbn [number2]. lia.
Qed.
Lemma sides_row2 a i j f cs m : 0 < nx * ny -> edge nx ny a i j f -> (forall c, In c cs <-> has2 nx ny c (a, i, j)) ->
  StronglySorted lt cs -> length cs + m = 2 -> sides nx ny 1 a i j 0 (map Z.of_nat cs ++ repeat (-1)%Z m).
Proof.
  intros Hn Hf H Hs L.
  assert (P : 0 < nx /\ 0 < ny) by (destruct nx as [|x]; [cbn in Hn; lia|]; destruct ny as [|y]; [rewrite Nat.mul_0_r in Hn; lia|]; lia). destruct P as (P1 & P2).
  destruct Hf as [(-> & Hi & Hj & _)|(-> & Hi & Hj & _)]; cbn [sides].
  - apply beside_row; auto; [|intros; now apply rank_mono1]. intros c. rewrite H. split.
    + intros (i' & j' & Hi' & Hj' & -> & X). apply in_keys2 in X. exists i'. destruct X as [(_ & X & ->)|X]; [|lia]. split; [lia|]. auto.
    + intros (u & Hu & Lu & ->). exists u, j. do 3 (split; [auto|]). apply in_keys2. lia.
  - apply beside_row; auto; [|intros; now apply rank_mono2]. intros c. rewrite H. split.
    + intros (i' & j' & Hi' & Hj' & -> & X). apply in_keys2 in X. exists j'. destruct X as [X|(_ & -> & X)]; [lia|]. split; [lia|]. auto.
    + intros (u & Hu & Lu & ->). exists i, u. do 3 (split; [auto|]). apply in_keys2. lia.
Qed.
End Quadrilaterals.

Lemma quadrilaterals_edges nonzero rg d nx ny : quadrilaterals nx ny (cast d) -> get_dimension d = Ok 2%Z -> 1 < nx * ny ->
  (rg = true -> forall ids u v, In ids (v_cells (cast d)) -> In (u, v) (ring_edges ids) -> nonzero [u; v] = true) ->
  exists g, extract_cell_geometry nonzero rg d = Ok g /\ length (g_faces g) = S nx * ny + nx * S ny /\ length (g_rows g) = length (g_faces g) /\
    forall a i j f, edge nx ny a i j f -> exists n h row, nth_error (g_faces g) n = Some h /\ same_set h f /\
      (forall n' h', nth_error (g_faces g) n' = Some h' -> same_set h' f -> n' = n) /\ nth_error (g_rows g) n = Some row /\ sides nx ny 1 a i j 0 row.
Proof.
  intros Hm Hd Hn Hnz. destruct (quadrilaterals_geometry nonzero rg d _ _ Hm Hd ltac:(lia) Hnz) as (g & w & Ex & Ho & Hw).
  destruct (proj1 (quadrilaterals_neighbors nonzero rg d _ _ Hm Hd Hn Hnz)) as (nb & En & _). unfold get_neighborhood in En. rewrite Ex in En. cbn [bind] in En.
  destruct (neighbor_loop_Ok _ _ _ En) as (_ & H2 & _).
  set (faces := map faces2 (v_cells (cast d))) in *.
  assert (Len : length faces = nx * ny) by (unfold faces; rewrite map_length; apply Hm).
  assert (Dom : forall c x, has2 nx ny c x -> c < length faces).
  { intros c x (i & j & Hi & Hj & -> & _). rewrite Len. now apply rank2_lt. }
  destruct (keyed_faces faces (has2 nx ny) (set2 nx ny) (keyed2 nx ny _ Hm) Dom (set2_inj nx ny) g Ho) as (keys & Lk & ND & Hin & H).
  exists g. split; [exact Ex|]. split; [rewrite <- Lk; apply edges_count; [lia|exact ND|exact Hin]|].
  split; [destruct Ho as (pos & L1 & L2 & _); lia|].
  intros a i j f Hf. destruct (edge_key nx ny a i j f ltac:(lia) Hf) as (-> & Hc). apply Hin in Hc. apply In_nth_error in Hc as (n & Hk).
  destruct (H n _ Hk) as (h & cs & m & Hh & S1 & U & Hrow & Hs & Hcs). exists n, h, (map Z.of_nat cs ++ repeat (-1)%Z m).
  split; [exact Hh|]. split; [exact S1|]. split; [exact U|]. split; [exact Hrow|]. eapply sides_row2; eauto; [lia|].
  specialize (H2 _ (nth_error_In _ _ Hrow)). rewrite app_length, map_length, repeat_length in H2. exact H2.
Qed.
