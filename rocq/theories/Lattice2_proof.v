From Coq Require Import Permutation Sorted Lia.
From Verif Require Import Prelude Topo_model Volume_spec Topo_spec Topo_proof Topo2_proof Topo3_proof Topo4_proof Lattice_spec Lattice_proof.
Open Scope nat_scope.

(* ---- hexahedra ---- *)
Section Hexahedra.
Context (nx ny nz : nat).
Notation p := (rank (S nx) (S ny)).
Definition corners3 (i j k : nat) : list nat :=
  [p i j k; p (S i) j k; p (S i) (S j) k; p i (S j) k; p i j (S k); p (S i) j (S k); p (S i) (S j) (S k); p i (S j) (S k)].
(* faces: axis and first corner *)
Definition set3 (x : nat * nat * nat * nat) : list nat :=
  let '(ax, a, b, c) := x in
  match ax with
  | 0 => [p a b c; p a (S b) c; p a (S b) (S c); p a b (S c)]
  | 1 => [p a b c; p (S a) b c; p (S a) b (S c); p a b (S c)]
  | _ => [p a b c; p (S a) b c; p (S a) (S b) c; p a (S b) c]
  end.
Definition keys3 (i j k : nat) : list (nat * nat * nat * nat) :=
  [(2, i, j, k); (2, i, j, S k); (1, i, j, k); (0, S i, j, k); (1, i, S j, k); (0, i, j, k)].
Definition has3 (c : nat) (x : nat * nat * nat * nat) : Prop :=
  exists i j k, i < nx /\ j < ny /\ k < nz /\ c = rank nx ny i j k /\ In x (keys3 i j k).
Definition table3 : list (list nat) := [[0; 3; 2; 1]; [4; 5; 6; 7]; [0; 1; 5; 4]; [1; 2; 6; 5]; [2; 3; 7; 6]; [0; 4; 7; 3]].
Definition faces3 (ids : list nat) : list (list nat) := map (map (fun v => nth v ids 0)) table3.

Lemma in_keys3 ax a b c i j k : In (ax, a, b, c) (keys3 i j k) ->
  (ax = 0 /\ (a = i \/ a = S i) /\ b = j /\ c = k) \/ (ax = 1 /\ a = i /\ (b = j \/ b = S j) /\ c = k) \/ (ax = 2 /\ a = i /\ b = j /\ (c = k \/ c = S k)).
Proof. unfold keys3. cbn. intros H. repeat (destruct H as [[= <- <- <- <-]|H]; [lia|]). destruct H. Qed.
Lemma keys3_in ax a b c i j k :
  (ax = 0 /\ (a = i \/ a = S i) /\ b = j /\ c = k) \/ (ax = 1 /\ a = i /\ (b = j \/ b = S j) /\ c = k) \/ (ax = 2 /\ a = i /\ b = j /\ (c = k \/ c = S k)) ->
  In (ax, a, b, c) (keys3 i j k).
Proof. unfold keys3. cbn. intros [(-> & [->| ->] & -> & ->)|[(-> & -> & [->| ->] & ->)|(-> & -> & -> & [->| ->])]]; auto 10. Qed.

Lemma p1 a b c : p (S a) b c = p a b c + 1. Proof. unfold rank. lia. Qed.
Lemma p2 a b c : p a (S b) c = p a b c + S nx. Proof. unfold rank. lia. Qed.
Lemma p3 a b c : p a b (S c) = p a b c + S nx * S ny. Proof. unfold rank. lia. Qed.

Lemma set3_inj c c' x x' : has3 c x -> has3 c' x' -> same_set (set3 x) (set3 x') -> x = x'.
Proof.
  intros (i & j & k & Hi & Hj & Hk & _ & Hx) (i' & j' & k' & Hi' & Hj' & Hk' & _ & Hx') Hs.
  destruct x as [[[ax a] b] e], x' as [[[ax' a'] b'] e']. apply in_keys3 in Hx, Hx'.
  assert (X2 : 2 <= S nx) by lia. assert (Y2 : 2 * S nx <= S nx * S ny) by nia.
  assert (Hlow : forall ax a b e y, ax <= 2 -> In y (set3 (ax, a, b, e)) -> p a b e <= y).
  { intros ax0 a0 b0 e0 y L Hy. unfold set3 in Hy. destruct ax0 as [|[|[|ax0]]]; [| | |lia]; cbn [In] in Hy;
      repeat destruct Hy as [<-|Hy]; rewrite ?p1, ?p2, ?p3, ?p1, ?p2; try lia; destruct Hy. }
  assert (Hbase : forall ax a b e, In (p a b e) (set3 (ax, a, b, e))) by (intros [|[|?]] ? ? ?; now left).
  assert (E : p a b e = p a' b' e').
  { apply Nat.le_antisymm.
    - apply (Hlow ax); [lia|]. apply Hs, Hbase.
    - apply (Hlow ax'); [lia|]. apply Hs, Hbase. }
  apply rank_inj in E as (-> & -> & ->); [|lia|lia|lia|lia].
  set (N := p a' b' e') in *. set (Y := S nx * S ny) in *. set (X := S nx) in *.
  assert (Hall : forall y, In y (set3 (ax, a', b', e')) <-> In y (set3 (ax', a', b', e'))) by exact Hs.
  assert (S0 : forall y, In y (set3 (0, a', b', e')) <-> y = N \/ y = N + X \/ y = N + X + Y \/ y = N + Y).
  { intros y. cbn [set3 In]. rewrite ?p3, ?p2, ?p3. fold N X Y. clear; intuition lia. }
  assert (S1 : forall y, In y (set3 (1, a', b', e')) <-> y = N \/ y = N + 1 \/ y = N + 1 + Y \/ y = N + Y).
  { intros y. cbn [set3 In]. rewrite ?p3, ?p1, ?p3. fold N X Y. clear; intuition lia. }
  assert (S2 : forall y, In y (set3 (2, a', b', e')) <-> y = N \/ y = N + 1 \/ y = N + 1 + X \/ y = N + X).
  { intros y. cbn [set3 In]. rewrite ?p1, ?p2, ?p1. fold N X Y. clear; intuition lia. }
  clearbody X Y N. clear Hs Hlow Hbase.
  assert (Hax : ax <= 2) by lia. assert (Hax' : ax' <= 2) by lia.
  destruct ax as [|[|[|ax]]], ax' as [|[|[|ax']]]; try lia; try reflexivity; exfalso.
  - pose proof (proj1 (Hall (N + X)) (proj2 (S0 (N + X)) ltac:(lia))) as Q. apply S1 in Q. lia.
  - pose proof (proj1 (Hall (N + Y)) (proj2 (S0 (N + Y)) ltac:(lia))) as Q. apply S2 in Q. lia.
  - pose proof (proj1 (Hall (N + 1)) (proj2 (S1 (N + 1)) ltac:(lia))) as Q. apply S0 in Q. lia.
  - pose proof (proj1 (Hall (N + Y)) (proj2 (S1 (N + Y)) ltac:(lia))) as Q. apply S2 in Q. lia.
  - pose proof (proj1 (Hall (N + 1)) (proj2 (S2 (N + 1)) ltac:(lia))) as Q. apply S0 in Q. lia.
  - pose proof (proj1 (Hall (N + X)) (proj2 (S2 (N + X)) ltac:(lia))) as Q. apply S1 in Q. lia.
Qed.

Lemma two3 a b c x : has3 a x -> has3 b x -> has3 c x -> a = b \/ b = c \/ a = c.
Proof.
  destruct x as [[[ax u] v] w].
  intros (i & j & k & _ & _ & _ & -> & H1) (i' & j' & k' & _ & _ & _ & -> & H2) (i2 & j2 & k2 & _ & _ & _ & -> & H3).
  apply in_keys3 in H1, H2, H3.
  assert ((i = i' /\ j = j' /\ k = k') \/ (i' = i2 /\ j' = j2 /\ k' = k2) \/ (i = i2 /\ j = j2 /\ k = k2)) as [(-> & -> & ->)|[(-> & -> & ->)|(-> & -> & ->)]]; [|auto|auto|auto].
  destruct H1 as [H1|[H1|H1]]; destruct H2 as [H2|[H2|H2]]; try lia; destruct H3 as [H3|[H3|H3]]; lia.
Qed.
Lemma one3 a b x x' : a <> b -> has3 a x -> has3 b x -> has3 a x' -> has3 b x' -> x = x'.
Proof.
  destruct x as [[[ax u] v] w], x' as [[[ax' u'] v'] w'].
  intros N (i & j & k & Hi & Hj & Hk & Ea & H1) (i' & j' & k' & Hi' & Hj' & Hk' & Eb & H2)
    (i2 & j2 & k2 & Hi2 & Hj2 & Hk2 & Ea' & H3) (i3 & j3 & k3 & Hi3 & Hj3 & Hk3 & Eb' & H4).
  rewrite Ea in Ea'. apply rank_inj in Ea' as (<- & <- & <-); auto. rewrite Eb in Eb'. apply rank_inj in Eb' as (<- & <- & <-); auto.
  assert (D : i <> i' \/ j <> j' \/ k <> k') by (destruct (Nat.eq_dec i i') as [->|]; [|auto]; destruct (Nat.eq_dec j j') as [->|]; [|auto]; right; right; congruence).
  apply in_keys3 in H1, H2, H3, H4. clear - D H1 H2 H3 H4.
  assert (ax = ax' /\ u = u' /\ v = v' /\ w = w') as (-> & -> & -> & ->); [|reflexivity].
  destruct H1 as [H1|[H1|H1]]; destruct H2 as [H2|[H2|H2]]; try lia; destruct H3 as [H3|[H3|H3]]; destruct H4 as [H4|[H4|H4]]; lia.
Qed.

Lemma faces3_keys i j k : Forall2 (fun f x => same_set f (set3 x)) (faces3 (corners3 i j k)) (keys3 i j k).
Proof.
  unfold faces3, table3, corners3, keys3. cbn [map nth].
  repeat (apply Forall2_cons || apply Forall2_nil); intros x; cbn [set3 In]; tauto.
Qed.
Lemma keys3_nodup i j k : NoDup (keys3 i j k).
Proof. unfold keys3. repeat constructor; cbn [In]; intros H; repeat destruct H as [H|H]; try (injection H; lia); destruct H. Qed.

Lemma adjacent_keys i j k i' j' k' : ((i, j, k) <> (i', j', k') /\ exists x, In x (keys3 i j k) /\ In x (keys3 i' j' k')) <-> adjacent i j k i' j' k'.
Proof.
  split.
  - intros (N & [[[ax u] v] w] & H1 & H2). apply in_keys3 in H1, H2. unfold adjacent, step.
    assert (D : i <> i' \/ j <> j' \/ k <> k') by (destruct (Nat.eq_dec i i') as [->|]; [|auto]; destruct (Nat.eq_dec j j') as [->|]; [|auto]; right; right; congruence).
    destruct H1 as [H1|[H1|H1]]; destruct H2 as [H2|[H2|H2]]; lia.
  - unfold adjacent, step. intros H. split; [intros [= -> -> ->]; lia|].
    destruct H as [([->| ->] & <- & <-)|[(<- & [->| ->] & <-)|(<- & <- & [->| ->])]].
    + exists (0, S i, j, k). split; apply keys3_in; lia.
    + exists (0, S i', j, k). split; apply keys3_in; lia.
    + exists (1, i, S j, k). split; apply keys3_in; lia.
    + exists (1, i, S j', k). split; apply keys3_in; lia.
    + exists (2, i, j, S k). split; apply keys3_in; lia.
    + exists (2, i, j, S k'). split; apply keys3_in; lia.
Qed.

Context (m : vmesh) (Hm : hexahedra nx ny nz m).

Lemma cells3 ids : In ids (v_cells m) -> exists i j k, i < nx /\ j < ny /\ k < nz /\ ids = corners3 i j k.
Proof.
  destruct Hm as (_ & L & H). intros Hin. apply In_nth_error in Hin as (c & Hc). assert (Hlt : c < nx * ny * nz) by (rewrite <- L; apply nth_error_Some; congruence).
  destruct (rank_onto _ _ _ _ Hlt) as (i & j & k & Hi & Hj & Hk & ->). exists i, j, k. cbv zeta in H. rewrite (H i j k Hi Hj Hk) in Hc. injection Hc as <-. auto.
Qed.

Lemma keyed3 : let faces := map faces3 (v_cells m) in
  forall c fs, nth_error faces c = Some fs -> exists ks, Forall2 (fun f x => same_set f (set3 x)) fs ks /\ NoDup ks /\ forall x, In x ks <-> has3 c x.
Proof.
  intros faces c fs Hc. unfold faces in Hc. rewrite nth_error_map in Hc. destruct (nth_error (v_cells m) c) as [ids|] eqn:Ei; [|discriminate]. injection Hc as <-.
  destruct Hm as (_ & L & H). assert (Hlt : c < nx * ny * nz) by (rewrite <- L; apply nth_error_Some; congruence).
  destruct (rank_onto _ _ _ _ Hlt) as (i & j & k & Hi & Hj & Hk & ->). cbv zeta in H. rewrite (H i j k Hi Hj Hk) in Ei. injection Ei as <-.
  exists (keys3 i j k). split; [apply faces3_keys|]. split; [apply keys3_nodup|]. intros x. split.
  - intros Hx. exists i, j, k. auto.
  - intros (i' & j' & k' & Hi' & Hj' & Hk' & E & Hx). apply rank_inj in E as (-> & -> & ->); auto.
Qed.

Lemma cell_faces3 : 0 < nx * ny * nz -> cell_faces (v_types m) (map CIds (v_cells m)) = Ok (map faces3 (v_cells m)).
Proof.
  intros Hpos. destruct Hm as (Ht & _ & _). unfold cell_faces. rewrite Ht. destruct (nx * ny * nz) as [|n]; [lia|]. cbn [repeat].
  replace (forallb (Nat.eqb 12) (12 :: repeat 12 n)) with true by (symmetry; apply forallb_forall; intros x [<-|Hx]; [reflexivity|apply repeat_spec in Hx; now subst]).
  change (12 =? 42) with false. cbv iota. change (celltype_to_faces 12) with (Some table3). cbv iota.
  pose proof cells3 as Hc. induction (v_cells m) as [|ids cells IH]; [reflexivity|]. cbn [map mapM].
  destruct (Hc ids ltac:(now left)) as (i & j & k & _ & _ & _ & ->).
  assert (E1 : table_faces table3 (CIds (corners3 i j k)) = Ok (faces3 (corners3 i j k))) by reflexivity. rewrite E1. cbn [bind].
  rewrite IH; [reflexivity|]. intros ids' Hin. apply Hc. now right.
Qed.
End Hexahedra.

Lemma hexahedra_geometry nonzero rg d nx ny nz : hexahedra nx ny nz (cast d) -> get_dimension d = Ok 3%Z -> 0 < nx * ny * nz ->
  (rg = true -> forall ids loc f, In ids (v_cells (cast d)) -> In loc (vtk_faces 12) -> same_ring f (map (fun v => nth v ids 0) loc) -> nonzero f = true) ->
  exists g w, extract_cell_geometry nonzero rg d = Ok g /\ lists_once (incidences (map faces3 (v_cells (cast d)))) g /\ common_width w g.
Proof.
  intros Hm Hd Hn Hnz. set (faces := map (faces3) (v_cells (cast d))).
  assert (Len : length faces = nx * ny * nz) by (unfold faces; rewrite map_length; apply Hm).
  assert (Hne : incidences faces <> []).
  { intros E. destruct (nth_error faces 0) as [fs|] eqn:E0; [|apply nth_error_None in E0; lia].
    unfold faces in E0. rewrite nth_error_map in E0. destruct (nth_error (v_cells (cast d)) 0) as [ids|] eqn:Ei; [|discriminate]. injection E0 as E0.
    assert (Q : In (0, map (fun v => nth v ids 0) [0; 3; 2; 1]) (incidences faces)).
    { apply incidences_In. exists (faces3 ids). split; [unfold faces; rewrite nth_error_map, Ei; reflexivity|]. now left. }
    rewrite E in Q. destruct Q. }
  destruct (get_polydata_def faces Hne) as (g & Eg). destruct (get_polydata_once _ _ Eg) as (Ho & w & Hw).
  assert (Nc : no_collapse nonzero rg faces).
  { intros Er f Hf. apply in_concat in Hf as (fs & Hfs & Hf). unfold faces in Hfs. apply in_map_iff in Hfs as (ids & <- & Hids).
    unfold faces3 in Hf. apply in_map_iff in Hf as (loc & <- & Hloc).
    assert (Same : forall loc', In loc' (vtk_faces 12) -> same_ring (map (fun v => nth v ids 0) loc) (map (fun v => nth v ids 0) loc') -> nonzero (map (fun v => nth v ids 0) loc) = true)
      by (intros loc' H1 H2; exact (Hnz Er ids loc' _ Hids H1 H2)).
    assert (Refl : forall l, same_ring l l) by (intros l; exists [], l; rewrite app_nil_r; auto).
    unfold table3 in Hloc. cbn [In] in Hloc. destruct Hloc as [<-|[<-|[<-|[<-|[<-|[<-|[]]]]]]].
    - apply (Same [0; 3; 2; 1]); [cbn; auto 10|apply Refl].
    - apply (Same [4; 5; 6; 7]); [cbn; auto 10|apply Refl].
    - apply (Same [0; 1; 5; 4]); [cbn; auto 10|apply Refl].
    - apply (Same [1; 2; 6; 5]); [cbn; auto 10|apply Refl].
    - apply (Same [3; 7; 6; 2]); [cbn; auto 10|]. cbn [map]. exists [nth 3 ids 0; nth 7 ids 0; nth 6 ids 0], [nth 2 ids 0]. split; [reflexivity|]. left. reflexivity.
    - apply (Same [0; 4; 7; 3]); [cbn; auto 10|apply Refl]. }
  assert (Ex : extract_cell_geometry nonzero rg d = Ok g).
  { unfold extract_cell_geometry. rewrite Hd. cbn [bind]. unfold get_cell_connectivity.
    replace (existsb (Nat.eqb 42) (v_types (cast d))) with false.
    2:{ symmetry. destruct Hm as (Ht & _). rewrite Ht. clear. induction (nx * ny * nz); [reflexivity|]. cbn. exact IHn. }
    cbn [bind]. change ((3 =? 1)%Z || (3 =? 2)%Z) with false. cbv iota. rewrite (cell_faces3 nx ny nz _ Hm) by lia. cbn [bind]. fold faces. rewrite Eg. cbn [bind].
    eapply drop_none; eauto. }
  exists g, w. auto.
Qed.

Lemma hexahedra_neighbors nonzero rg d nx ny nz : hexahedra nx ny nz (cast d) -> get_dimension d = Ok 3%Z -> 1 < nx * ny * nz ->
  (rg = true -> forall ids loc f, In ids (v_cells (cast d)) -> In loc (vtk_faces 12) -> same_ring f (map (fun v => nth v ids 0) loc) -> nonzero f = true) ->
  (exists nb, get_neighborhood nonzero rg d = Ok nb /\ length nb = nx * ny * nz /\
    forall i j k, i < nx -> j < ny -> k < nz -> exists r, nth_error nb (rank nx ny i j k) = Some r /\ NoDup r /\
      forall z, In z r <-> exists i' j' k', i' < nx /\ j' < ny /\ k' < nz /\ z = Z.of_nat (rank nx ny i' j' k') /\ adjacent i j k i' j' k') /\
  exists lines, (forall P (centers : list P), get_connectivity nonzero rg d [nx * ny * nz; 3] centers = Ok (centers, lines)) /\ NoDup lines /\
    forall z, In z lines <-> exists i j k i' j' k', i < nx /\ j < ny /\ k < nz /\ i' < nx /\ j' < ny /\ k' < nz /\
      z = (Z.of_nat (rank nx ny i j k), Z.of_nat (rank nx ny i' j' k')) /\ rank nx ny i j k < rank nx ny i' j' k' /\ adjacent i j k i' j' k'.
Proof.
  intros Hm Hd Hn Hnz. set (faces := map (faces3) (v_cells (cast d))).
  assert (Len : length faces = nx * ny * nz) by (unfold faces; rewrite map_length; apply Hm).
  destruct (hexahedra_geometry nonzero rg d _ _ _ Hm Hd ltac:(lia) Hnz) as (g & w & Ex & Ho & Hw). fold faces in Ho.
  assert (Dom : forall c x, has3 nx ny nz c x -> c < length faces).
  { intros c x (i & j & k & Hi & Hj & Hk & -> & _). rewrite Len. now apply rank_lt. }
  destruct (keyed_neighbors faces (has3 nx ny nz) (set3 nx ny) (keyed3 nx ny nz _ Hm) Dom (set3_inj nx ny nz) (two3 nx ny nz) (one3 nx ny nz) g w Ho Hw) as (nb & En & Ln & H).
  { (* two neighbours *)
    assert (P : 0 < nx /\ 0 < ny /\ 0 < nz) by (destruct nx as [|a]; [cbn in Hn; lia|]; destruct ny as [|b]; [rewrite Nat.mul_0_r in Hn; cbn in Hn; lia|]; destruct nz as [|c]; [rewrite Nat.mul_0_r in Hn; lia|]; lia). destruct P as (P1 & P2 & P3).
    assert (Q : 1 < nx \/ 1 < ny \/ 1 < nz) by (destruct (Nat.le_gt_cases nx 1); [|auto]; destruct (Nat.le_gt_cases ny 1); [|auto]; destruct (Nat.le_gt_cases nz 1); [|auto]; assert (nx = 1) by lia; assert (ny = 1) by lia; assert (nz = 1) by lia; subst nx ny nz; cbn in Hn; lia).
    assert (Two : forall i j k, i < nx -> j < ny -> k < nz -> adjacent 0 0 0 i j k -> exists a b x, a <> b /\ has3 nx ny nz a x /\ has3 nx ny nz b x).
    { intros i j k Hi Hj Hk Ha. apply adjacent_keys in Ha as (N & x & X1 & X2). exists (rank nx ny 0 0 0), (rank nx ny i j k), x. split.
      - intros E. apply N. apply rank_inj in E as (<- & <- & <-); auto.
      - split; [exists 0, 0, 0; auto|exists i, j, k; auto]. }
    destruct Q as [Q|[Q|Q]].
    - apply (Two 1 0 0); auto. unfold adjacent, step. lia.
    - apply (Two 0 1 0); auto. unfold adjacent, step. lia.
    - apply (Two 0 0 1); auto. unfold adjacent, step. lia. }
  split.
  {
  exists nb. unfold get_neighborhood. rewrite Ex. cbn [bind].
  assert (El : length (v_types (cast d)) = length faces) by (rewrite Len; destruct Hm as (-> & _); apply repeat_length). rewrite El. split; [exact En|]. split; [lia|].
  intros i j k Hi Hj Hk. pose proof (rank_lt nx ny nz i j k Hi Hj Hk) as Hlt.
  destruct (nth_error nb (rank nx ny i j k)) as [r|] eqn:Er; [|apply nth_error_None in Er; lia]. exists r. split; [reflexivity|].
  destruct (H _ _ Er) as (ND & Hin). split; [exact ND|]. intros z. rewrite (Hin z). split.
  - intros (c & -> & N & x & (i0 & j0 & k0 & Hi0 & Hj0 & Hk0 & E0 & X0) & (i' & j' & k' & Hi' & Hj' & Hk' & -> & X')).
    apply rank_inj in E0 as (<- & <- & <-); auto. exists i', j', k'. do 3 (split; [assumption|]). split; [reflexivity|]. apply adjacent_keys. split; [|eauto].
    intros [= <- <- <-]. congruence.
  - intros (i' & j' & k' & Hi' & Hj' & Hk' & -> & Ha). apply adjacent_keys in Ha as (N & x & X1 & X2). exists (rank nx ny i' j' k'). split; [reflexivity|]. split.
    + intros E. apply N. apply rank_inj in E as (<- & <- & <-); auto.
    + exists x. split; [exists i, j, k; auto|exists i', j', k'; auto 10].
  }
  destruct (neighbor_loop_Ok _ _ _ En) as (_ & H2 & _). destruct (connectivity_lines_def _ H2) as (lines & El').
  destruct (keyed_lines faces (has3 nx ny nz) (set3 nx ny) (keyed3 nx ny nz _ Hm) Dom (set3_inj nx ny nz) (one3 nx ny nz) g lines Ho El') as (ND & Hl). exists lines. split; [|split; [exact ND|]].
  - intros P centers. unfold get_connectivity. assert (El : length (v_types (cast d)) = nx * ny * nz) by (destruct Hm as (-> & _); apply repeat_length).
    rewrite El. replace (list_eqb [nx * ny * nz; 3] [nx * ny * nz; 3]) with true by (symmetry; now apply list_eqb_eq). cbn [negb]. rewrite Ex. cbn [bind]. rewrite El'. reflexivity.
  - intros z. rewrite (Hl z). split.
    + intros (a & b & -> & Lt & x & (i & j & k & Hi & Hj & Hk & -> & X) & (i' & j' & k' & Hi' & Hj' & Hk' & -> & X')). exists i, j, k, i', j', k'. do 6 (split; [assumption|]). split; [reflexivity|]. split; [exact Lt|].
      apply adjacent_keys. split; [|eauto]. intros [= <- <- <-]. lia.
    + intros (i & j & k & i' & j' & k' & Hi & Hj & Hk & Hi' & Hj' & Hk' & -> & Lt & Ha). apply adjacent_keys in Ha as (N & x & X1 & X2). exists (rank nx ny i j k), (rank nx ny i' j' k'). split; [reflexivity|]. split; [exact Lt|].
      exists x. split; [exists i, j, k; auto 10|exists i', j', k'; auto 10].
Qed.
