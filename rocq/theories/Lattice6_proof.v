From Coq Require Import Permutation Sorted Lia.
From Verif Require Import Prelude Topo_model Volume_spec Topo_spec Topo_proof Topo2_proof Topo3_proof Topo4_proof Lattice_spec Lattice_proof Lattice2_proof Lattice3_proof Lattice5_proof.
Open Scope nat_scope.

(* numbers of a list without repetition that is onto an interval *)
Lemma count_onto {A} (l : list A) (num : A -> nat) n : NoDup l -> (forall x y, In x l -> In y l -> num x = num y -> x = y) ->
  (forall x, In x l -> num x < n) -> (forall m, m < n -> exists x, In x l /\ num x = m) -> length l = n.
Proof.
  intros ND Hinj Hlt Hon. rewrite <- (seq_length n 0), <- (map_length num l). apply Permutation_length, NoDup_Permutation.
  - clear Hlt Hon. induction ND as [|x l Hx ND IH]; cbn [map]; constructor.
    + rewrite in_map_iff. intros (y & E & Hy). apply Hx. rewrite (Hinj x y); [exact Hy|now left|now right|now symmetry].
    + apply IH. intros; apply Hinj; auto; now right.
  - apply seq_NoDup.
  - intros m. rewrite in_map_iff, in_seq. split.
    + intros (x & <- & Hx). split; [lia|]. now apply Hlt.
    + intros [_ Hm]. destruct (Hon m ltac:(lia)) as (x & Hx & E). eauto.
Qed.

(* one or two cells in increasing order *)
Lemma row_two cs m : StronglySorted lt cs -> (exists c, In c cs) -> length cs + m = 2 ->
  (exists c, cs = [c] /\ map Z.of_nat cs ++ repeat (-1)%Z m = [Z.of_nat c; (-1)%Z]) \/
  (exists c c', c < c' /\ cs = [c; c'] /\ map Z.of_nat cs ++ repeat (-1)%Z m = [Z.of_nat c; Z.of_nat c']).
Proof.
  intros Hs (c0 & H0) L. destruct cs as [|c [|c' [|c'' cs]]]; cbn [length] in L; [destruct H0| | |lia].
  - left. exists c. split; [reflexivity|]. destruct m as [|[|m]]; try lia. reflexivity.
  - right. exists c, c'. apply StronglySorted_inv in Hs as [_ Hf]. apply Forall_inv in Hf. split; [exact Hf|]. split; [reflexivity|]. destruct m; [reflexivity|lia].
Qed.
Lemma beside_row n cell t cs m : (forall c, In c cs <-> exists u, (t = u \/ t = S u) /\ u < n /\ c = cell u) ->
  (forall u u', u < u' -> cell u < cell u') -> 0 < n -> t <= n -> StronglySorted lt cs -> length cs + m = 2 ->
  beside n cell t (map Z.of_nat cs ++ repeat (-1)%Z m).
Proof.
  intros H Hinc Hn Ht Hs L.
  assert (Hex : exists c, In c cs).
  { destruct t as [|u]; [exists (cell 0); apply H; exists 0; auto|]. exists (cell u). apply H. exists u. split; [auto|]. split; [lia|reflexivity]. }
  destruct t as [|u].
  - assert (All : forall c, In c cs -> c = cell 0) by (intros c Hc; apply H in Hc as (v & [<-|E] & _ & ->); [reflexivity|lia]).
    destruct (row_two _ _ Hs Hex L) as [(c & E & ->)|(c & c' & Lt & E & _)]; subst cs.
    + rewrite (All c) by now left. constructor.
    + rewrite (All c), (All c') in Lt by (cbn; auto). lia.
  - destruct (Nat.eq_dec (S u) n) as [En|Nn].
    + assert (All : forall c, In c cs -> c = cell u) by (intros c Hc; apply H in Hc as (v & [E|E] & Lv & ->); [lia|injection E as <-; reflexivity]).
      destruct (row_two _ _ Hs Hex L) as [(c & E & ->)|(c & c' & Lt & E & _)]; subst cs.
      * rewrite (All c) by now left. rewrite En. apply (bs_last n cell u). now symmetry.
      * rewrite (All c), (All c') in Lt by (cbn; auto). lia.
    + assert (I1 : In (cell u) cs) by (apply H; exists u; split; [auto|]; split; [lia|reflexivity]).
      assert (I2 : In (cell (S u)) cs) by (apply H; exists (S u); split; [auto|]; split; [lia|reflexivity]).
      pose proof (Hinc u (S u) ltac:(lia)) as Hc.
      destruct (row_two _ _ Hs Hex L) as [(c & E & _)|(c & c' & Lt & E & ->)]; subst cs.
      * destruct I1 as [E1|[]], I2 as [E2|[]]. lia.
      * destruct I1 as [E1|[E1|[]]], I2 as [E2|[E2|[]]]; try lia. subst. apply bs_inner. lia.
Qed.

(* ---- hexahedra ---- *)
Section Hexahedra.
Context (nx ny nz : nat).
Lemma facet_key a i j k f : 0 < nx * ny * nz -> facet nx ny nz a i j k f -> f = set3 nx ny (a, i, j, k) /\ exists c, has3 nx ny nz c (a, i, j, k).
Proof.
  intros Hn [(-> & Hi & Hj & Hk & ->)|[(-> & Hi & Hj & Hk & ->)|(-> & Hi & Hj & Hk & ->)]]; (split; [reflexivity|]).
  - assert (0 < nx) by (destruct nx; [cbn in Hn|]; lia). destruct i as [|i].
    + exists (rank nx ny 0 j k), 0, j, k. do 4 (split; [auto|]). apply keys3_in. lia.
    + exists (rank nx ny i j k), i, j, k. do 4 (split; [auto|]). apply keys3_in. lia.
  - assert (0 < ny) by (destruct ny; [rewrite Nat.mul_0_r in Hn; cbn in Hn|]; lia). destruct j as [|j].
    + exists (rank nx ny i 0 k), i, 0, k. do 4 (split; [auto|]). apply keys3_in. lia.
    + exists (rank nx ny i j k), i, j, k. do 4 (split; [auto|]). apply keys3_in. lia.
  - assert (0 < nz) by (destruct nz; [rewrite Nat.mul_0_r in Hn|]; lia). destruct k as [|k].
    + exists (rank nx ny i j 0), i, j, 0. do 4 (split; [auto|]). apply keys3_in. lia.
    + exists (rank nx ny i j k), i, j, k. do 4 (split; [auto|]). apply keys3_in. lia.
Qed.
Lemma key_facet c a i j k : has3 nx ny nz c (a, i, j, k) -> facet nx ny nz a i j k (set3 nx ny (a, i, j, k)).
Proof.
  intros (i' & j' & k' & Hi & Hj & Hk & _ & H). apply in_keys3 in H. unfold facet. cbv zeta.
  destruct H as [(-> & H & -> & ->)|[(-> & -> & H & ->)|(-> & -> & -> & H)]]; [left|right; left|right; right]; (split; [reflexivity|]); repeat (split; [lia|]); reflexivity.
Qed.
Definition number3 (x : nat * nat * nat * nat) : nat :=
  let '(a, i, j, k) := x in
  match a with
  | 0 => rank (S nx) ny i j k
  | 1 => S nx * ny * nz + rank nx (S ny) i j k
  | _ => S nx * ny * nz + nx * S ny * nz + rank nx ny i j k
  end.
Lemma facets_count keys : 0 < nx * ny * nz -> NoDup keys -> (forall x, In x keys <-> exists c, has3 nx ny nz c x) ->
  length keys = S nx * ny * nz + nx * S ny * nz + nx * ny * S nz.
Proof.
  intros Hn ND Hin.
  assert (V : forall a i j k, In (a, i, j, k) keys <-> (a = 0 /\ i <= nx /\ j < ny /\ k < nz) \/ (a = 1 /\ i < nx /\ j <= ny /\ k < nz) \/ (a = 2 /\ i < nx /\ j < ny /\ k <= nz)).
  { intros a i j k. rewrite Hin. split.
    - intros (c & Hc). apply key_facet in Hc. unfold facet in Hc. cbv zeta in Hc. tauto.
    - intros H. apply (facet_key a i j k (set3 nx ny (a, i, j, k)) Hn). unfold facet. cbv zeta.
      destruct H as [(-> & H)|[(-> & H)|(-> & H)]]; [left|right; left|right; right]; (split; [reflexivity|]); repeat (split; [lia|]); reflexivity. }
  apply (count_onto keys number3); [exact ND| | |].
  - intros [[[a i] j] k] [[[a' i'] j'] k'] Hx Hy. apply V in Hx, Hy. cbn [number3].
    destruct Hx as [(-> & X)|[(-> & X)|(-> & X)]]; destruct Hy as [(-> & Y)|[(-> & Y)|(-> & Y)]]; intros E;
      pose proof (rank_lt (S nx) ny nz i j k) as B0; pose proof (rank_lt (S nx) ny nz i' j' k') as B0';
      pose proof (rank_lt nx (S ny) nz i j k) as B1; pose proof (rank_lt nx (S ny) nz i' j' k') as B1';
      [|lia|lia|lia| |lia|lia|lia| ].
    + apply rank_inj in E as (-> & -> & ->); [reflexivity|lia|lia|lia|lia].
    + apply Nat.add_cancel_l in E. apply rank_inj in E as (-> & -> & ->); [reflexivity|lia|lia|lia|lia].
    + apply Nat.add_cancel_l in E. apply rank_inj in E as (-> & -> & ->); [reflexivity|lia|lia|lia|lia].
  - intros [[[a i] j] k] Hx. apply V in Hx. cbn [number3]. destruct Hx as [(-> & X)|[(-> & X)|(-> & X)]].
    + pose proof (rank_lt (S nx) ny nz i j k). lia.
    + pose proof (rank_lt nx (S ny) nz i j k). lia.
    + pose proof (rank_lt nx ny (S nz) i j k). lia.
  - intros m Hm. destruct (Nat.lt_ge_cases m (S nx * ny * nz)) as [L|L].
    + destruct (rank_onto _ _ _ _ L) as (i & j & k & Hi & Hj & Hk & ->). exists (0, i, j, k). split; [apply V; lia|reflexivity].
    + destruct (Nat.lt_ge_cases m (S nx * ny * nz + nx * S ny * nz)) as [L'|L'].
      * destruct (rank_onto nx (S ny) nz (m - S nx * ny * nz) ltac:(lia)) as (i & j & k & Hi & Hj & Hk & E). exists (1, i, j, k). split; [apply V; lia|]. cbn [number3]. lia.
      * destruct (rank_onto nx ny (S nz) (m - S nx * ny * nz - nx * S ny * nz) ltac:(lia)) as (i & j & k & Hi & Hj & Hk & E). exists (2, i, j, k). split; [apply V; lia|]. cbn [number3]. lia.
Qed.
Lemma rank_mono1 w h t t' j k : t < t' -> rank w h t j k < rank w h t' j k. Proof. unfold rank. lia. Qed.
Lemma rank_mono2 w h i t t' k : 0 < w -> t < t' -> rank w h i t k < rank w h i t' k. Proof. unfold rank. intros. nia. Qed.
Lemma rank_mono3 w h i j t t' : 0 < w -> 0 < h -> t < t' -> rank w h i j t < rank w h i j t'.
Proof. unfold rank. intros. assert (h * t < h * t') by nia. nia. Qed.
Lemma sides_row a i j k f cs m : 0 < nx * ny * nz -> facet nx ny nz a i j k f -> (forall c, In c cs <-> has3 nx ny nz c (a, i, j, k)) ->
  StronglySorted lt cs -> length cs + m = 2 -> sides nx ny nz a i j k (map Z.of_nat cs ++ repeat (-1)%Z m).
Proof.
  intros Hn Hf H Hs L.
  assert (P : 0 < nx /\ 0 < ny /\ 0 < nz) by (destruct nx as [|x]; [cbn in Hn; lia|]; destruct ny as [|y]; [rewrite Nat.mul_0_r in Hn; cbn in Hn; lia|]; destruct nz as [|z]; [rewrite Nat.mul_0_r in Hn; lia|]; lia). destruct P as (P1 & P2 & P3).
  destruct Hf as [(-> & Hi & Hj & Hk & _)|[(-> & Hi & Hj & Hk & _)|(-> & Hi & Hj & Hk & _)]]; cbn [sides].
  - apply beside_row; auto; [|intros; now apply rank_mono1]. intros c. rewrite H. split.
    + intros (i' & j' & k' & Hi' & Hj' & Hk' & -> & X). apply in_keys3 in X. exists i'. destruct X as [(_ & X & -> & ->)|[X|X]]; [|lia|lia]. split; [lia|]. auto.
    + intros (u & Hu & Lu & ->). exists u, j, k. do 4 (split; [auto|]). apply keys3_in. lia.
  - apply beside_row; auto; [|intros; now apply rank_mono2]. intros c. rewrite H. split.
    + intros (i' & j' & k' & Hi' & Hj' & Hk' & -> & X). apply in_keys3 in X. exists j'. destruct X as [X|[(_ & -> & X & ->)|X]]; [lia| |lia]. split; [lia|]. auto.
    + intros (u & Hu & Lu & ->). exists i, u, k. do 4 (split; [auto|]). apply keys3_in. lia.
  - apply beside_row; auto; [|intros; now apply rank_mono3]. intros c. rewrite H. split.
    + intros (i' & j' & k' & Hi' & Hj' & Hk' & -> & X). apply in_keys3 in X. exists k'. destruct X as [X|[X|(_ & -> & -> & X)]]; [lia|lia|]. split; [lia|]. auto.
    + intros (u & Hu & Lu & ->). exists i, j, u. do 4 (split; [auto|]). apply keys3_in. lia.
Qed.
End Hexahedra.

Lemma hexahedra_faces nonzero rg d nx ny nz : hexahedra nx ny nz (cast d) -> get_dimension d = Ok 3%Z -> 1 < nx * ny * nz ->
  (rg = true -> forall ids loc f, In ids (v_cells (cast d)) -> In loc (vtk_faces 12) -> same_ring f (map (fun v => nth v ids 0) loc) -> nonzero f = true) ->
  exists g, extract_cell_geometry nonzero rg d = Ok g /\ length (g_faces g) = S nx * ny * nz + nx * S ny * nz + nx * ny * S nz /\ length (g_rows g) = length (g_faces g) /\
    forall a i j k f, facet nx ny nz a i j k f -> exists n h row, nth_error (g_faces g) n = Some h /\ same_set h f /\
      (forall n' h', nth_error (g_faces g) n' = Some h' -> same_set h' f -> n' = n) /\ nth_error (g_rows g) n = Some row /\ sides nx ny nz a i j k row.
Proof.
  intros Hm Hd Hn Hnz. destruct (hexahedra_geometry nonzero rg d _ _ _ Hm Hd ltac:(lia) Hnz) as (g & w & Ex & Ho & Hw).
  destruct (proj1 (hexahedra_neighbors nonzero rg d _ _ _ Hm Hd Hn Hnz)) as (nb & En & _). unfold get_neighborhood in En. rewrite Ex in En. cbn [bind] in En.
  destruct (neighbor_loop_Ok _ _ _ En) as (_ & H2 & _).
  set (faces := map faces3 (v_cells (cast d))) in *.
  assert (Len : length faces = nx * ny * nz) by (unfold faces; rewrite map_length; apply Hm).
  assert (Dom : forall c x, has3 nx ny nz c x -> c < length faces).
  { intros c x (i & j & k & Hi & Hj & Hk & -> & _). rewrite Len. now apply rank_lt. }
  destruct (keyed_faces faces (has3 nx ny nz) (set3 nx ny) (keyed3 nx ny nz _ Hm) Dom (set3_inj nx ny nz) g Ho) as (keys & Lk & ND & Hin & H).
  exists g. split; [exact Ex|]. split; [rewrite <- Lk; apply facets_count; [lia|exact ND|exact Hin]|].
  split; [destruct Ho as (pos & L1 & L2 & _); lia|].
  intros a i j k f Hf. destruct (facet_key nx ny nz a i j k f ltac:(lia) Hf) as (-> & Hc). apply Hin in Hc. apply In_nth_error in Hc as (n & Hk).
  destruct (H n _ Hk) as (h & cs & m & Hh & S1 & U & Hrow & Hs & Hcs). exists n, h, (map Z.of_nat cs ++ repeat (-1)%Z m).
  split; [exact Hh|]. split; [exact S1|]. split; [exact U|]. split; [exact Hrow|]. eapply sides_row; eauto; [lia|].
  specialize (H2 _ (nth_error_In _ _ Hrow)). rewrite app_length, map_length, repeat_length in H2. exact H2.
Qed.
