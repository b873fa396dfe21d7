From Coq Require Import Permutation Sorted Lia.
From Verif Require Import Prelude Topo_model Volume_spec Topo_spec Topo_proof Topo2_proof Topo3_proof Topo4_proof Lattice_spec Lattice_proof.
Open Scope nat_scope.

(* ---- quadrilaterals ---- *)
Section Quadrilaterals.
Context (nx ny : nat).
Notation p a b := (rank (S nx) (S ny) a b 0).
Definition corners2 (i j : nat) : list nat := [p i j; p (S i) j; p (S i) (S j); p i (S j)].
Definition set2 (x : nat * nat * nat) : list nat :=
  let '(ax, a, b) := x in match ax with 0 => [p a b; p a (S b)] | _ => [p a b; p (S a) b] end.
Definition keys2 (i j : nat) : list (nat * nat * nat) := [(1, i, j); (0, S i, j); (1, i, S j); (0, i, j)].
Definition has2 (c : nat) (x : nat * nat * nat) : Prop := exists i j, i < nx /\ j < ny /\ c = rank nx ny i j 0 /\ In x (keys2 i j).
Definition faces2 (ids : list nat) : list (list nat) := zip_pairs ids (roll1 ids).

Lemma in_keys2 ax a b i j : In (ax, a, b) (keys2 i j) <-> (ax = 0 /\ (a = i \/ a = S i) /\ b = j) \/ (ax = 1 /\ a = i /\ (b = j \/ b = S j)).
Proof.
  unfold keys2. cbn. split.
  - intros H. repeat (destruct H as [[= <- <- <-]|H]; [lia|]). destruct H.
  - intros [(-> & [->| ->] & ->)|(-> & -> & [->| ->])]; auto 10.
Qed.
Lemma q1 a b : p (S a) b = p a b + 1. Proof. unfold rank. lia. Qed.
Lemma q2 a b : p a (S b) = p a b + S nx. Proof. unfold rank. lia. Qed.

Lemma set2_inj c c' x x' : has2 c x -> has2 c' x' -> same_set (set2 x) (set2 x') -> x = x'.
Proof.
  intros (i & j & Hi & Hj & _ & Hx) (i' & j' & Hi' & Hj' & _ & Hx') Hs.
  destruct x as [[ax a] b], x' as [[ax' a'] b']. apply in_keys2 in Hx, Hx'.
  assert (X2 : 2 <= S nx) by lia.
  assert (Hlow : forall ax a b y, ax <= 1 -> In y (set2 (ax, a, b)) -> p a b <= y).
  { intros ax0 a0 b0 y L Hy. unfold set2 in Hy. destruct ax0 as [|[|ax0]]; [| |lia]; cbn [In] in Hy;
      repeat destruct Hy as [<-|Hy]; rewrite ?q1, ?q2; try lia; destruct Hy. }
  assert (Hbase : forall ax a b, In (p a b) (set2 (ax, a, b))) by (intros [|?] ? ?; now left).
  assert (E : p a b = p a' b').
  { apply Nat.le_antisymm.
    - apply (Hlow ax); [lia|]. apply Hs, Hbase.
    - apply (Hlow ax'); [lia|]. apply Hs, Hbase. }
  apply rank_inj in E as (-> & -> & _); [|lia|lia|lia|lia].
  set (N := p a' b') in *. set (X := S nx) in *.
  assert (S0 : forall y, In y (set2 (0, a', b')) <-> y = N \/ y = N + X) by (intros y; cbn [set2 In]; rewrite ?q2; fold N X; clear; intuition lia).
  assert (S1 : forall y, In y (set2 (1, a', b')) <-> y = N \/ y = N + 1) by (intros y; cbn [set2 In]; rewrite ?q1; fold N X; clear; intuition lia).
  clearbody X N. clear Hlow Hbase.
  assert (Hax : ax <= 1) by lia. assert (Hax' : ax' <= 1) by lia.
  destruct ax as [|[|ax]], ax' as [|[|ax']]; try lia; try reflexivity; exfalso.
  - pose proof (proj1 (Hs (N + X)) (proj2 (S0 (N + X)) ltac:(lia))) as Q. apply S1 in Q. lia.
  - pose proof (proj1 (Hs (N + 1)) (proj2 (S1 (N + 1)) ltac:(lia))) as Q. apply S0 in Q. lia.
Qed.
Lemma two2 a b c x : has2 a x -> has2 b x -> has2 c x -> a = b \/ b = c \/ a = c.
Proof.
  destruct x as [[ax u] v]. intros (i & j & _ & _ & -> & H1) (i' & j' & _ & _ & -> & H2) (i2 & j2 & _ & _ & -> & H3). apply in_keys2 in H1, H2, H3.
  assert ((i = i' /\ j = j') \/ (i' = i2 /\ j' = j2) \/ (i = i2 /\ j = j2)) as [(-> & ->)|[(-> & ->)|(-> & ->)]]; [|auto|auto|auto].
  destruct H1 as [H1|H1]; destruct H2 as [H2|H2]; try lia; destruct H3 as [H3|H3]; lia.
Qed.
Lemma one2 a b x x' : a <> b -> has2 a x -> has2 b x -> has2 a x' -> has2 b x' -> x = x'.
Proof.
  destruct x as [[ax u] v], x' as [[ax' u'] v'].
  intros N (i & j & Hi & Hj & Ea & H1) (i' & j' & Hi' & Hj' & Eb & H2) (i2 & j2 & Hi2 & Hj2 & Ea' & H3) (i3 & j3 & Hi3 & Hj3 & Eb' & H4).
  rewrite Ea in Ea'. apply rank_inj in Ea' as (<- & <- & _); auto. rewrite Eb in Eb'. apply rank_inj in Eb' as (<- & <- & _); auto.
  assert (D : i <> i' \/ j <> j') by (destruct (Nat.eq_dec i i') as [->|]; [|auto]; right; congruence).
  apply in_keys2 in H1, H2, H3, H4. clear - D H1 H2 H3 H4.
  assert (ax = ax' /\ u = u' /\ v = v') as (-> & -> & ->); [|reflexivity].
  destruct H1 as [H1|H1]; destruct H2 as [H2|H2]; try lia; destruct H3 as [H3|H3]; destruct H4 as [H4|H4]; lia.
Qed.
Lemma faces2_keys i j : Forall2 (fun f x => same_set f (set2 x)) (faces2 (corners2 i j)) (keys2 i j).
Proof.
  unfold faces2, corners2, keys2. cbn. repeat (apply Forall2_cons || apply Forall2_nil); intros x; cbn [set2 In]; tauto.
Qed.
Lemma keys2_nodup i j : NoDup (keys2 i j).
Proof. unfold keys2. repeat constructor; cbn [In]; intros H; repeat destruct H as [H|H]; try (injection H; lia); destruct H. Qed.
Lemma adjacent_keys2 i j i' j' : ((i, j) <> (i', j') /\ exists x, In x (keys2 i j) /\ In x (keys2 i' j')) <-> adjacent i j 0 i' j' 0.
Proof.
  split.
  - intros (N & [[ax u] v] & H1 & H2). apply in_keys2 in H1, H2. unfold adjacent, step.
    assert (D : i <> i' \/ j <> j') by (destruct (Nat.eq_dec i i') as [->|]; [|auto]; right; congruence).
    destruct H1 as [H1|H1]; destruct H2 as [H2|H2]; lia.
  - unfold adjacent, step. intros H. split; [intros [= -> ->]; lia|].
    destruct H as [([->| ->] & <- & _)|[(<- & [->| ->] & _)|(_ & _ & H)]]; [| | | |lia].
    + exists (0, S i, j). split; apply in_keys2; lia.
    + exists (0, S i', j). split; apply in_keys2; lia.
    + exists (1, i, S j). split; apply in_keys2; lia.
    + exists (1, i, S j'). split; apply in_keys2; lia.
Qed.
Context (m : vmesh) (Hm : quadrilaterals nx ny m).
Lemma rank2_onto c : c < nx * ny -> exists i j, i < nx /\ j < ny /\ c = rank nx ny i j 0.
Proof.
  intros Hc. destruct (rank_onto nx ny 1 c ltac:(lia)) as (i & j & k & Hi & Hj & Hk & ->). assert (k = 0) as -> by lia. eauto.
Qed.
Lemma keyed2 : let faces := map faces2 (v_cells m) in
  forall c fs, nth_error faces c = Some fs -> exists ks, Forall2 (fun f x => same_set f (set2 x)) fs ks /\ NoDup ks /\ forall x, In x ks <-> has2 c x.
Proof.
  intros faces c fs Hc. unfold faces in Hc. rewrite nth_error_map in Hc. destruct (nth_error (v_cells m) c) as [ids|] eqn:Ei; [|discriminate]. injection Hc as <-.
  destruct Hm as (_ & L & H). assert (Hlt : c < nx * ny) by (rewrite <- L; apply nth_error_Some; congruence).
  destruct (rank2_onto _ Hlt) as (i & j & Hi & Hj & ->). cbv zeta in H. rewrite (H i j Hi Hj) in Ei. injection Ei as <-.
  exists (keys2 i j). split; [apply faces2_keys|]. split; [apply keys2_nodup|]. intros x. split.
  - intros Hx. exists i, j. auto.
  - intros (i' & j' & Hi' & Hj' & E & Hx). apply rank_inj in E as (-> & -> & _); auto.
Qed.
Lemma cell_edges2 rg : mapM (fun ct => let! ids := ids_of_conn (fst ct) in cell_edges rg (snd ct) ids) (combine (map CIds (v_cells m)) (v_types m)) = Ok (map faces2 (v_cells m)).
Proof.
  destruct Hm as (Ht & L & _). rewrite Ht, <- L. clear. induction (v_cells m) as [|ids cells IH]; [reflexivity|]. cbn [length repeat map combine mapM].
  change (fst (CIds ids, 9)) with (CIds ids). change (snd (CIds ids, 9)) with 9. cbn [ids_of_conn bind].
  assert (E : cell_edges rg 9 ids = Ok (faces2 ids)) by (unfold cell_edges; cbn; rewrite orb_true_r; reflexivity). rewrite E. cbn [bind]. rewrite IH. reflexivity.
Qed.
End Quadrilaterals.

Lemma quadrilaterals_geometry nonzero rg d nx ny : quadrilaterals nx ny (cast d) -> get_dimension d = Ok 2%Z -> 0 < nx * ny ->
  (rg = true -> forall ids u v, In ids (v_cells (cast d)) -> In (u, v) (ring_edges ids) -> nonzero [u; v] = true) ->
  exists g w, extract_cell_geometry nonzero rg d = Ok g /\ lists_once (incidences (map faces2 (v_cells (cast d)))) g /\ common_width w g.
Proof.
  intros Hm Hd Hn Hnz. set (faces := map faces2 (v_cells (cast d))).
  assert (Len : length faces = nx * ny) by (unfold faces; rewrite map_length; apply Hm).
  assert (Hids : forall ids, In ids (v_cells (cast d)) -> exists i j, i < nx /\ j < ny /\ ids = corners2 nx ny i j).
  { destruct Hm as (_ & L & H). intros ids Hin. apply In_nth_error in Hin as (c & Hc). assert (Hlt : c < nx * ny) by (rewrite <- L; apply nth_error_Some; congruence).
    destruct (rank2_onto _ _ _ Hlt) as (i & j & Hi & Hj & ->). exists i, j. cbv zeta in H. rewrite (H i j Hi Hj) in Hc. injection Hc as <-. auto. }
  assert (Hne : incidences faces <> []).
  { intros E. destruct (nth_error (v_cells (cast d)) 0) as [ids|] eqn:Ei; [|apply nth_error_None in Ei; destruct Hm as (_ & L & _); lia].
    destruct (Hids ids (nth_error_In _ _ Ei)) as (i & j & _ & _ & ->).
    assert (Q : In (0, [rank (S nx) (S ny) i j 0; rank (S nx) (S ny) (S i) j 0]) (incidences faces)).
    { apply incidences_In. exists (faces2 (corners2 nx ny i j)). split; [unfold faces; rewrite nth_error_map, Ei; reflexivity|]. now left. }
    rewrite E in Q. destruct Q. }
  destruct (get_polydata_def faces Hne) as (g & Eg). destruct (get_polydata_once _ _ Eg) as (Ho & w & Hw).
  assert (Nc : no_collapse nonzero rg faces).
  { intros Er f Hf. apply in_concat in Hf as (fs & Hfs & Hf). unfold faces in Hfs. apply in_map_iff in Hfs as (ids & <- & Hin).
    destruct (Hids ids Hin) as (i & j & _ & _ & ->). unfold faces2, corners2 in Hf. cbn [zip_pairs map2 roll1 app] in Hf.
    destruct Hf as [<-|[<-|[<-|[<-|[]]]]]; apply (Hnz Er _ _ _ Hin); unfold corners2; cbn; auto 10. }
  assert (Ex : extract_cell_geometry nonzero rg d = Ok g).
  { unfold extract_cell_geometry. rewrite Hd. cbn [bind]. unfold get_cell_connectivity.
    replace (existsb (Nat.eqb 42) (v_types (cast d))) with false.
    2:{ symmetry. destruct Hm as (Ht & _). rewrite Ht. clear. induction (nx * ny); [reflexivity|]. cbn. exact IHn. }
    cbn [bind]. change ((2 =? 1)%Z || (2 =? 2)%Z) with true. cbv iota.
    replace (forallb (fun t => existsb (Nat.eqb t) supported2d) (v_types (cast d))) with true.
    2:{ symmetry. destruct Hm as (Ht & _). rewrite Ht. clear. induction (nx * ny); [reflexivity|]. cbn. exact IHn. }
    cbn [negb]. rewrite (cell_edges2 nx ny _ Hm). cbn [bind]. fold faces. rewrite Eg. cbn [bind]. eapply drop_none; eauto. }
  exists g, w. auto.
Qed.

Lemma quadrilaterals_neighbors nonzero rg d nx ny : quadrilaterals nx ny (cast d) -> get_dimension d = Ok 2%Z -> 1 < nx * ny ->
  (rg = true -> forall ids u v, In ids (v_cells (cast d)) -> In (u, v) (ring_edges ids) -> nonzero [u; v] = true) ->
  (exists nb, get_neighborhood nonzero rg d = Ok nb /\ length nb = nx * ny /\
    forall i j, i < nx -> j < ny -> exists r, nth_error nb (rank nx ny i j 0) = Some r /\ NoDup r /\
      forall z, In z r <-> exists i' j', i' < nx /\ j' < ny /\ z = Z.of_nat (rank nx ny i' j' 0) /\ adjacent i j 0 i' j' 0) /\
  exists lines, (forall P (centers : list P), get_connectivity nonzero rg d [nx * ny; 3] centers = Ok (centers, lines)) /\ NoDup lines /\
    forall z, In z lines <-> exists i j i' j', i < nx /\ j < ny /\ i' < nx /\ j' < ny /\
      z = (Z.of_nat (rank nx ny i j 0), Z.of_nat (rank nx ny i' j' 0)) /\ rank nx ny i j 0 < rank nx ny i' j' 0 /\ adjacent i j 0 i' j' 0.
Proof.
  intros Hm Hd Hn Hnz. set (faces := map faces2 (v_cells (cast d))).
  assert (Len : length faces = nx * ny) by (unfold faces; rewrite map_length; apply Hm).
  destruct (quadrilaterals_geometry nonzero rg d _ _ Hm Hd ltac:(lia) Hnz) as (g & w & Ex & Ho & Hw). fold faces in Ho.
  assert (Dom : forall c x, has2 nx ny c x -> c < length faces).
  { intros c x (i & j & Hi & Hj & -> & _). rewrite Len. pose proof (rank_lt nx ny 1 i j 0 Hi Hj ltac:(lia)). lia. }
  destruct (keyed_neighbors faces (has2 nx ny) (set2 nx ny) (keyed2 nx ny _ Hm) Dom (set2_inj nx ny) (two2 nx ny) (one2 nx ny) g w Ho Hw) as (nb & En & Ln & H).
  { assert (P : 0 < nx /\ 0 < ny) by (destruct nx as [|a]; [cbn in Hn; lia|]; destruct ny as [|b]; [rewrite Nat.mul_0_r in Hn; lia|]; lia). destruct P as (P1 & P2).
    assert (Q : 1 < nx \/ 1 < ny) by (destruct (Nat.le_gt_cases nx 1); [|auto]; destruct (Nat.le_gt_cases ny 1); [|auto]; assert (nx = 1) by lia; assert (ny = 1) by lia; subst nx ny; cbn in Hn; lia).
    assert (Two : forall i j, i < nx -> j < ny -> adjacent 0 0 0 i j 0 -> exists a b x, a <> b /\ has2 nx ny a x /\ has2 nx ny b x).
    { intros i j Hi Hj Ha. apply adjacent_keys2 in Ha as (N & x & X1 & X2). exists (rank nx ny 0 0 0), (rank nx ny i j 0), x. split.
      - intros E. apply N. apply rank_inj in E as (<- & <- & _); auto.
      - split; [exists 0, 0; auto|exists i, j; auto]. }
    destruct Q as [Q|Q].
    - apply (Two 1 0); auto. unfold adjacent, step. lia.
    - apply (Two 0 1); auto. unfold adjacent, step. lia. }
  split.
  {
  exists nb. unfold get_neighborhood. rewrite Ex. cbn [bind].
  assert (El : length (v_types (cast d)) = length faces) by (rewrite Len; destruct Hm as (-> & _); apply repeat_length). rewrite El. split; [exact En|]. split; [lia|].
  intros i j Hi Hj. pose proof (rank_lt nx ny 1 i j 0 Hi Hj ltac:(lia)) as Hlt.
  destruct (nth_error nb (rank nx ny i j 0)) as [r|] eqn:Er; [|apply nth_error_None in Er; lia]. exists r. split; [reflexivity|].
  destruct (H _ _ Er) as (ND & Hin). split; [exact ND|]. intros z. rewrite (Hin z). split.
  - intros (c & -> & N & x & (i0 & j0 & Hi0 & Hj0 & E0 & X0) & (i' & j' & Hi' & Hj' & -> & X')).
    apply rank_inj in E0 as (<- & <- & _); auto. exists i', j'. do 2 (split; [assumption|]). split; [reflexivity|]. apply adjacent_keys2. split; [|eauto].
    intros [= <- <-]. congruence.
  - intros (i' & j' & Hi' & Hj' & -> & Ha). apply adjacent_keys2 in Ha as (N & x & X1 & X2). exists (rank nx ny i' j' 0). split; [reflexivity|]. split.
    + intros E. apply N. apply rank_inj in E as (<- & <- & _); auto.
    + exists x. split; [exists i, j; auto|exists i', j'; auto 10].
  }
  destruct (neighbor_loop_Ok _ _ _ En) as (_ & H2 & _). destruct (connectivity_lines_def _ H2) as (lines & El').
  destruct (keyed_lines faces (has2 nx ny) (set2 nx ny) (keyed2 nx ny _ Hm) Dom (set2_inj nx ny) (one2 nx ny) g lines Ho El') as (ND & Hl). exists lines. split; [|split; [exact ND|]].
  - intros P centers. unfold get_connectivity. assert (El : length (v_types (cast d)) = nx * ny) by (destruct Hm as (-> & _); apply repeat_length).
    rewrite El. replace (list_eqb [nx * ny; 3] [nx * ny; 3]) with true by (symmetry; now apply list_eqb_eq). cbn [negb]. rewrite Ex. cbn [bind]. rewrite El'. reflexivity.
  - intros z. rewrite (Hl z). split.
    + intros (a & b & -> & Lt & x & (i & j & Hi & Hj & -> & X) & (i' & j' & Hi' & Hj' & -> & X')). exists i, j, i', j'. do 4 (split; [assumption|]). split; [reflexivity|]. split; [exact Lt|].
      apply adjacent_keys2. split; [|eauto]. intros [= <- <-]. lia.
    + intros (i & j & i' & j' & Hi & Hj & Hi' & Hj' & -> & Lt & Ha). apply adjacent_keys2 in Ha as (N & x & X1 & X2). exists (rank nx ny i j 0), (rank nx ny i' j' 0). split; [reflexivity|]. split; [exact Lt|].
      exists x. split; [exists i, j; auto 10|exists i', j'; auto 10].
Qed.
