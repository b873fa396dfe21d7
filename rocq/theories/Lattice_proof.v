From Coq Require Import Permutation Sorted Lia.
From Verif Require Import Prelude Topo_model Volume_spec Topo_spec Topo_proof Topo2_proof Topo3_proof Topo4_proof Lattice_spec.
Open Scope nat_scope.

Lemma rank_inj w h i j k i' j' k' : i < w -> j < h -> i' < w -> j' < h -> rank w h i j k = rank w h i' j' k' -> i = i' /\ j = j' /\ k = k'.
Proof.
  intros Hi Hj Hi' Hj'. unfold rank. intros E.
  assert (i = i' /\ j + h * k = j' + h * k') as [-> E2].
  { assert (D := Nat.div_unique (i + w * (j + h * k)) w (j + h * k) i Hi ltac:(lia)).
    assert (D' := Nat.div_unique (i + w * (j + h * k)) w (j' + h * k') i' Hi' ltac:(lia)). split; nia. }
  assert (D := Nat.div_unique (j + h * k) h k j Hj ltac:(lia)). assert (D' := Nat.div_unique (j + h * k) h k' j' Hj' ltac:(lia)).
  split; [reflexivity|]. split; nia.
Qed.
Lemma rank_lt nx ny nz i j k : i < nx -> j < ny -> k < nz -> rank nx ny i j k < nx * ny * nz.
Proof.
  intros. unfold rank. assert (j + ny * k < ny * nz) by nia. assert (i + nx * (j + ny * k) < nx * (ny * nz)) by nia. lia.
Qed.
Lemma rank_onto nx ny nz c : c < nx * ny * nz -> exists i j k, i < nx /\ j < ny /\ k < nz /\ c = rank nx ny i j k.
Proof.
  intros Hc. assert (nx <> 0) by (intros ->; cbn in Hc; lia). assert (ny <> 0) by (intros ->; rewrite Nat.mul_0_r in Hc; cbn in Hc; lia).
  exists (c mod nx), ((c / nx) mod ny), (c / nx / ny). unfold rank.
  pose proof (Nat.mod_upper_bound c nx ltac:(lia)). pose proof (Nat.mod_upper_bound (c / nx) ny ltac:(lia)).
  pose proof (Nat.div_mod c nx ltac:(lia)) as E1. pose proof (Nat.div_mod (c / nx) ny ltac:(lia)) as E2.
  split; [assumption|]. split; [assumption|]. split.
  - apply Nat.div_lt_upper_bound; [lia|]. apply Nat.div_lt_upper_bound; [lia|]. nia.
  - rewrite Nat.add_comm, <- (Nat.add_comm (ny * _)), <- E2, Nat.add_comm. lia.
Qed.

(* ---- faces with keys ---- *)
Section Keyed.
Context {K : Type} (faces : list (list (list nat))) (has : nat -> K -> Prop) (set : K -> list nat).
Hypothesis G : forall c fs, nth_error faces c = Some fs -> exists ks, Forall2 (fun f k => same_set f (set k)) fs ks /\ NoDup ks /\ forall k, In k ks <-> has c k.
Hypothesis Hdom : forall c k, has c k -> c < length faces.
Hypothesis Hset : forall c c' k k', has c k -> has c' k' -> same_set (set k) (set k') -> k = k'.
Hypothesis Htwo : forall a b c k, has a k -> has b k -> has c k -> a = b \/ b = c \/ a = c.
Hypothesis Hone : forall a b k k', a <> b -> has a k -> has b k -> has a k' -> has b k' -> k = k'.

Lemma incid_pos i0 fcs p q i f h : nth_error (incid i0 fcs) p = Some (i, f) -> nth_error (incid i0 fcs) q = Some (i, h) ->
  p = q \/ exists k fs a b, i = i0 + k /\ nth_error fcs k = Some fs /\ nth_error fs a = Some f /\ nth_error fs b = Some h /\ a <> b.
Proof.
  revert i0 p q. induction fcs as [|fs fcs IH]; intros i0 p q Hp Hq; [destruct p; discriminate|].
  assert (E : incid i0 (fs :: fcs) = map (fun f => (i0, f)) fs ++ incid (S i0) fcs) by reflexivity. rewrite E in Hp, Hq.
  assert (S0 : forall r x, nth_error (map (fun f => (i0, f)) fs ++ incid (S i0) fcs) r = Some (i, x) ->
    (i = i0 /\ nth_error fs r = Some x) \/ (length fs <= r /\ S i0 <= i /\ nth_error (incid (S i0) fcs) (r - length fs) = Some (i, x))).
  { intros r x Hr. destruct (Nat.lt_ge_cases r (length fs)) as [L|L].
    - left. rewrite nth_error_app1 in Hr by (rewrite map_length; exact L). rewrite nth_error_map in Hr. destruct (nth_error fs r); [|discriminate]. now injection Hr as <- <-.
    - right. rewrite nth_error_app2 in Hr by (rewrite map_length; exact L). rewrite map_length in Hr. split; [exact L|]. split; [|exact Hr].
      apply nth_error_In, incid_In in Hr as (k & _ & -> & _). lia. }
  destruct (S0 _ _ Hp) as [[-> Ha]|(L1 & L2 & Ha)]; destruct (S0 _ _ Hq) as [[E' Hb]|(L1' & L2' & Hb)]; try lia.
  - destruct (Nat.eq_dec p q) as [->|N]; [now left|]. right. exists 0, fs, p, q. rewrite Nat.add_0_r. auto.
  - destruct (IH _ _ _ Ha Hb) as [D|(k & fs' & a & b & -> & Hk & Hx & Hy & N)]; [left; lia|]. right. exists (S k), fs', a, b. split; [lia|auto].
Qed.
Lemma keyed_pos p q i f h : nth_error (incidences faces) p = Some (i, f) -> nth_error (incidences faces) q = Some (i, h) -> same_set f h -> p = q.
Proof.
  intros Hp Hq Hs. change (incidences faces) with (incid 0 faces) in *. destruct (incid_pos _ _ _ _ _ _ _ Hp Hq) as [E|(k & fs & a & b & -> & Hk & Ha & Hb & N)]; [exact E|].
  exfalso. apply N. destruct (G _ _ Hk) as (ks & F & ND & Hks).
  destruct (Forall2_nth_error _ _ _ _ _ F Ha) as (ka & Hka & Sa). destruct (Forall2_nth_error _ _ _ _ _ F Hb) as (kb & Hkb & Sb).
  assert (ka = kb) as <-.
  { apply (Hset k k); [apply Hks; eapply nth_error_In, Hka|apply Hks; eapply nth_error_In, Hkb|]. intros x. rewrite <- (Sa x), <- (Sb x). apply Hs. }
  rewrite NoDup_nth_error in ND. apply ND; [apply nth_error_Some; congruence|congruence].
Qed.
Lemma keyed_key p i f : nth_error (incidences faces) p = Some (i, f) -> exists k, has i k /\ same_set f (set k).
Proof.
  intros Hp. apply nth_error_In, incidences_In in Hp as (fs & Hfs & Hf). destruct (G _ _ Hfs) as (ks & F & _ & Hks).
  apply In_nth_error in Hf as (a & Ha). destruct (Forall2_nth_error _ _ _ _ _ F Ha) as (k & Hk & S1). exists k. split; [apply Hks; eapply nth_error_In, Hk|exact S1].
Qed.
Lemma keyed_at i k : has i k -> exists p f, nth_error (incidences faces) p = Some (i, f) /\ same_set f (set k).
Proof.
  intros H. pose proof (Hdom _ _ H) as L. destruct (nth_error faces i) as [fs|] eqn:Ef; [|apply nth_error_None in Ef; lia].
  destruct (G _ _ Ef) as (ks & F & _ & Hks). apply Hks, In_nth_error in H as (a & Ha).
  assert (exists f, nth_error fs a = Some f /\ same_set f (set k)) as (f & Hf & S1).
  { clear - F Ha. revert a Ha. induction F as [|f k' fs ks S1 _ IH]; intros [|a] Ha; try discriminate; cbn in *; [injection Ha as <-; eauto|eauto]. }
  assert (Hin : In (i, f) (incidences faces)) by (apply incidences_In; exists fs; split; [exact Ef|eapply nth_error_In, Hf]).
  apply In_nth_error in Hin as (p & Hp). eauto.
Qed.
Lemma same_sym f h : same_set f h -> same_set h f.
Proof. intros H x. symmetry. apply H. Qed.
Lemma same_trans f h l : same_set f h -> same_set h l -> same_set f l.
Proof. intros H1 H2 x. rewrite (H1 x). apply H2. Qed.
Lemma keyed_both p q i j f h : nth_error (incidences faces) p = Some (i, f) -> nth_error (incidences faces) q = Some (j, h) -> same_set f h ->
  exists k, has i k /\ has j k /\ same_set f (set k).
Proof.
  intros Hp Hq Hs. destruct (keyed_key _ _ _ Hp) as (k & Hk & S1). destruct (keyed_key _ _ _ Hq) as (k' & Hk' & S2).
  assert (k = k') as <- by (apply (Hset i j); auto; eapply same_trans; [apply same_sym, S1|]; eapply same_trans; [exact Hs|exact S2]). eauto.
Qed.
Lemma keyed_share i j : share faces i j <-> i <> j /\ exists k, has i k /\ has j k.
Proof.
  split.
  - intros (p & q & f & h & N & Hp & Hq & Hs). destruct (keyed_both _ _ _ _ _ _ Hp Hq Hs) as (k & H1 & H2 & _). split; [|eauto].
    intros ->. apply N. eapply keyed_pos; eauto.
  - intros (N & k & Hi & Hj). destruct (keyed_at _ _ Hi) as (p & f & Hp & S1). destruct (keyed_at _ _ Hj) as (q & h & Hq & S2).
    exists p, q, f, h. split; [intros ->; rewrite Hp in Hq; congruence|]. split; [exact Hp|]. split; [exact Hq|]. eapply same_trans; [exact S1|apply same_sym, S2].
Qed.
Lemma keyed_used2 i j k : i <> j -> has i k -> has j k -> used 2 faces.
Proof.
  intros N Hi Hj. destruct (keyed_at _ _ Hi) as (p & f & Hp & S1). destruct (keyed_at _ _ Hj) as (q & h & Hq & S2).
  exists [p; q], (set k). split; [reflexivity|]. split.
  - constructor; [|constructor; [intros []|constructor]]. intros [->|[]]. rewrite Hp in Hq. congruence.
  - intros r [<-|[<-|[]]]; eauto.
Qed.
Lemma keyed_used3 : ~ used 3 faces.
Proof.
  intros (ps & f & L & ND & H). destruct ps as [|a [|b [|c [|d ps]]]]; try discriminate.
  destruct (H a ltac:(now left)) as (ia & fa & Ha & Sa). destruct (H b ltac:(right; now left)) as (ib & fb & Hb & Sb).
  destruct (H c ltac:(right; right; now left)) as (ic & fc & Hc & Sc).
  assert (Sab : same_set fa fb) by (eapply same_trans; [exact Sa|apply same_sym, Sb]). assert (Sbc : same_set fb fc) by (eapply same_trans; [exact Sb|apply same_sym, Sc]).
  destruct (keyed_both _ _ _ _ _ _ Ha Hb Sab) as (k & K1 & K2 & K3). destruct (keyed_both _ _ _ _ _ _ Hb Hc Sbc) as (k' & K1' & K2' & K3').
  assert (k = k') as <- by (apply (Hset ib ib); auto; eapply same_trans; [apply same_sym; eapply same_trans; [apply same_sym, Sab|exact K3]|exact K3']).
  inversion ND as [|? ? N1 ND']; subst. inversion ND' as [|? ? N2 _]; subst.
  destruct (Htwo ia ib ic k K1 K2 K2') as [E|[E|E]]; [subst ib|subst ic|subst ic].
  - apply N1. left. symmetry. exact (keyed_pos _ _ _ _ _ Ha Hb Sab).
  - apply N2. left. symmetry. exact (keyed_pos _ _ _ _ _ Hb Hc Sbc).
  - apply N1. right. left. symmetry. exact (keyed_pos _ _ _ _ _ Ha Hc (same_trans _ _ _ Sab Sbc)).
Qed.
Lemma keyed_multiplicity i j n : multiplicity faces i j n -> n <= 1.
Proof.
  intros (ps & ND & <- & H). destruct ps as [|a [|b ps]]; cbn; try lia. exfalso.
  destruct (proj1 (H a) ltac:(now left)) as (q & f & h & N1 & Ha & Hq & S1). destruct (proj1 (H b) ltac:(right; now left)) as (q' & f' & h' & N2 & Hb & Hq' & S2).
  destruct (keyed_both _ _ _ _ _ _ Ha Hq S1) as (k & K1 & K2 & K3). destruct (keyed_both _ _ _ _ _ _ Hb Hq' S2) as (k' & K1' & K2' & K3').
  assert (Hij : i <> j) by (intros ->; apply N1; eapply keyed_pos; eauto).
  assert (k = k') as <- by (apply (Hone i j); auto). inversion ND as [|? ? N3 _]; subst. apply N3. left. symmetry.
  eapply keyed_pos; [exact Ha|exact Hb|]. eapply same_trans; [exact K3|apply same_sym, K3'].
Qed.

Lemma keyed_neighbors g w : lists_once (incidences faces) g -> common_width w g -> (exists i j k, i <> j /\ has i k /\ has j k) ->
  exists nb, neighbor_loop (g_rows g) (repeat [] (length faces)) = Ok nb /\ length nb = length faces /\
    forall i r, nth_error nb i = Some r -> NoDup r /\ forall z, In z r <-> exists j, z = Z.of_nat j /\ i <> j /\ exists k, has i k /\ has j k.
Proof.
  intros Ho Hw (i0 & j0 & k0 & N0 & A0 & B0). destruct (proj2 (neighbors_iff faces g w Ho Hw)) as (nb & E).
  { split; [eapply keyed_used2; eauto|exact keyed_used3]. }
  exists nb. split; [exact E|]. destruct (neighbors_share _ _ _ Ho E) as (L & H & _). split; [exact L|]. intros i r Hr.
  assert (Hin : forall z, In z r <-> exists j, z = Z.of_nat j /\ i <> j /\ exists k, has i k /\ has j k).
  { intros z. rewrite (H i r Hr z). split; intros (j & -> & Hj); exists j; (split; [reflexivity|]); now apply keyed_share. }
  split; [|exact Hin]. apply (NoDup_count_occ Z.eq_dec). intros z. destruct (in_dec Z.eq_dec z r) as [I|I].
  - apply Hin in I as (j & -> & _). eapply keyed_multiplicity. eapply neighbors_count; eauto.
  - apply (count_occ_not_In Z.eq_dec) in I. lia.
Qed.

(* ---- lines between cells ---- *)
Lemma incid_order i0 fcs p q i j f h : nth_error (incid i0 fcs) p = Some (i, f) -> nth_error (incid i0 fcs) q = Some (j, h) -> p <= q -> i <= j.
Proof.
  revert i0 p q. induction fcs as [|fs fcs IH]; intros i0 p q Hp Hq L; [destruct p; discriminate|].
  assert (E : incid i0 (fs :: fcs) = map (fun f => (i0, f)) fs ++ incid (S i0) fcs) by reflexivity. rewrite E in Hp, Hq.
  destruct (Nat.lt_ge_cases q (length fs)) as [Lq|Lq].
  - rewrite nth_error_app1 in Hp, Hq by (rewrite map_length; lia). rewrite nth_error_map in Hp, Hq.
    destruct (nth_error fs p); [|discriminate]. destruct (nth_error fs q); [|discriminate]. injection Hp as <- _. injection Hq as <- _. lia.
  - rewrite nth_error_app2 in Hq by (rewrite map_length; lia). rewrite map_length in Hq.
    destruct (Nat.lt_ge_cases p (length fs)) as [Lp|Lp].
    + rewrite nth_error_app1 in Hp by (rewrite map_length; lia). rewrite nth_error_map in Hp. destruct (nth_error fs p); [|discriminate]. injection Hp as <- _.
      apply nth_error_In, incid_In in Hq as (k & _ & -> & _). lia.
    + rewrite nth_error_app2 in Hp by (rewrite map_length; lia). rewrite map_length in Hp. eapply IH; [exact Hp|exact Hq|lia].
Qed.
Lemma distinct_sorted (l : list (list nat)) : (forall a b f h, nth_error l a = Some f -> nth_error l b = Some h -> same_set f h -> a = b) ->
  StronglySorted (fun f h => ~ same_set f h) l.
Proof.
  induction l as [|f l IH]; intros H; constructor.
  - apply IH. intros a b x y Ha Hb Hs. specialize (H (S a) (S b) x y Ha Hb Hs). lia.
  - apply Forall_forall. intros h Hh Hs. apply In_nth_error in Hh as (b & Hb). specialize (H 0 (S b) f h eq_refl Hb Hs). lia.
Qed.
Lemma sorted_filter {A B} (R : A -> A -> Prop) (keep : A * B -> bool) l rows : StronglySorted R l -> StronglySorted R (map fst (filter keep (combine l rows))).
Proof.
  intros H. revert rows. induction H as [|x l Hs IH Hx]; intros [|r rows]; cbn [combine filter map]; try constructor. destruct (keep (x, r)); [|apply IH].
  cbn [map]. constructor; [apply IH|]. apply Forall_forall. intros y Hy. apply in_map_iff in Hy as ([y' r'] & <- & Hy). apply filter_In in Hy as [Hy _]. apply in_combine_l in Hy.
  rewrite Forall_forall in Hx. now apply Hx.
Qed.
Lemma keyed_lines g lines : lists_once (incidences faces) g -> connectivity_lines (g_rows g) = Ok lines ->
  NoDup lines /\ forall z, In z lines <-> exists i j, z = (Z.of_nat i, Z.of_nat j) /\ i < j /\ exists k, has i k /\ has j k.
Proof.
  intros Ho E. pose proof (connectivity_pairs _ _ _ Ho E) as F. pose proof (proj1 (connectivity_lines_Ok _ _ E)) as H2. unfold shared_pairs in F.
  assert (SF : StronglySorted (fun f h => ~ same_set f h) (map fst (filter (fun fr => negb (existsb (Z.eqb (-1)) (snd fr))) (combine (g_faces g) (g_rows g))))).
  { apply sorted_filter, distinct_sorted. intros a b x y Ha Hb Hs. eapply once_distinct; eauto. }
  assert (Key : forall f l p q i j f1 f2, p < q -> l = (Z.of_nat i, Z.of_nat j) -> nth_error (incidences faces) p = Some (i, f1) ->
    nth_error (incidences faces) q = Some (j, f2) -> same_set f1 f -> same_set f2 f -> i < j /\ exists k, has i k /\ has j k /\ same_set f (set k)).
  { intros f l p q i j f1 f2 L _ Hp Hq S1 S2. assert (S12 : same_set f1 f2) by (eapply same_trans; [exact S1|apply same_sym, S2]).
    pose proof (incid_order 0 faces p q i j f1 f2 Hp Hq ltac:(lia)). destruct (keyed_both _ _ _ _ _ _ Hp Hq S12) as (k & K1 & K2 & K3).
    split; [|exists k; split; [exact K1|]; split; [exact K2|]; eapply same_trans; [apply same_sym, S1|exact K3]].
    destruct (Nat.eq_dec i j) as [Eij|]; [|lia]. subst j. pose proof (keyed_pos _ _ _ _ _ Hp Hq S12). lia. }
  split.
  - clear E. revert SF F. generalize (map fst (filter (fun fr => negb (existsb (Z.eqb (-1)) (snd fr))) (combine (g_faces g) (g_rows g)))) as fs. intros fs SF F.
    induction F as [|f l fs lines' (p & q & i & j & f1 & f2 & L & El & Hp & Hq & S1 & S2 & _) F IH]; [constructor|].
    apply StronglySorted_inv in SF as [SF Hf]. constructor; [|apply IH, SF]. clear IH. intros Hin. apply In_nth_error in Hin as (n & Hn).
    assert (exists f', nth_error fs n = Some f' /\ exists p q i j f1 f2, p < q /\ l = (Z.of_nat i, Z.of_nat j) /\ nth_error (incidences faces) p = Some (i, f1) /\
      nth_error (incidences faces) q = Some (j, f2) /\ same_set f1 f' /\ same_set f2 f') as (f' & Hf' & p' & q' & i' & j' & f1' & f2' & L' & El' & Hp' & Hq' & S1' & S2').
    { clear - F Hn. revert n Hn. induction F as [|f0 l0 fs lines' (p & q & i & j & f1 & f2 & L & El & Hp & Hq & S1 & S2 & _) F IH]; intros [|n] Hn; try discriminate; cbn in *.
      - injection Hn as ->. exists f0. split; [reflexivity|]. exists p, q, i, j, f1, f2. auto 10.
      - eauto. }
    rewrite El in El'. injection El' as Ei Ej. apply Nat2Z.inj in Ei, Ej. subst i' j'.
    destruct (Key f l p q i j f1 f2 L El Hp Hq S1 S2) as (Lij & k & K1 & K2 & K3). destruct (Key f' l p' q' i j f1' f2' L' El Hp' Hq' S1' S2') as (_ & k' & K1' & K2' & K3').
    assert (k = k') as <- by (apply (Hone i j); auto; lia). rewrite Forall_forall in Hf. apply (Hf f' (nth_error_In _ _ Hf')). eapply same_trans; [exact K3|apply same_sym, K3'].
  - intros z. split.
    + intros Hz. apply In_nth_error in Hz as (n & Hn).
      assert (exists f, exists p q i j f1 f2, p < q /\ z = (Z.of_nat i, Z.of_nat j) /\ nth_error (incidences faces) p = Some (i, f1) /\
        nth_error (incidences faces) q = Some (j, f2) /\ same_set f1 f /\ same_set f2 f) as (f & p & q & i & j & f1 & f2 & L & El & Hp & Hq & S1 & S2).
      { clear - F Hn. revert n Hn. induction F as [|f0 l0 fs lines' (p & q & i & j & f1 & f2 & L & El & Hp & Hq & S1 & S2 & _) F IH]; intros [|n] Hn; try discriminate; cbn in *.
        - injection Hn as ->. exists f0, p, q, i, j, f1, f2. auto 10.
        - eauto. }
      destruct (Key f z p q i j f1 f2 L El Hp Hq S1 S2) as (Lij & k & K1 & K2 & _). exists i, j. split; [exact El|]. split; [exact Lij|]. eauto.
    + intros (i & j & -> & Lij & k & Hi & Hj). destruct (keyed_at _ _ Hi) as (p & f & Hp & S1). destruct (keyed_at _ _ Hj) as (q & h & Hq & S2).
      assert (Lpq : p < q). { destruct (Nat.lt_ge_cases p q) as [L|L]; [exact L|]. pose proof (incid_order 0 faces q p j i h f Hq Hp L). lia. }
      destruct (once_find _ _ _ _ _ Ho Hp) as (n & h0 & row & Hn1 & Hn2 & S0).
      assert (Sh : same_set h h0) by (eapply same_trans; [exact S2|]; eapply same_trans; [apply same_sym, S1|exact S0]).
      assert (Hlen : length row = 2) by (apply H2; eapply nth_error_In, Hn2).
      assert (Hfull : existsb (Z.eqb (-1)) row = false).
      { destruct (once_row _ _ _ _ Ho Hn2) as (f' & ps & sel & m & Ef & Erow & Hsel & Hsort & F' & Hiff). assert (f' = h0) as -> by congruence.
        pose proof (proj1 (Hiff _ _ Hp) S0) as I1. pose proof (proj1 (Hiff _ _ Hq) Sh) as I2.
        destruct row as [|a [|b [|c row]]]; try discriminate. destruct (row2_split _ _ _ _ Erow Hsel) as [(o & -> & ->)|(o1 & o2 & -> & -> & ->)].
        - inversion F' as [|p1 ? ps' ? Hp1 F'']; subst. inversion F''; subst. destruct I1 as [<-|[]], I2 as [<-|[]]. lia.
        - cbn [existsb]. destruct (Z.eqb_spec (-1) (Z.of_nat (fst o1))); [lia|]. destruct (Z.eqb_spec (-1) (Z.of_nat (fst o2))); [lia|]. reflexivity. }
      assert (HinF : In h0 (map fst (filter (fun fr => negb (existsb (Z.eqb (-1)) (snd fr))) (combine (g_faces g) (g_rows g))))).
      { apply in_map_iff. exists (h0, row). split; [reflexivity|]. apply filter_In. split; [|cbn [snd]; now rewrite Hfull].
        clear - Hn1 Hn2. revert n Hn1 Hn2. generalize (g_rows g) as rows. induction (g_faces g) as [|x l IH]; intros [|r rows] [|n] H1 H2; try discriminate; cbn in *.
        - injection H1 as ->. injection H2 as ->. now left.
        - right. eapply IH; eauto. }
      apply In_nth_error in HinF as (n' & Hn'). destruct (Forall2_nth_error _ _ _ _ _ F Hn') as (l & Hl & p' & q' & i' & j' & f1 & f2 & L' & El & Hp' & Hq' & _ & _ & U).
      destruct (U _ _ _ Hp S0) as [E1|E1]; destruct (U _ _ _ Hq Sh) as [E2|E2]; subst; try lia.
      rewrite Hp in Hp'. rewrite Hq in Hq'. injection Hp' as <- _. injection Hq' as <- _. eapply nth_error_In, Hl.
Qed.
End Keyed.
