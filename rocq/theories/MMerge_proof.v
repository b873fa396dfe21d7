From Verif Require Import RealAux Surface_model Volume_model Volume_spec SMerge_model SMerge_proof
  Groups_model Groups_spec Groups_proof Groups2_proof Stack_model Stack_spec Stack_proof Stack4_proof
  Lines_spec Final_model Final_spec Final1_proof Unstr_model Unstr_spec Unstr1_proof Unstr2_proof MMerge_model MMerge_spec.
From Coq Require Import Lra Permutation.
Open Scope nat_scope.

Section Gather.
Context {D : Type}.
Notation uvol := (uvol D).

Definition full (b : uvol) : Prop := length (uv_ghost b) = length (uv_types b).
Definition bare (b : uvol) : Prop := uv_types b <> [] /\ uv_ghost b = [].
(* g holds the cells [place] of the meshes blks; [s] are the meshes merged so far *)
Definition gathered (blks s : list uvol) (place : list (nat * nat)) (g : uvol) : Prop :=
  (exists cells, cells_of g cells /\ length cells = length place /\
    forall i j c, nth_error place i = Some (j, c) -> exists b cs cell f,
      nth_error blks j = Some b /\ cells_of b cs /\ nth_error cs c = Some cell /\ nth_error cells i = Some (rename f cell) /\
      forall v p, In v (vcell_ids cell) -> nth_error (uv_pts b) v = Some p -> nth_error (uv_pts g) (f v) = Some p) /\
  NoDup (map fst (uv_cd g)) /\
  (forall k, In k (map fst (uv_cd g)) <-> forall b, In b s -> In k (map fst (uv_cd b))) /\
  (forall k x, In (k, x) (uv_cd g) -> length x = length place /\
    forall i j c, nth_error place i = Some (j, c) -> exists b v,
      nth_error blks j = Some b /\ In (k, v) (uv_cd b) /\ nth_error x i = nth_error v c) /\
  ((forall b, In b s -> full b) -> length (uv_ghost g) = length place /\
    forall i j c, nth_error place i = Some (j, c) -> exists b, nth_error blks j = Some b /\ nth_error (uv_ghost g) i = nth_error (uv_ghost b) c) /\
  ((exists b, In b s /\ bare b) -> bare g).

Lemma place_split (p1 p2 : list (nat * nat)) i j c : nth_error (p1 ++ p2) i = Some (j, c) ->
  i < length p1 /\ nth_error p1 i = Some (j, c) \/ length p1 <= i /\ nth_error p2 (i - length p1) = Some (j, c).
Proof.
  intros H. destruct (Nat.lt_ge_cases i (length p1)) as [L|L]; [left; rewrite nth_error_app1 in H by auto|right; rewrite nth_error_app2 in H by auto]; auto.
Qed.

Lemma join blks s1 s2 p1 p2 x y g : gathered blks s1 p1 x -> gathered blks s2 p2 y -> appended [x; y] g ->
  gathered blks (s1 ++ s2) (p1 ++ p2) g.
Proof.
  intros ((c1 & C1 & L1 & P1) & N1 & K1 & A1 & F1 & B1) ((c2 & C2 & L2 & P2) & N2 & K2 & A2 & F2 & B2) (HC & HN & HK & HA & HF & HB).
  destruct (HC [c1; c2]) as (f & Hc & Hf); [repeat constructor; auto|]. cbn [stacked flat_map] in Hc, Hf.
  rewrite !app_nil_r in Hc, Hf. rewrite !map_app, !map_map in Hc.
  assert (T1 : length (uv_types x) = length p1) by (rewrite <- L1; symmetry; exact (decode_length _ _ _ C1)).
  assert (T2 : length (uv_types y) = length p2) by (rewrite <- L2; symmetry; exact (decode_length _ _ _ C2)).
  split.
  { eexists. split; [exact Hc|]. split; [rewrite !app_length, !map_length; lia|].
    intros i j c Hi. apply place_split in Hi as [[Hl Hi]|[Hl Hi]].
    - destruct (P1 i j c Hi) as (b & cs & cell & h & Hb & Hcs & Hcell & Hi' & Hp).
      exists b, cs, cell, (fun v => f (0 + h v)). split; [auto|]. split; [auto|]. split; [auto|].
      split; [rewrite nth_error_app1 by (rewrite map_length; lia); rewrite nth_error_map, Hi'; cbn [option_map]; now rewrite !rename_rename|].
      intros v p Hv Hvp. specialize (Hp v p Hv Hvp). apply Hf.
      + rewrite flat_map_app. apply in_or_app. left. apply in_flat_map. exists (rename (fun i => 0 + i) (rename h cell)).
        split; [apply in_map; eapply nth_error_In; eauto|]. rewrite rename_rename. apply (rename_In (fun v => 0 + h v)). auto.
      + cbn [Nat.add]. rewrite nth_error_app1; [auto|]. apply nth_error_Some. congruence.
    - destruct (P2 _ j c Hi) as (b & cs & cell & h & Hb & Hcs & Hcell & Hi' & Hp).
      exists b, cs, cell, (fun v => f (0 + length (uv_pts x) + h v)). split; [auto|]. split; [auto|]. split; [auto|].
      split; [rewrite nth_error_app2 by (rewrite map_length; lia); rewrite map_length, L1, nth_error_map, Hi'; cbn [option_map]; now rewrite !rename_rename|].
      intros v p Hv Hvp. specialize (Hp v p Hv Hvp). apply Hf.
      + rewrite flat_map_app. apply in_or_app. right. apply in_flat_map. exists (rename (fun i => 0 + length (uv_pts x) + i) (rename h cell)).
        split; [apply in_map; eapply nth_error_In; eauto|]. rewrite rename_rename. apply (rename_In (fun v => 0 + length (uv_pts x) + h v)). auto.
      + rewrite app_nil_r. cbn [Nat.add]. rewrite nth_error_app2 by lia. replace (length (uv_pts x) + h v - length (uv_pts x)) with (h v) by lia. auto. }
  split; [auto|]. split.
  { intros k. rewrite HK. split.
    - intros H b Hb. apply in_app_or in Hb as [Hb|Hb]; [apply (K1 k); [apply H; cbn; auto|auto]|apply (K2 k); [apply H; cbn; auto|auto]].
    - intros H b [ <- | [ <- | [] ] ]; [apply K1|apply K2]; intros b Hb; apply H; apply in_or_app; auto. }
  split.
  { intros k z Hz. destruct (HA k z Hz) as (xs & Hxs & ->). inversion Hxs as [|? v1 ? ? H1 Hxs']; subst. inversion Hxs' as [|? v2 ? ? H2 Hxs'']; subst.
    inversion Hxs''; subst. cbn [concat]. rewrite app_nil_r. destruct (A1 k v1 H1) as [E1 Q1]. destruct (A2 k v2 H2) as [E2 Q2].
    split; [rewrite !app_length; lia|]. intros i j c Hi. apply place_split in Hi as [[Hl Hi]|[Hl Hi]].
    - rewrite nth_error_app1 by lia. auto.
    - rewrite nth_error_app2 by lia. rewrite E1. auto. }
  split.
  { intros Hfull. destruct F1 as [E1 Q1]; [intros; apply Hfull, in_or_app; auto|].
    destruct F2 as [E2 Q2]; [intros; apply Hfull, in_or_app; auto|]. rewrite HF.
    2:{ intros b [ <- | [ <- | [] ] ]; congruence. }
    cbn [flat_map]. rewrite app_nil_r. split; [rewrite !app_length; lia|].
    intros i j c Hi. apply place_split in Hi as [[Hl Hi]|[Hl Hi]].
    - rewrite nth_error_app1 by lia. auto.
    - rewrite nth_error_app2 by lia. rewrite E1. auto. }
  intros (b & Hb & Hbare). split.
  { intros E. pose proof (decode_length _ _ _ Hc) as Lg. rewrite E in Lg. rewrite app_length, !map_length in Lg. cbn in Lg.
    apply in_app_or in Hb as [Hb|Hb]; [destruct B1 as [HT _]|destruct B2 as [HT _]]; eauto;
      apply HT; apply length_zero_iff_nil; lia. }
  apply HB. apply in_app_or in Hb as [Hb|Hb]; [exists x; split; [cbn; auto|]; apply B1|exists y; split; [cbn; auto|]; apply B2]; eauto.
Qed.

Lemma gathered_more blks more s p g : gathered blks s p g -> gathered (blks ++ more) s p g.
Proof.
  assert (E : forall j b, nth_error blks j = Some b -> nth_error (blks ++ more) j = Some b).
  { intros j b H. rewrite nth_error_app1; [auto|]. apply nth_error_Some. congruence. }
  intros ((c1 & C1 & L1 & P1) & N1 & K1 & A1 & F1 & B1). split; [exists c1; split; [auto|]; split; [auto|]|].
  { intros i j c Hi. destruct (P1 i j c Hi) as (b & cs & cell & f & Hb & H). exists b, cs, cell, f. auto. }
  split; [auto|]. split; [auto|]. split.
  { intros k x Hx. destruct (A1 k x Hx) as [E1 Q1]. split; [auto|]. intros i j c Hi. destruct (Q1 i j c Hi) as (b & v & Hb & H). exists b, v. auto. }
  split; [|auto]. intros H. destruct (F1 H) as [E1 Q1]. split; [auto|]. intros i j c Hi. destruct (Q1 i j c Hi) as (b & Hb & H'). exists b. auto.
Qed.

Definition own (j n : nat) : list (nat * nat) := map (pair j) (seq 0 n).
Lemma own_at j n i a c : nth_error (own j n) i = Some (a, c) -> a = j /\ c = i /\ i < n.
Proof.
  unfold own. rewrite nth_error_map. destruct (nth_error (seq 0 n) i) as [x|] eqn:E; [|discriminate]. cbn. intros [= <- <-].
  assert (L : i < n) by (rewrite <- (seq_length n 0); apply nth_error_Some; congruence).
  rewrite (nth_error_nth' _ 0) in E by (rewrite seq_length; auto). injection E as <-. rewrite seq_nth by auto. auto.
Qed.
Lemma own_length j n : length (own j n) = n.
Proof. unfold own. now rewrite map_length, seq_length. Qed.
Lemma own_In j n a c : In (a, c) (own j n) <-> a = j /\ c < n.
Proof.
  unfold own. rewrite in_map_iff. split.
  - intros (x & [= <- <-] & Hx). apply in_seq in Hx. split; [auto|lia].
  - intros [-> H]. exists c. split; [auto|]. apply in_seq. lia.
Qed.
Lemma own_NoDup j n : NoDup (own j n).
Proof. apply FinFun.Injective_map_NoDup; [intros x y [= ->]; auto|apply seq_NoDup]. Qed.

Lemma single blks j b cs : nth_error blks j = Some b -> cells_of b cs -> NoDup (map fst (uv_cd b)) ->
  (forall k v, In (k, v) (uv_cd b) -> length v = length (uv_types b)) ->
  gathered blks [b] (own j (length (uv_types b))) b.
Proof.
  intros Hb Hc HN HA. pose proof (decode_length _ _ _ Hc) as Lc. split.
  { exists cs. split; [auto|]. rewrite own_length. split; [auto|]. intros i a c Hi. apply own_at in Hi as (-> & -> & Hi).
    destruct (nth_error cs i) as [cell|] eqn:E; [|apply nth_error_None in E; lia].
    exists b, cs, cell, (fun v => v). do 2 (split; [auto|]). split; [exact E|]. split; [|auto]. f_equal. symmetry. exact (rename_id cell). }
  split; [auto|]. split.
  { intros k. split; [intros H x [ <- | [] ]; auto|intros H; apply H; cbn; auto]. }
  split.
  { intros k x Hx. rewrite own_length. split; [eauto|]. intros i a c Hi. apply own_at in Hi as (-> & -> & _). eauto. }
  split; [|intros (x & [ <- | [] ] & H); auto].
  intros H. rewrite own_length. split; [apply H; cbn; auto|]. intros i a c Hi. apply own_at in Hi as (-> & -> & _). eauto.
Qed.

Lemma two_orders (pvmerge : list uvol -> res uvol) x y g : appends pvmerge -> pvmerge [x; y] = Ok g ->
  appended [x; y] g \/ appended [y; x] g.
Proof.
  intros HA H. destruct (HA _ _ H) as (order & bs & Hp & Hk & Happ). cbn [length seq] in Hp.
  apply Permutation_sym in Hp. apply Permutation_length_2_inv in Hp as [->| ->].
  - left. inversion Hk as [|? ? ? ? E1 Hk']; subst. inversion Hk' as [|? ? ? ? E2 Hk'']; subst. inversion Hk''; subst.
    injection E1 as <-. injection E2 as <-. auto.
  - right. inversion Hk as [|? ? ? ? E1 Hk']; subst. inversion Hk' as [|? ? ? ? E2 Hk'']; subst. inversion Hk''; subst.
    injection E1 as <-. injection E2 as <-. auto.
Qed.
End Gather.

Section Loop.
Context {D : Type} (num : Z -> D) (int : D -> Z) (Hint : forall z, int (num z) = z) (o : options).
Context (pvmerge : list (uvol D) -> res (uvol D)) (Hmerge : appends pvmerge).

Definition block_of (groups : dict) (it : mitem D) (b : uvol D) : Prop :=
  wf_mesh (fst it) /\ exists arr, b = with_groups num arr (mm_vol (fst it)) /\
    length arr = length (uv_types (mm_vol (fst it))) /\
    forall c, c < length (uv_types (mm_vol (fst it))) -> exists k, named groups arr c k /\
      base_name (had_groups int (fst it)) (ignore_groups o) (the_default o (snd it)) c k.

Definition covers (blks : list (uvol D)) (place : list (nat * nat)) : Prop :=
  NoDup place /\ forall j c, In (j, c) place <-> exists b, nth_error blks j = Some b /\ c < length (uv_types b).

Definition progress (done : list (mitem D)) (acc : option (uvol D)) (groups : dict) : Prop :=
  numbered groups /\ exists blks, Forall2 (block_of groups) done blks /\
    match acc with
    | None => done = []
    | Some g => exists s place, gathered blks s place g /\ (forall b, In b s <-> In b blks) /\ covers blks place
    end.

Lemma block_of_ext groups groups' it b : extends groups groups' -> block_of groups it b -> block_of groups' it b.
Proof.
  intros He (W & arr & Hb & Hl & Hk). split; [auto|]. exists arr. split; [auto|]. split; [auto|]. intros c Hc.
  destruct (Hk c Hc) as (k & H & H'). exists k. split; [eapply named_ext; eauto|auto].
Qed.

Lemma group_view_had (m : mmesh D) : labelled (group_view int m) = had_groups int m.
Proof. unfold labelled, group_view, had_groups. change (@entry_of) with (@lookup). cbn [gm_cg gm_labels]. destruct (lookup _ _), (mm_labels m); reflexivity. Qed.
Lemma group_view_aligned (m : mmesh D) : wf_mesh m -> aligned (group_view int m).
Proof.
  intros (_ & _ & H). unfold aligned, group_view. cbn [gm_cg gm_cells]. destruct (lookup _ _) as [v|] eqn:E; cbn [option_map]; [|auto].
  rewrite map_length, seq_length. eapply H, lookup_In; eauto.
Qed.

Lemma with_groups_wf (m : mmesh D) arr : wf_mesh m -> length arr = length (uv_types (mm_vol m)) ->
  (exists cells, cells_of (with_groups num arr (mm_vol m)) cells) /\ NoDup (map fst (uv_cd (with_groups num arr (mm_vol m)))) /\
  forall k v, In (k, v) (uv_cd (with_groups num arr (mm_vol m))) -> length v = length (uv_types (mm_vol m)).
Proof.
  intros (Hc & HN & HA) Hl. split; [exact Hc|]. cbn [with_groups uv_cd]. split; [apply aput_NoDup; auto|].
  intros k v. apply (aput_all "CellGroup"%string (map num arr) _ (fun v => length v = length (uv_types (mm_vol m)))); [now rewrite map_length|auto].
Qed.

Lemma covers_app blks b p1 p2 : covers blks p1 -> p2 = own (length blks) (length (uv_types b)) ->
  covers (blks ++ [b]) (p1 ++ p2) /\ covers (blks ++ [b]) (p2 ++ p1).
Proof.
  intros [N H] ->. set (p2 := own _ _).
  assert (E : forall j c, In (j, c) p1 \/ In (j, c) p2 <-> exists b', nth_error (blks ++ [b]) j = Some b' /\ c < length (uv_types b')).
  { intros j c. unfold p2. rewrite H, own_In. split.
    - intros [(b' & Hb & Hc)|[-> Hc]]; [exists b'; split; [|auto]; rewrite nth_error_app1; [auto|]; apply nth_error_Some; congruence|].
      exists b. rewrite nth_error_app2, Nat.sub_diag by lia. auto.
    - intros (b' & Hb & Hc). destruct (Nat.lt_ge_cases j (length blks)) as [L|L]; [left; rewrite nth_error_app1 in Hb by auto; eauto|right].
      rewrite nth_error_app2 in Hb by auto. destruct (j - length blks) as [|n] eqn:En; [injection Hb as ->; split; [lia|auto]|destruct n; discriminate]. }
  assert (Nd : NoDup (p1 ++ p2)).
  { apply UVol_proof.NoDup_app_intro; [auto|apply own_NoDup|]. intros [j c] H1 H2. apply H in H1 as (b' & Hb & _). apply own_In in H2 as [-> _].
    assert (length blks < length blks) by (apply nth_error_Some; congruence). lia. }
  split; split; auto; [|apply (Permutation_NoDup (l := p1 ++ p2)); [apply Permutation_app_comm|auto]|];
    intros j c; rewrite in_app_iff, <- E; tauto.
Qed.

Lemma loop_progress items : forall done acc groups r groups',
  Forall (fun it => wf_mesh (fst it)) items -> progress done acc groups ->
  merge_meshes num int o pvmerge items acc groups = Ok (r, groups') -> progress (done ++ items) r groups'.
Proof.
  induction items as [|[mesh d] items IH]; intros done acc groups r groups' HW HP; cbn [merge_meshes].
  { intros [= <- <-]. now rewrite app_nil_r. }
  inversion HW as [|? ? W HW']; subst. cbn [fst] in W. destruct HP as (Hn & blks & HF & HG).
  destruct (base_groups_kept o (group_view int mesh) groups d Hn (group_view_aligned _ W)) as (arr & g1 & E & Hl & Hk).
  rewrite E. cbn [bind]. destruct (groups_extend _ _ _ _ _ _ _ Hn (group_view_aligned _ W) E) as [Hn1 He1].
  rewrite group_view_had in Hk. cbn [group_view gm_cells] in Hl, Hk. rewrite seq_length in Hl, Hk.
  set (b := with_groups num arr (mm_vol mesh)).
  assert (HB : block_of g1 (mesh, d) b) by (split; [auto|]; exists arr; auto).
  destruct (with_groups_wf mesh arr W Hl) as ((cs & Hcs) & HN & HA). fold b in Hcs, HN, HA.
  assert (HS : gathered (blks ++ [b]) [b] (own (length blks) (length (uv_types b))) b).
  { apply (single _ _ _ cs); auto. rewrite nth_error_app2, Nat.sub_diag by lia. reflexivity. }
  assert (HF' : Forall2 (block_of g1) (done ++ [(mesh, d)]) (blks ++ [b])).
  { apply Forall2_app; [|constructor; auto]. clear -HF He1. induction HF; constructor; eauto using block_of_ext. }
  replace (done ++ (mesh, d) :: items) with ((done ++ [(mesh, d)]) ++ items) by now rewrite <- app_assoc.
  destruct acc as [a|].
  - destruct HG as (s & place & HG & Hs & Hcov). apply (gathered_more _ [b]) in HG.
    destruct (covers_app blks b place _ Hcov eq_refl) as [Cv1 Cv2].
    destruct (pvmerge [a; b]) as [g|] eqn:Eg; [|discriminate]. cbn [bind]. apply IH; [auto|].
    split; [auto|]. exists (blks ++ [b]). split; [auto|].
    destruct (two_orders _ _ _ _ Hmerge Eg) as [Happ|Happ].
    + exists (s ++ [b]), (place ++ own (length blks) (length (uv_types b))). split; [eapply join; eauto|]. split; [|auto].
      intros x. rewrite !in_app_iff, Hs. tauto.
    + exists ([b] ++ s), (own (length blks) (length (uv_types b)) ++ place). split; [eapply join; eauto|]. split; [|auto].
      intros x. rewrite !in_app_iff, Hs. tauto.
  - cbn [bind]. apply IH; [auto|]. subst done. inversion HF; subst. split; [auto|]. exists [b]. split; [auto|].
    exists [b], (own 0 (length (uv_types b))). split; [exact HS|]. split; [reflexivity|].
    destruct (covers_app [] b [] _ ltac:(split; [constructor|intros j c; split; [intros []|intros (x & Hx & _); destruct j; discriminate]]) eq_refl) as [C _].
    exact C.
Qed.

Lemma loop_defined items : forall acc groups, (forall x y, exists g, pvmerge [x; y] = Ok g) ->
  Forall (fun it => wf_mesh (fst it)) items -> numbered groups ->
  exists r groups', merge_meshes num int o pvmerge items acc groups = Ok (r, groups').
Proof.
  induction items as [|[mesh d] items IH]; intros acc groups HT HW Hn; cbn [merge_meshes]; [eauto|].
  inversion HW as [|? ? W HW']; subst. cbn [fst] in W.
  destruct (base_groups_kept o (group_view int mesh) groups d Hn (group_view_aligned _ W)) as (arr & g1 & E & _).
  rewrite E. cbn [bind]. destruct (groups_extend _ _ _ _ _ _ _ Hn (group_view_aligned _ W) E) as [Hn1 _].
  destruct acc as [a|].
  - destruct (HT a (with_groups num arr (mm_vol mesh))) as [g ->]. cbn [bind]. auto.
  - cbn [bind]. auto.
Qed.
Lemma loop_some items : forall acc groups r groups', merge_meshes num int o pvmerge items acc groups = Ok (r, groups') ->
  (r = None <-> acc = None /\ items = []).
Proof.
  induction items as [|[mesh d] items IH]; intros acc groups r groups'; cbn [merge_meshes]; [intros [= <- <-]; tauto|].
  destruct (initialize_group_array _ _ _ _ _) as [[arr g1]|] eqn:E; [|discriminate]. cbn [bind].
  destruct (match acc with Some _ => _ | None => _ end) as [g|]; [|discriminate]. cbn [bind]. intros H. apply IH in H.
  rewrite H. split; intros [? ?]; discriminate.
Qed.

Context (tol : R) (clean : uvol D -> uvol D) (Hclean : cleans tol clean).
Context (items : list (mitem D)) (HW : Forall (fun it => wf_mesh (fst it)) items).

Lemma finished g0 groups : progress items (Some g0) groups ->
  exists g labels place, finish_unstructured num int clean g0 groups = Ok (g, labels) /\
  merged_from items place /\ cells_kept items tol place g /\ names_kept items int o place g labels /\
  arrays_kept items place g /\ (Forall (fun it => flagged (fst it)) items -> flags_kept items place g) /\
  ((exists it, In it items /\ uv_types (mm_vol (fst it)) <> [] /\ uv_ghost (mm_vol (fst it)) = []) -> uv_ghost g = []).
Proof.
  intros (Hn & blks & HF & s & place & ((cells & Hc & Lc & HP) & HN & HK & HA & HFull & HBare) & Hs & HCN & HCov).
  assert (HB1 : forall j b, nth_error blks j = Some b -> exists it, nth_error items j = Some it /\ block_of groups it b).
  { clear -HF. induction HF as [|it b items blks H HF IH]; intros [|j] x; cbn [nth_error]; try discriminate; [intros [= <-]; eauto|auto]. }
  assert (HB2 : forall j it, nth_error items j = Some it -> exists b, nth_error blks j = Some b /\ block_of groups it b).
  { clear -HF. induction HF as [|it b items blks H HF IH]; intros [|j] x; cbn [nth_error]; try discriminate; [intros [= <-]; eauto|auto]. }
  assert (Hin1 : forall b, In b s -> exists it, In it items /\ block_of groups it b).
  { intros b Hb. apply Hs, In_nth_error in Hb as [j Hj]. destruct (HB1 j b Hj) as (it & Hit & H). exists it. split; [eapply nth_error_In; eauto|auto]. }
  assert (Hin2 : forall it, In it items -> exists b, In b s /\ block_of groups it b).
  { intros it Hit. apply In_nth_error in Hit as [j Hj]. destruct (HB2 j it Hj) as (b & Hb & H). exists b. split; [apply Hs; eapply nth_error_In; eauto|auto]. }
  assert (Hkeys : forall it b, block_of groups it b -> forall k, In k (map fst (uv_cd b)) <-> k = "CellGroup"%string \/ In k (map fst (uv_cd (mm_vol (fst it))))).
  { intros it b (_ & arr & -> & _) k. apply aput_fst. }
  destruct (Hclean g0 cells Hc) as (f & Hcl & Ecd & Egh & Hpts).
  assert (exists cg, In ("CellGroup"%string, cg) (uv_cd g0)) as (cg & Hcg).
  { assert (H : In "CellGroup"%string (map fst (uv_cd g0))).
    { apply HK. intros b Hb. destruct (Hin1 b Hb) as (it & _ & H). apply (Hkeys _ _ H). auto. }
    apply in_map_iff in H as ([k v] & E & H). cbn in E. subst k. eauto. }
  destruct (HA _ _ Hcg) as [Lcg HCG].
  assert (HNm : forall i j c, nth_error place i = Some (j, c) -> exists it k z, nth_error items j = Some it /\
     nth_error cg i = Some (num z) /\ In (k, z) groups /\
     base_name (had_groups int (fst it)) (ignore_groups o) (the_default o (snd it)) c k).
  { intros i j c Hi. assert (Hc' : In (j, c) place) by (eapply nth_error_In; eauto). apply HCov in Hc' as (b & Hb & Hlt).
    destruct (HCG i j c Hi) as (b' & v & Hb' & Hv & E). rewrite Hb in Hb'. injection Hb' as <-.
    destruct (HB1 j b Hb) as (it & Hit & W & arr & -> & Hl & Hk). cbn [with_groups uv_types] in Hlt.
    destruct (Hk c Hlt) as (k & (z & Hz & Hkz) & Hname). exists it, k, z. split; [auto|]. split; [|auto].
    assert (v = map num arr).
    { destruct W as (_ & HNW & _). cbn [with_groups uv_cd] in Hv.
      pose proof (lookup_NoDup _ _ _ (aput_NoDup "CellGroup"%string (map num arr) _ HNW) Hv) as L1.
      pose proof (lookup_NoDup _ _ _ (aput_NoDup "CellGroup"%string (map num arr) _ HNW) (aput_In _ _ _)) as L2. congruence. }
    subst v. rewrite E, nth_error_map, Hz. reflexivity. }
  assert (Hat : forall i, i < length place -> exists j c, nth_error place i = Some (j, c)).
  { intros i Hi. destruct (nth_error place i) as [[j c]|] eqn:E; [eauto|]. apply nth_error_None in E. lia. }
  destruct (finish_unstructured_spec num int Hint clean g0 groups cg) as
    (g & labels & cg' & Hfin & Ety & Est & Ept & Egh' & HN' & Hoth & Hcg' & Hnl & Lcg' & Hname & HKl); auto.
  { rewrite Ecd; auto. } { rewrite Ecd; auto. }
  { intros i x Hx. destruct (Hat i) as (j & c & Hi); [rewrite <- Lcg; apply nth_error_Some; congruence|].
    destruct (HNm _ _ _ Hi) as (it & k & z & _ & Hz & Hk & _). rewrite Hx in Hz. injection Hz as ->. eauto. }
  rewrite Ecd in Hoth. rewrite Egh in Egh'.
  assert (Hfl : forall i, flag_of (uv_ghost g) i = flag_of (uv_ghost g0) i).
  { intros i. rewrite Egh'. unfold clean_ghost, flag_of. destruct (forallb (Nat.eqb 0) (uv_ghost g0)) eqn:Ef; [|auto].
    rewrite forallb_zero in Ef. destruct (nth_error (uv_ghost g0) i) as [x|] eqn:Ex.
    - rewrite (nth_error_nth _ _ 0 Ex). rewrite (Ef i x Ex). destruct i; auto.
    - rewrite (nth_overflow (uv_ghost g0)) by (apply nth_error_None; auto). destruct i; auto. }
  exists g, labels, place. split; [auto|]. split.
  { split; [auto|]. intros j c. rewrite HCov. split.
    - intros (b & Hb & Hlt). destruct (HB1 j b Hb) as (it & Hit & W & arr & -> & _). cbn [with_groups uv_types] in Hlt.
      destruct W as ((cs & Hcs) & _). exists it, cs. split; [auto|]. split; [auto|]. rewrite (decode_length _ _ _ Hcs). auto.
    - intros (it & cs & Hit & Hcs & Hlt). destruct (HB2 j it Hit) as (b & Hb & _ & arr & -> & _). eexists. split; [eauto|].
      cbn [with_groups uv_types]. rewrite <- (decode_length _ _ _ Hcs). auto. }
  split.
  { exists (map (rename f) cells). split; [unfold cells_of in *; rewrite Ety, Est; auto|]. split; [now rewrite map_length|].
    intros i j c Hi. destruct (HP i j c Hi) as (b & cs & cell & h & Hb & Hcs & Hcell & Hci & Hv).
    destruct (HB1 j b Hb) as (it & Hit & W & arr & -> & _).
    exists it, cs, cell, (fun v => f (h v)). split; [auto|]. split; [exact Hcs|]. split; [auto|].
    split; [rewrite nth_error_map, Hci; cbn [option_map]; now rewrite rename_rename|].
    intros v p Hin Hp. rewrite Ept. apply Hpts; [|apply Hv; auto].
    apply in_flat_map. exists (rename h cell). split; [eapply nth_error_In; eauto|]. apply (rename_In h). auto. }
  split.
  { destruct (names_spec num int Hint labels cg' Hnl) as (names & H1 & H2 & H3 & H4); [|auto|].
    { intros i Hi. destruct (Hat i) as (j & c & Hp); [lia|]. destruct (HNm _ _ _ Hp) as (it & k & z & _ & Hz & Hk & _).
      exists k. apply Hname. exists z. split; [rewrite nth_error_map, Hz; cbn; now rewrite Hint|auto]. }
    split; [auto|]. split; [auto|]. exists (map num cg'), names. split; [auto|]. split; [auto|]. split; [lia|]. split; [auto|].
    intros i j c Hi. destruct (HNm _ _ _ Hi) as (it & k & z & Hit & Hz & Hk & Hbase). exists it, k. split; [auto|]. split; [|auto].
    apply H3, Hname. exists z. split; [rewrite nth_error_map, Hz; cbn; now rewrite Hint|auto]. }
  split.
  { split.
    - intros k. destruct (String.string_dec k "CellGroup"%string) as [->|Hk].
      { split; [auto|]. intros _. apply in_map_iff. exists ("CellGroup"%string, map num cg'). auto. }
      assert (E : In k (map fst (uv_cd g)) <-> In k (map fst (uv_cd g0))).
      { rewrite !in_map_iff. split; intros ([k' v] & <- & Hv); exists (k', v); (split; [auto|]); apply Hoth; auto. }
      rewrite E, HK. split.
      + intros H. right. intros it Hit. destruct (Hin2 it Hit) as (b & Hb & HB). destruct (proj1 (Hkeys _ _ HB k) (H b Hb)); [contradiction|auto].
      + intros [H|H] b Hb; [contradiction|]. destruct (Hin1 b Hb) as (it & Hit & HB). apply (Hkeys _ _ HB). auto.
    - intros k x Hx Hk. apply Hoth in Hx; [|auto]. destruct (HA k x Hx) as [Lx Hv]. split; [auto|]. intros i j c Hi.
      destruct (Hv i j c Hi) as (b & v & Hb & Hkv & E). destruct (HB1 j b Hb) as (it & Hit & W & arr & -> & _). exists it, v.
      split; [auto|]. split; [|auto]. cbn [with_groups uv_cd] in Hkv. apply aput_other in Hkv; auto. }
  split.
  - intros Hall. destruct HFull as [Lg HG].
    { intros b Hb. destruct (Hin1 b Hb) as (it & Hit & W & arr & -> & _). rewrite Forall_forall in Hall. exact (Hall it Hit). }
    intros i j c Hi. destruct (HG i j c Hi) as (b & Hb & E). destruct (HB1 j b Hb) as (it & Hit & W & arr & -> & _).
    exists it. split; [auto|]. rewrite Hfl. unfold flag_of. cbn [with_groups uv_ghost] in E.
    assert (EE : nth i (uv_ghost g0) 0 = nth c (uv_ghost (mm_vol (fst it))) 0).
    { destruct (nth_error (uv_ghost g0) i) as [x|] eqn:Ex; symmetry in E.
      - now rewrite (nth_error_nth _ _ 0 Ex), (nth_error_nth _ _ 0 E).
      - apply nth_error_None in Ex. apply nth_error_None in E. now rewrite !nth_overflow by auto. }
    exact EE.
  - intros (it & Hit & Ht & Hg). destruct (Hin2 it Hit) as (b & Hb & W & arr & -> & _).
    assert (HG : bare g0) by (apply HBare; eexists; split; [exact Hb|split; auto]). destruct HG as [_ HG].
    rewrite Egh', HG. reflexivity.
Qed.

Lemma merge_mesh_spec g labels : merge_mesh num int o pvmerge clean items = Ok (g, labels) ->
  exists place, merged_from items place /\ cells_kept items tol place g /\ names_kept items int o place g labels /\
  arrays_kept items place g /\ (Forall (fun it => flagged (fst it)) items -> flags_kept items place g) /\
  ((exists it, In it items /\ uv_types (mm_vol (fst it)) <> [] /\ uv_ghost (mm_vol (fst it)) = []) -> uv_ghost g = []).
Proof.
  unfold merge_mesh. destruct (merge_meshes _ _ _ _ _ _ _) as [[r groups]|] eqn:E; [|discriminate]. cbn [bind].
  apply (loop_progress items []) in E; [|auto|split; [apply numbered_nil|]; exists []; split; [constructor|reflexivity]]. cbn [app] in E.
  destruct r as [g0|]; [|discriminate]. destruct (finished _ _ E) as (g' & labels' & place & Hf & H). rewrite Hf. intros [= <- <-]. eauto.
Qed.

Lemma merge_mesh_defined : (forall x y, exists g, pvmerge [x; y] = Ok g) ->
  (items = [] -> merge_mesh num int o pvmerge clean items = Err ValueError) /\
  (items <> [] -> exists r, merge_mesh num int o pvmerge clean items = Ok r).
Proof.
  intros HT. split; [intros ->; reflexivity|]. intros Hi. unfold merge_mesh.
  destruct (loop_defined items None [] HT HW numbered_nil) as (r & groups & E). rewrite E. cbn [bind].
  destruct r as [g0|].
  - apply (loop_progress items []) in E; [|auto|split; [apply numbered_nil|]; exists []; split; [constructor|reflexivity]]. cbn [app] in E.
    destruct (finished _ _ E) as (g' & labels' & place & Hf & H). eauto.
  - destruct (proj1 (loop_some _ _ _ _ _ E) eq_refl). contradiction.
Qed.
End Loop.
