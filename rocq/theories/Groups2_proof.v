From Coq Require Import FinFun Sorted Permutation.
From Verif Require Import Groups_model Groups_spec Groups_proof.
Open Scope Z_scope.

(* ---- dictionaries ---- *)
Lemma dget_dset k v d k' : dget k' (dset k v d) = if String.eqb k' k then Some v else dget k' d.
Proof.
  induction d as [|[k1 v1] d IH]; cbn [dset dget].
  - destruct (String.eqb_spec k' k); auto.
  - destruct (String.eqb_spec k k1) as [->|N]; cbn [dget].
    + destruct (String.eqb_spec k' k1); auto.
    + destruct (String.eqb_spec k' k1) as [->|N'].
      * destruct (String.eqb_spec k1 k); congruence || auto.
      * auto.
Qed.

Lemma dset_keys k v d : In k (map fst d) -> map fst (dset k v d) = map fst d.
Proof.
  induction d as [|[k1 v1] d IH]; cbn [dset map fst]; [intros []|].
  destruct (String.eqb_spec k k1) as [->|N]; cbn [map fst]; auto.
  intros [E|H]; [congruence|]. rewrite IH; auto.
Qed.

Lemma sremove_In k l x : In x (sremove k l) <-> In x l /\ x <> k.
Proof.
  unfold sremove. rewrite filter_In. destruct (String.eqb_spec k x); cbn; intuition congruence.
Qed.

(* ---- the loop ---- *)
Definition res_key (lab : dict) (k : mkey) : option Z :=
  match k with KStr s => dget s lab | KInt z => Some z end.
Definition touched (lab : dict) (k : mkey) (z : Z) : option string :=
  match k with KStr s => Some s | KInt _ => inv_get z lab end.

Lemma res_key_resolves lab k z : NoDup (map fst lab) -> res_key lab k = Some z <-> resolves lab k z.
Proof.
  intros Hn. destruct k as [s|z']; cbn [res_key resolves].
  - split; [apply dget_In|apply In_dget; auto].
  - split; congruence.
Qed.

Lemma touched_get lab k z s : NoDup (map fst lab) -> res_key lab k = Some z ->
  touched lab k z = Some s -> dget s lab = Some z.
Proof.
  intros Hn. destruct k as [s'|z']; cbn [res_key touched].
  - intros H [= ->]; auto.
  - intros [= ->] H. apply inv_get_In in H. apply In_dget; auto.
Qed.

Definition sep (lab : dict) (a b : mkey * Z) : Prop :=
  forall z, res_key lab (fst a) = Some z -> res_key lab (fst b) <> Some z.

Lemma existsb_map_eqb (vid : Z) data :
  existsb (fun b => b) (map (fun x => x =? vid) data) = true <-> In vid data.
Proof.
  rewrite existsb_exists. split.
  - intros (b & Hb & ->). apply in_map_iff in Hb as (x & E & Hx). apply Z.eqb_eq in E; subst; auto.
  - intros H. exists true; split; auto. apply in_map_iff. exists vid; split; auto. apply Z.eqb_refl.
Qed.

Lemma remap_loop_spec data lab : NoDup (map fst lab) -> forall ms out labels unused out' labels' unused',
  ForallOrdPairs (sep lab) ms ->
  map fst labels = map fst lab ->
  (forall s v, In (KStr s, v) ms -> dget s labels = dget s lab) ->
  length out = length data ->
  remap_loop data lab ms (out, labels, unused) = Ok (out', labels', unused') ->
  (forall s v, In (KStr s, v) ms -> exists z, dget s lab = Some z) /\
  length out' = length data /\
  (forall c x y, nth_error data c = Some x -> nth_error out c = Some y ->
     (forall k v, In (k, v) ms -> res_key lab k = Some x -> nth_error out' c = Some v) /\
     ((forall k v, In (k, v) ms -> res_key lab k <> Some x) -> nth_error out' c = Some y)) /\
  map fst labels' = map fst lab /\
  (forall s, (exists k v z, In (k, v) ms /\ res_key lab k = Some z /\ In z data /\
                            touched lab k z = Some s /\ dget s labels' = Some v /\ ~ In s unused') \/
             ((forall k v z, In (k, v) ms -> res_key lab k = Some z -> In z data ->
                             touched lab k z <> Some s) /\
              dget s labels' = dget s labels /\ (In s unused' <-> In s unused))).
Proof.
  intros Hn. induction ms as [|[k v] ms IH]; intros out labels unused out' labels' unused' HD HK HI HL; cbn [remap_loop].
  - intros H%Ok_inj. apply pair_equal_spec in H as [H <-]. apply pair_equal_spec in H as [<- <-].
    split; [intros ? ? []|]. split; auto. split.
    { intros c x y Hx Hy. split; [intros ? ? []|auto]. }
    split; auto. intros s. right. split; [intros ? ? ? []|]. tauto.
  - inversion HD as [|? ? HD1 HD2]; subst. rewrite Forall_forall in HD1.
    assert (Hres : (match k with
                   | KStr s => match dget s labels with Some z => Ok z | None => Err ValueError end
                   | KInt z => Ok z end) =
                   match res_key lab k with Some z => Ok z | None => Err ValueError end).
    { destruct k as [s|z]; cbn [res_key]; auto. rewrite (HI s v) by (left; auto). auto. }
    rewrite Hres. destruct (res_key lab k) as [vid|] eqn:Ek; [|discriminate]. cbn [bind].
    assert (HI' : forall s v', In (KStr s, v') ms -> dget s labels = dget s lab)
      by (intros; eapply HI; right; eauto).
    destruct (existsb (fun b => b) (map (fun x => x =? vid) data)) eqn:Ex.
    + (* the value occurs *)
      apply existsb_map_eqb in Ex.
      change (match k with KStr s => Some s | KInt _ => inv_get vid lab end) with (touched lab k vid).
      match goal with |- (match ?X with pair _ _ => _ end) = _ -> _ =>
        destruct X as [labels1 unused1] eqn:Elu end. intros H.
      assert (Hlab1 : map fst labels1 = map fst lab /\
        (forall s, touched lab k vid = Some s -> dget s labels1 = Some v /\ ~ In s unused1) /\
        (forall s, touched lab k vid <> Some s -> dget s labels1 = dget s labels /\ (In s unused1 <-> In s unused))).
      { destruct (touched lab k vid) as [s0|] eqn:Et.
        - apply pair_equal_spec in Elu as [<- <-]. split.
          + rewrite dset_keys; auto. rewrite HK.
            pose proof (touched_get _ _ _ _ Hn Ek Et) as Hg. apply dget_In in Hg.
            apply (in_map fst) in Hg; auto.
          + split.
            * intros s [= <-]. rewrite dget_dset, String.eqb_refl. split; auto.
              rewrite sremove_In. tauto.
            * intros s Hs. rewrite dget_dset, sremove_In. 
              destruct (String.eqb_spec s s0) as [->|N]; [congruence|]. tauto.
        - apply pair_equal_spec in Elu as [<- <-]. split; auto. split; [discriminate|]. tauto. }
      destruct Hlab1 as (K1 & T1 & T2).
      assert (HI1 : forall s v', In (KStr s, v') ms -> dget s labels1 = dget s lab).
      { intros s v' Hs. destruct (T2 s) as [-> _]; [|eapply HI'; eauto].
        intros Et. pose proof (touched_get _ _ _ _ Hn Ek Et) as Hg.
        apply (HD1 _ Hs vid Ek). cbn [fst res_key]. auto. }
      apply IH in H; auto; [|rewrite mask_set_length; auto].
      destruct H as (A0 & A1 & A2 & A3 & A4).
      assert (Hms : forall k' v', In (k', v') ms -> res_key lab k' <> Some vid).
      { intros k' v' Hin. apply (HD1 _ Hin vid Ek). }
      split.
      { intros s v' [[= -> ->]|Hin]; [cbn [res_key] in Ek; eauto|eapply A0; eauto]. }
      split; auto. split; [|split; auto].
      * intros c x y Hx Hy.
        assert (Hm : nth_error (mask_set v (map (fun x => x =? vid) data) out) c
                     = Some (if x =? vid then v else y)).
        { rewrite mask_set_nth_error by (rewrite map_length; auto).
          rewrite nth_error_map, Hx. cbn [option_map]. destruct (x =? vid); auto. }
        destruct (A2 c x _ Hx Hm) as [P1 P2]. split.
        { intros k' v' [[= <- <-]|Hin] Hk'.
          - rewrite Ek in Hk'. injection Hk' as <-. rewrite P2 by auto. rewrite Z.eqb_refl. auto.
          - eapply P1; eauto. }
        { intros Hno. rewrite P2.
          - destruct (Z.eqb_spec x vid) as [->|]; auto. exfalso. eapply Hno; [left; eauto|auto].
          - intros k' v' Hin. eapply Hno. right; eauto. }
      * intros s. destruct (A4 s) as [(k' & v' & z & B1 & B2 & B3 & B4 & B5 & B6)|(B1 & B2 & B3)].
        { left. exists k', v', z. repeat split; auto. right; auto. }
        { destruct (touched lab k vid) as [s0|] eqn:Et.
          - destruct (String.eqb_spec s s0) as [->|N].
            + left. exists k, v, vid. destruct (T1 s0 eq_refl) as [T3 T4].
              repeat split; auto; [left; auto|congruence|tauto].
            + right. destruct (T2 s) as [T3 T4]; [congruence|]. split; [|split; [congruence|tauto]].
              intros k' v' z [[= <- <-]|Hin] Hk Hz; [|eapply B1; eauto].
              rewrite Ek in Hk. injection Hk as <-. congruence.
          - right. destruct (T2 s) as [T3 T4]; [congruence|]. split; [|split; [congruence|tauto]].
            intros k' v' z [[= <- <-]|Hin] Hk Hz; [|eapply B1; eauto].
            rewrite Ek in Hk. injection Hk as <-. congruence. }
    + (* the value does not occur *)
      assert (Hno : ~ In vid data).
      { intros Hin. apply existsb_map_eqb in Hin. congruence. }
      intros H. apply IH in H; auto. destruct H as (A0 & A1 & A2 & A3 & A4).
      split.
      { intros s v' [[= -> ->]|Hin]; [cbn [res_key] in Ek; eauto|eapply A0; eauto]. }
      split; auto. split; [|split; auto].
      * intros c x y Hx Hy. destruct (A2 c x y Hx Hy) as [P1 P2]. split.
        { intros k' v' [[= <- <-]|Hin] Hk'; [|eapply P1; eauto].
          rewrite Ek in Hk'. injection Hk' as <-. exfalso; apply Hno. eapply nth_error_In; eauto. }
        { intros Hn'. apply P2. intros k' v' Hin. eapply Hn'. right; eauto. }
      * intros s. destruct (A4 s) as [(k' & v' & z & B1 & B2 & B3 & B4 & B5 & B6)|(B1 & B2 & B3)].
        { left. exists k', v', z. repeat split; auto. right; auto. }
        { right. split; [|split; auto]. intros k' v' z [[= <- <-]|Hin] Hk Hz; [|eapply B1; eauto].
          rewrite Ek in Hk. injection Hk as <-. contradiction. }
Qed.

(* ---- definedness ---- *)
Lemma remap_loop_defined data lab ms : forall out labels unused,
  map fst labels = map fst lab ->
  (forall s v, In (KStr s, v) ms -> In s (map fst lab)) ->
  exists r, remap_loop data lab ms (out, labels, unused) = Ok r.
Proof.
  induction ms as [|[k v] ms IH]; intros out labels unused HK Hs; cbn [remap_loop]; eauto.
  assert (Hs' : forall s v', In (KStr s, v') ms -> In s (map fst lab))
    by (intros; eapply Hs; right; eauto).
  assert (exists vid, (match k with
                   | KStr s => match dget s labels with Some z => Ok z | None => Err ValueError end
                   | KInt z => Ok z end) = Ok vid /\
      forall s, match k with KStr s' => Some s' | KInt _ => inv_get vid lab end = Some s -> In s (map fst lab))
    as (vid & -> & Ht).
  { destruct k as [s|z].
    - assert (In s (map fst labels)) as Hin by (rewrite HK; eapply Hs; left; eauto).
      destruct (dget s labels) as [z|] eqn:E; [|apply dget_None in E; contradiction].
      exists z. split; auto. intros s' [= <-]. rewrite <- HK; auto.
    - exists z. split; auto. intros s H. apply inv_get_In in H. apply (in_map fst) in H; auto. }
  cbn [bind]. destruct (existsb _ _); [|apply IH; auto].
  destruct (match k with KStr s => Some s | KInt _ => inv_get vid lab end) as [s|]; apply IH; auto.
  rewrite dset_keys; auto. rewrite HK. auto.
Qed.

Lemma remap_loop_error data lab ms : forall st e,
  remap_loop data lab ms st = Err e -> e = ValueError.
Proof.
  induction ms as [|[k v] ms IH]; intros [[out labels] unused] e; cbn [remap_loop]; [discriminate|].
  assert (forall r e', (match k with
                   | KStr s => match dget s labels with Some z => Ok z | None => Err ValueError end
                   | KInt z => Ok z end) = r -> r = Err e' -> e' = ValueError) as He.
  { intros r e' <-. destruct k; [destruct (dget s labels)|]; congruence. }
  destruct (match k with KStr s => _ | KInt z => _ end) as [vid|e0] eqn:E; cbn [bind].
  - destruct (existsb _ _); [|apply IH].
    destruct (match k with KStr s => Some s | KInt _ => inv_get vid lab end); apply IH.
  - intros [= <-]. eapply He; eauto.
Qed.

Lemma remap_loop_keys data lab ms : forall out labels unused r,
  map fst labels = map fst lab ->
  remap_loop data lab ms (out, labels, unused) = Ok r ->
  map fst (snd (fst r)) = map fst lab /\ forall s v, In (KStr s, v) ms -> In s (map fst lab).
Proof.
  induction ms as [|[k v] ms IH]; intros out labels unused r HK; cbn [remap_loop].
  - intros H%Ok_inj. subst r. cbn [fst snd]. split; auto. intros ? ? [].
  - destruct (match k with
             | KStr s => match dget s labels with Some z => Ok z | None => Err ValueError end
             | KInt z => Ok z end) as [vid|] eqn:E; [|discriminate]. cbn [bind].
    assert (Hk : forall s, k = KStr s -> In s (map fst lab)).
    { intros s ->. destruct (dget s labels) as [z|] eqn:Eg; [|discriminate].
      apply dget_In, (in_map fst) in Eg. cbn [fst] in Eg. rewrite <- HK; auto. }
    assert (Ht : forall s, match k with KStr s' => Some s' | KInt _ => inv_get vid lab end = Some s ->
                 In s (map fst lab)).
    { intros s Hs. destruct k as [s'|z]; [injection Hs as ->; auto|].
      apply inv_get_In, (in_map fst) in Hs. auto. }
    intros H.
    assert (map fst (snd (fst r)) = map fst lab /\ forall s v, In (KStr s, v) ms -> In s (map fst lab)) as [A B].
    { destruct (existsb _ _); [|eapply IH; eauto].
      destruct (match k with KStr s => Some s | KInt _ => inv_get vid lab end) as [s|];
        (eapply IH; [|exact H]); auto.
      rewrite dset_keys; auto. rewrite HK. auto. }
    split; auto. intros s v' [[= -> ->]|Hin]; eauto.
Qed.

(* ---- sorting ---- *)
Lemma dinsert_perm kv d : Permutation (dinsert kv d) (kv :: d).
Proof.
  induction d as [|kv' d IH]; cbn [dinsert]; auto.
  destruct (snd kv <=? snd kv'); auto. etransitivity; [apply perm_skip, IH|apply perm_swap].
Qed.
Lemma dsort_perm d : Permutation (dsort d) d.
Proof. induction d as [|kv d IH]; cbn [dsort]; auto. rewrite dinsert_perm; auto. Qed.

Definition vle (a b : string * Z) : Prop := snd a <= snd b.
Lemma dinsert_sorted kv d : StronglySorted vle d -> StronglySorted vle (dinsert kv d).
Proof.
  induction 1 as [|kv' d H IH Hf]; cbn [dinsert].
  - repeat constructor.
  - destruct (Z.leb_spec (snd kv) (snd kv')).
    + constructor; [constructor; auto|]. constructor; auto.
      eapply Forall_impl; [|exact Hf]. unfold vle. intros; lia.
    + constructor; auto. apply Forall_forall. intros x Hx.
      apply (Permutation_in _ (dinsert_perm kv d)) in Hx as [<-|Hx]; unfold vle; [lia|].
      rewrite Forall_forall in Hf. apply Hf; auto.
Qed.
Lemma dsort_sorted d : StronglySorted vle (dsort d).
Proof. induction d; cbn [dsort]; [constructor|apply dinsert_sorted; auto]. Qed.

Lemma sorted_unique l : forall m, Permutation l m -> StronglySorted vle l ->
  StronglySorted (fun a b => snd a < snd b) m -> l = m.
Proof.
  induction l as [|a l IH]; intros m Hp Hl Hm.
  - symmetry; apply Permutation_nil; auto.
  - destruct m as [|b m]; [symmetry in Hp; apply Permutation_nil in Hp; discriminate|].
    inversion Hl as [|? ? L1 L2]; subst. inversion Hm as [|? ? M1 M2]; subst.
    assert (a = b) as ->.
    { assert (In a (b :: m)) as Ha by (eapply Permutation_in; eauto; left; auto).
      assert (In b (a :: l)) as Hb by (eapply Permutation_in; [symmetry; eauto|left; auto]).
      destruct Ha as [|Ha]; auto. destruct Hb as [|Hb]; auto.
      rewrite Forall_forall in L2, M2. specialize (L2 _ Hb). specialize (M2 _ Ha). unfold vle in L2. lia. }
    f_equal. apply IH; auto. eapply Permutation_cons_inv; eauto.
Qed.

(* ---- remap_data ---- *)
Lemma unambiguous_sep lab ms : NoDup (map fst lab) -> unambiguous lab ms -> ForallOrdPairs (sep lab) ms.
Proof.
  intros Hn. unfold unambiguous. induction 1 as [|a l H1 H2 IH]; constructor; auto.
  eapply Forall_impl; [|exact H1]. intros b H z Ha Hb. apply (H z).
  split; apply res_key_resolves; auto.
Qed.

Lemma remap_data_law data labels ms : NoDup (map fst (lab_of labels)) ->
  unambiguous (lab_of labels) ms -> known_keys (lab_of labels) ms ->
  exists data' labels', remap_data data labels ms = Ok (data', labels') /\
    image_under (lab_of labels) ms data data'.
Proof.
  intros Hn Hu Hk. unfold remap_data.
  destruct (remap_loop_defined data (lab_of labels) ms data (lab_of labels) (map fst (lab_of labels)) eq_refl)
    as ([[out labels'] unused'] & E).
  { intros s v Hin. destruct (Hk s v Hin) as (z & Hz). apply (in_map fst) in Hz; auto. }
  unfold lab_of in *. setoid_rewrite E. cbn [bind]. eexists _, _. split; [reflexivity|].
  apply remap_loop_spec in E; auto using unambiguous_sep. destruct E as (_ & A1 & A2 & _).
  split; auto. intros c x Hx. destruct (A2 c x x Hx Hx) as [P1 P2]. split.
  - intros k v Hin Hr. eapply P1; eauto. apply res_key_resolves; auto.
  - intros Hno. apply P2. intros k v Hin Hr. apply (Hno k v Hin). apply res_key_resolves; auto.
Qed.

Lemma remap_data_unknown data labels ms s v : In (KStr s, v) ms ->
  (forall z, ~ In (s, z) (lab_of labels)) -> remap_data data labels ms = Err ValueError.
Proof.
  intros Hin Hs. unfold remap_data.
  destruct (remap_loop data (lab_of labels) ms _) as [r|e] eqn:E.
  - exfalso. apply remap_loop_keys in E as [_ H]; auto. apply H in Hin.
    apply in_map_iff in Hin as ([s' z] & E' & Hz). cbn [fst] in E'. subst. eapply Hs; eauto.
  - apply remap_loop_error in E; subst; auto.
Qed.

(* the labels after remapping, for injective tables *)
Lemma remap_labels_spec data lab ms out d' : NoDup (map fst lab) -> NoDup (map snd lab) -> lab <> [] ->
  unambiguous lab ms ->
  remap_data data (Some lab) ms = Ok (out, d') ->
  image_under lab ms data out /\
  exists d, d' = Some d /\ NoDup (map fst d) /\ StronglySorted vle d /\
  forall s v, In (s, v) d <-> exists k z, In (s, z) lab /\ In (k, v) ms /\ resolves lab k z /\ In z data.
Proof.
  intros Hn Hn2 Hne Hu. unfold remap_data. cbn [lab_of].
  destruct (remap_loop data lab ms _) as [[[out1 labels1] unused1]|] eqn:E; [|discriminate].
  cbn [bind]. intros H%Ok_inj. apply pair_equal_spec in H as [<- Hd'].
  apply remap_loop_spec in E; auto using unambiguous_sep. destruct E as (A0 & A1 & A2 & A3 & A4).
  split.
  { split; auto. intros c x Hx. destruct (A2 c x x Hx Hx) as [P1 P2]. split.
    - intros k v Hin Hr. eapply P1; eauto. apply res_key_resolves; auto.
    - intros Hno. apply P2. intros k v Hin Hr. apply (Hno k v Hin). apply res_key_resolves; auto. }
  set (d := dsort (filter (fun kv => negb (mem (fst kv) unused1)) labels1)).
  exists d. split.
  { subst d'. destruct labels1; auto. exfalso. destruct lab; [congruence|discriminate]. }
  assert (Hn1 : NoDup (map fst labels1)) by (rewrite A3; auto).
  split; [|split].
  - unfold d. eapply Permutation_NoDup; [symmetry; apply Permutation_map, dsort_perm|].
    clear -Hn1. induction labels1 as [|kv l IH]; cbn [filter map]; [constructor|].
    cbn [map] in Hn1. inversion Hn1 as [|? ? N1 N2]; subst.
    destruct (negb _); auto. cbn [map]. constructor; auto.
    intros Hin. apply N1. apply in_map_iff in Hin as (y & <- & Hy). apply filter_In in Hy as [Hy _].
    apply in_map; auto.
  - apply dsort_sorted.
  - intros s v. unfold d.
    assert (Hin : In (s, v) (dsort (filter (fun kv => negb (mem (fst kv) unused1)) labels1)) <->
            dget s labels1 = Some v /\ ~ In s unused1).
    { split.
      - intros H. apply (Permutation_in _ (dsort_perm _)) in H. apply filter_In in H as [H1 H2].
        cbn [fst] in H2. split; [apply In_dget; auto|]. intros Hm. apply mem_spec in Hm. rewrite Hm in H2.
        discriminate.
      - intros [H1 H2]. eapply Permutation_in; [symmetry; apply dsort_perm|]. apply filter_In. split.
        + apply dget_In; auto.
        + cbn [fst]. destruct (mem s unused1) eqn:Em; auto. apply mem_spec in Em. contradiction. }
    rewrite Hin. split.
    + intros [H1 H2]. destruct (A4 s) as [(k & v' & z & B1 & B2 & B3 & B4 & B5 & B6)|(B1 & B2 & B3)].
      * assert (v' = v) as -> by congruence. exists k, z.
        split; [apply dget_In; eapply touched_get; eauto|]. split; auto. split; auto.
        apply res_key_resolves; auto.
      * exfalso. apply H2, B3. apply dget_In, (in_map fst) in H1. rewrite A3 in H1. auto.
    + intros (k & z & H1 & H2 & H3 & H4). apply res_key_resolves in H3; auto.
      assert (Ht : touched lab k z = Some s).
      { destruct k as [s'|z']; cbn [res_key touched] in *.
        - apply dget_In in H3. pose proof (In_inv_get _ _ _ Hn2 H3). pose proof (In_inv_get _ _ _ Hn2 H1). congruence.
        - apply In_inv_get; auto. }
      destruct (A4 s) as [(k' & v' & z' & B1 & B2 & B3 & B4 & B5 & B6)|(B1 & B2 & B3)].
      * split; auto. rewrite B5. f_equal.
        assert (z' = z) as ->.
        { pose proof (touched_get _ _ _ _ Hn B2 B4). pose proof (touched_get _ _ _ _ Hn H3 Ht). congruence. }
        apply unambiguous_sep in Hu; auto.
        clear -Hu H2 B1 H3 B2. induction Hu as [|a l U1 U2 IH]; [contradiction|].
        rewrite Forall_forall in U1.
        destruct H2 as [->|H2], B1 as [E|B1]; auto.
        { congruence. }
        { exfalso. eapply (U1 _ B1); cbn [fst]; eauto. }
        { subst a. exfalso. eapply (U1 _ H2); cbn [fst]; eauto. }
      * exfalso. eapply B1; eauto.
Qed.

(* ---- labels are kept when the mapping covers the data ---- *)
Lemma image_at lab ms data out c x k v : image_under lab ms data out ->
  nth_error data c = Some x -> In (k, v) ms -> resolves lab k x -> nth_error out c = Some v.
Proof. intros [_ H] Hx Hin Hr. destruct (H c x Hx) as [H1 _]. eauto. Qed.

Lemma remap_keeps_labels data lab ms : NoDup (map fst lab) -> NoDup (map snd lab) -> lab <> [] ->
  unambiguous lab ms -> known_keys lab ms ->
  (forall x, In x data -> exists k v, In (k, v) ms /\ resolves lab k x) ->
  exists data' lab', remap_data data (Some lab) ms = Ok (data', Some lab') /\
    (forall c s, named lab data c s -> named lab' data' c s) /\
    ((forall k1 v k2 x1 x2, In (k1, v) ms -> In (k2, v) ms -> resolves lab k1 x1 -> resolves lab k2 x2 ->
        In x1 data -> In x2 data -> x1 = x2) ->
     forall c s, named lab' data' c s -> named lab data c s).
Proof.
  intros Hn Hn2 Hne Hu Hk Hc.
  destruct (remap_data_law data (Some lab) ms Hn Hu Hk) as (data' & labels' & E & _).
  destruct (remap_labels_spec _ _ _ _ _ Hn Hn2 Hne Hu E) as (Him & d & -> & _ & _ & Hd).
  exists data', d. split; auto. split.
  - intros c s (z & Hz & Hs). pose proof (nth_error_In _ _ Hz) as Hzd.
    destruct (Hc z Hzd) as (k & v & Hkv & Hr).
    exists v. split; [eapply image_at; eauto|]. apply Hd. exists k, z. auto.
  - intros Hinj c s (v & Hv & Hs). apply Hd in Hs as (k & z & H1 & H2 & H3 & H4).
    assert (c < length data')%nat as Hlt by (apply nth_error_Some; congruence).
    rewrite (proj1 Him) in Hlt.
    destruct (nth_error data c) as [x|] eqn:Ex; [|apply nth_error_None in Ex; lia].
    pose proof (nth_error_In _ _ Ex) as Hxd.
    destruct (Hc x Hxd) as (k' & v' & Hkv & Hr).
    pose proof (image_at _ _ _ _ _ _ _ _ Him Ex Hkv Hr) as Hv'.
    assert (v' = v) as -> by congruence.
    rewrite (Hinj k' v k x z) in Ex; auto. exists z. auto.
Qed.

(* ---- cleaning ---- *)
Fixpoint number_from (n : Z) (l : list string) : dict :=
  match l with [] => [] | k :: l' => (k, n) :: number_from (n + 1) l' end.

Lemma number_from_keys l : forall n, map fst (number_from n l) = l.
Proof. induction l as [|k l IH]; intros n; cbn; auto. rewrite IH; auto. Qed.
Lemma number_from_vals l : forall n, map snd (number_from n l) = map (fun i => n + Z.of_nat i) (seq 0 (length l)).
Proof.
  induction l as [|k l IH]; intros n; cbn [number_from map snd length seq]; auto.
  rewrite IH, <- seq_shift, map_map. f_equal; [lia|]. apply map_ext. intros; lia.
Qed.
Lemma number_from_length l : forall n, length (number_from n l) = length l.
Proof. induction l; intros; cbn; auto. Qed.
Lemma number_from_numbered l : NoDup l -> numbered (number_from 0 l).
Proof.
  intros H. split; [rewrite number_from_keys; auto|].
  rewrite number_from_vals, number_from_length. apply map_ext. intros; lia.
Qed.
Lemma number_from_ge l : forall n k v, In (k, v) (number_from n l) -> n <= v.
Proof.
  induction l as [|k0 l IH]; intros n k v; cbn [number_from]; [intros []|].
  intros [[= -> ->]|H]; [lia|]. apply IH in H. lia.
Qed.
Lemma number_from_sorted l : forall n, StronglySorted (fun a b => snd a < snd b) (number_from n l).
Proof.
  induction l as [|k l IH]; intros n; cbn [number_from]; constructor; auto.
  apply Forall_forall. intros [k' v'] H. apply number_from_ge in H. cbn. lia.
Qed.
Lemma enum_from_number l : forall n, enum_from n l = map (fun kv => (KStr (fst kv), snd kv)) (number_from n l).
Proof. induction l; intros; cbn; auto. rewrite IHl; auto. Qed.
Lemma enum_from_In l n K v : In (K, v) (enum_from n l) <-> exists s, K = KStr s /\ In (s, v) (number_from n l).
Proof.
  rewrite enum_from_number, in_map_iff. split.
  - intros ([s v'] & E & H). cbn [fst snd] in E. injection E as <- <-. eauto.
  - intros (s & -> & H). exists (s, v). auto.
Qed.

Lemma mask_get_In (f : string * Z -> bool) (d : dict) k :
  In k (mask_get (map f d) (map fst d)) <-> exists v, In (k, v) d /\ f (k, v) = true.
Proof.
  induction d as [|[k' v'] d IH]; cbn [map mask_get fst].
  - split; [intros []|intros (v & [] & _)].
  - destruct (f (k', v')) eqn:Ef.
    + cbn [In]. rewrite IH. split.
      * intros [<-|(v & H1 & H2)]; eauto.
      * intros (v & [Hv|H1] & H2); [injection Hv as -> ->; auto|eauto].
    + rewrite IH. split; [intros (v & H1 & H2); exists v; split; [right|]; auto|].
      intros (v & [Hv|H1] & H2); [injection Hv as -> ->; congruence|eauto].
Qed.

Lemma mask_get_subseq {E} (m : list bool) : forall (l : list E), subseq (mask_get m l) l.
Proof.
  induction m as [|b m IH]; intros [|x l]; cbn [mask_get]; try apply ss_nil.
  destruct b; [apply ss_keep|apply ss_skip]; auto.
Qed.
Lemma subseq_refl {E} (l : list E) : subseq l l.
Proof. induction l; [apply ss_nil|apply ss_keep; auto]. Qed.
Lemma subseq_In {E} (l m : list E) x : subseq l m -> In x l -> In x m.
Proof.
  induction 1 as [| |y l m H IH]; [intros []|intros; right; auto|].
  intros [->|Hx]; [left; auto|right; auto].
Qed.
Lemma subseq_NoDup {E} (l m : list E) : subseq l m -> NoDup m -> NoDup l.
Proof.
  induction 1; intros Hn; [constructor| |]; inversion Hn; subst; auto.
  constructor; auto. intros Hx. eapply subseq_In in Hx; eauto.
Qed.

Lemma value_key_unique (d : dict) k k' z : NoDup (map snd d) -> In (k, z) d -> In (k', z) d -> k = k'.
Proof. intros Hn H1 H2. pose proof (In_inv_get _ _ _ Hn H1). pose proof (In_inv_get _ _ _ Hn H2). congruence. Qed.

Lemma clean_groups_spec data d : numbered d ->
  (forall c, (c < length data)%nat -> exists k, named d data c k) ->
  exists data' d', clean_groups (Some data) (Some d) = Ok (Some data', Some d') /\
    length data' = length data /\ numbered d' /\
    (forall c k, named d data c k <-> named d' data' c k) /\
    (forall k, In k (map fst d') <-> exists c, named d data c k) /\
    subseq (map fst d') (map fst d).
Proof.
  intros Hn Hall. unfold clean_groups.
  set (used := fun kv : string * Z => existsb (fun x => x =? snd kv) data).
  assert (Hused : forall k v, used (k, v) = true <-> In v data).
  { intros k v. unfold used. cbn [snd]. rewrite existsb_exists. split.
    - intros (x & Hx & E). apply Z.eqb_eq in E; subst; auto.
    - intros H. exists v; split; auto. apply Z.eqb_refl. }
  assert (Hnamed : forall k v, In (k, v) d -> In v data <-> exists c, named d data c k).
  { intros k v Hk. split.
    - intros Hv. apply In_nth_error in Hv as (c & Hc). exists c, v. auto.
    - intros (c & z & Hz & Hin). apply (In_dget _ _ _ (proj1 Hn)) in Hk, Hin.
      assert (z = v) by congruence. subst. eapply nth_error_In; eauto. }
  destruct (forallb (fun b => b) (map used d)) eqn:Eall.
  - exists data, d. split; auto. split; auto. split; auto. split; [tauto|]. split; [|apply subseq_refl].
    intros k. split.
    + intros Hk. apply in_map_iff in Hk as ([k' v] & E & Hk). cbn [fst] in E. subst k'.
      apply (Hnamed k v Hk). apply (Hused k v).
      rewrite forallb_forall in Eall. apply Eall. apply in_map; auto.
    + intros (c & z & _ & Hin). apply (in_map fst) in Hin; auto.
  - set (keys := mask_get (map used d) (map fst d)).
    assert (Hkeys : forall k, In k keys <-> exists v, In (k, v) d /\ In v data).
    { intros k. unfold keys. rewrite mask_get_In. split; intros (v & H1 & H2); exists v; split; auto; eapply Hused; eauto. }
    assert (Hsub : subseq keys (map fst d)) by apply mask_get_subseq.
    assert (HnK : NoDup keys) by (eapply subseq_NoDup; eauto; apply Hn).
    set (E := number_from 0 keys).
    pose proof (numbered_values _ Hn) as Hnv.
    assert (HnE : numbered E) by (apply number_from_numbered; auto).
    assert (HE : forall k v, In (k, v) E -> In k keys).
    { intros k v H. apply (in_map fst) in H. unfold E in H. rewrite number_from_keys in H. auto. }
    assert (Hu : unambiguous d (enum_from 0 keys)).
    { unfold unambiguous. rewrite enum_from_number. fold E.
      assert (HnE1 : NoDup (map fst E)) by apply HnE. clear -HnE1 Hnv.
      induction E as [|[k v] E IH]; cbn [map fst]; constructor.
      - apply Forall_forall. intros [K w] Hin. apply in_map_iff in Hin as ([k' v'] & [= <- <-] & Hin).
        intros z [H1 H2]. cbn [fst snd resolves] in H1, H2.
        pose proof (value_key_unique _ _ _ _ Hnv H1 H2). subst k'.
        cbn [map fst] in HnE1. inversion HnE1; subst. apply (in_map fst) in Hin. contradiction.
      - apply IH. cbn [map fst] in HnE1. inversion HnE1; auto. }
    assert (Hkn : known_keys d (enum_from 0 keys)).
    { intros s v Hin. apply enum_from_In in Hin as (s' & [= <-] & Hin). apply HE, Hkeys in Hin as (z & Hz & _).
      eauto. }
    assert (Hne : d <> []) by (intros ->; discriminate).
    destruct (remap_data_law data (Some d) _ (proj1 Hn) Hu Hkn) as (data' & labels' & Er & _).
    destruct (remap_labels_spec _ _ _ _ _ (proj1 Hn) Hnv Hne Hu Er) as (Him & L & -> & HL1 & HL2 & HL3).
    assert (L = E) as ->.
    { apply sorted_unique; auto; [|apply number_from_sorted].
      apply NoDup_Permutation.
      - eapply NoDup_map_inv; eauto.
      - eapply NoDup_map_inv. apply HnE.
      - intros [s v]. rewrite HL3. split.
        + intros (K & z & H1 & H2 & H3 & H4). apply enum_from_In in H2 as (s' & -> & H2).
          cbn [resolves] in H3. rewrite (value_key_unique _ _ _ _ Hnv H1 H3). auto.
        + intros H. pose proof (HE _ _ H) as Hk. apply Hkeys in Hk as (z & Hz & Hzd).
          exists (KStr s), z. repeat split; auto. apply enum_from_In. eauto. }
    rewrite Er. cbn [bind]. exists data', E. split; auto. split; [apply Him|]. split; auto.
    assert (Hfwd : forall c k, named d data c k -> named E data' c k).
    { intros c k (z & Hz & Hk). pose proof (nth_error_In _ _ Hz) as Hzd.
      assert (In k keys) as Hkk by (apply Hkeys; eauto).
      assert (exists v, In (k, v) E) as (v & Hv).
      { assert (In k (map fst E)) as H by (unfold E; rewrite number_from_keys; auto).
        apply in_map_iff in H as ([k' v] & <- & H). eauto. }
      exists v. split; auto. eapply image_at; eauto; [apply enum_from_In; eauto|]. auto. }
    split; [|split].
    + intros c k. split; auto. intros H.
      assert (c < length data)%nat as Hlt.
      { rewrite <- (proj1 Him). destruct H as (z & Hz & _). apply nth_error_Some. congruence. }
      destruct (Hall c Hlt) as (k' & Hk'). rewrite (named_unique E data' c k k'); auto.
    + intros k. unfold E. rewrite number_from_keys, Hkeys. split.
      * intros (v & H1 & H2). apply (Hnamed k v H1); auto.
      * intros H. pose proof H as (c & z & Hz & Hin). exists z. split; auto. eapply nth_error_In; eauto.
    + unfold E. rewrite number_from_keys. auto.
Qed.

(* ---- MeshMerge ---- *)
Definition pairs_of {A} (t : merge_item A * list Z) : list (A * Z) := combine (gm_cells (fst (fst t))) (snd t).

Definition good_item {A} (o : options) (g : dict) (t : merge_item A * list Z) : Prop :=
  length (snd t) = length (gm_cells (fst (fst t))) /\
  forall c, (c < length (gm_cells (fst (fst t))))%nat -> exists k, named g (snd t) c k /\
    base_name (labelled (fst (fst t))) (ignore_groups o) (the_default o (snd (fst t))) c k.

Definition opt_list {E} (x : option (list E)) : list E := match x with Some l => l | None => [] end.

Lemma named_ext g g' arr c k : extends g g' -> named g arr c k -> named g' arr c k.
Proof. intros He (z & Hz & Hk). exists z. split; auto. eapply extends_In; eauto. Qed.

Lemma merge_loop_spec {A} o swap (items : list (merge_item A)) : forall acc g,
  numbered g -> Forall (fun it => aligned (fst it)) items ->
  exists out g' its', merge_loop o swap items acc g = Ok (out, g', its') /\
    numbered g' /\ extends g g' /\
    exists T, map fst T = items /\ Forall (good_item o g') T /\
      its' = map (fun t => (mkG (gm_cells (fst (fst t))) (Some (snd t)) (gm_labels (fst (fst t))), snd (fst t))) T /\
      opt_list out = if swap then flat_map pairs_of (rev T) ++ opt_list acc
                     else opt_list acc ++ flat_map pairs_of T.
Proof.
  induction items as [|[mesh d] items IH]; intros acc g Hn Ha; cbn [merge_loop].
  - exists acc, g, []. split; auto. split; auto. split; [apply extends_refl|].
    exists []. repeat split; auto. destruct swap; cbn; rewrite ?app_nil_r; auto.
  - inversion Ha as [|? ? Ha1 Ha2]; subst. cbn [fst] in Ha1.
    destruct (base_groups_kept o mesh g d Hn Ha1) as (arr & g1 & E & Hl & Hb).
    rewrite E. cbn [bind]. destruct (groups_extend _ _ _ _ _ _ _ Hn Ha1 E) as [Hn1 He1].
    match goal with |- context[merge_loop o swap items (Some ?X) g1] => set (acc1 := X) end.
    destruct (IH (Some acc1) g1 Hn1 Ha2) as (out & g' & its' & E2 & Hn' & He' & T & T1 & T2 & T3 & T4).
    rewrite E2. cbn [bind]. eexists _, _, _. split; [reflexivity|]. split; auto.
    split; [eapply extends_trans; eauto|].
    exists (((mesh, d), arr) :: T). split; [cbn [map fst]; rewrite T1; auto|]. split.
    { constructor; auto. split; auto. cbn [fst snd]. intros c Hc. destruct (Hb c Hc) as (k & Hk & Hk2).
      exists k. split; auto. eapply named_ext; eauto. }
    split; [cbn [map fst snd]; rewrite T3; auto|].
    rewrite T4. cbn [opt_list]. unfold acc1. destruct acc as [a|]; cbn [opt_list]; destruct swap; cbn [rev flat_map];
      rewrite ?flat_map_app; cbn [flat_map pairs_of fst snd]; unfold pairs_of; cbn [fst snd];
      rewrite ?app_nil_r, <- ?app_assoc; auto.
Qed.

Lemma map_fst_combine {A B} (l : list A) : forall m : list B, length m = length l -> map fst (combine l m) = l.
Proof. induction l; intros [|b m]; cbn; intros; auto; try discriminate. f_equal; auto. Qed.
Lemma map_snd_combine {A B} (l : list A) : forall m : list B, length m = length l -> map snd (combine l m) = m.
Proof. induction l; intros [|b m]; cbn; intros; auto; try discriminate. f_equal; auto. Qed.

Lemma pairs_fst {A} o g (T : list (merge_item A * list Z)) : Forall (good_item o g) T ->
  map fst (flat_map pairs_of T) = flat_map (fun it => gm_cells (fst it)) (map fst T).
Proof.
  induction 1 as [|t T [Hl _] H IH]; cbn [flat_map map]; auto.
  rewrite map_app, IH. unfold pairs_of at 1. rewrite map_fst_combine; auto.
Qed.
Lemma pairs_snd {A} o g (T : list (merge_item A * list Z)) : Forall (good_item o g) T ->
  map snd (flat_map pairs_of T) = flat_map snd T.
Proof.
  induction 1 as [|t T [Hl _] H IH]; cbn [flat_map map]; auto.
  rewrite map_app, IH. unfold pairs_of at 1. rewrite map_snd_combine; auto.
Qed.
Lemma flat_length {A} o g (T : list (merge_item A * list Z)) : Forall (good_item o g) T ->
  length (flat_map snd T) = length (flat_map (fun it => gm_cells (fst it)) (map fst T)).
Proof.
  induction 1 as [|t T [Hl _] H IH]; cbn [flat_map map]; auto. rewrite !app_length, IH, Hl. auto.
Qed.

Lemma flat_named {A} o g (T : list (merge_item A * list Z)) : Forall (good_item o g) T ->
  forall c, (c < length (flat_map snd T))%nat -> exists k, named g (flat_map snd T) c k.
Proof.
  induction 1 as [|t T [Hl Hg] H IH]; intros c Hc; cbn [flat_map] in *; [cbn in Hc; lia|].
  rewrite app_length in Hc. destruct (Nat.lt_ge_cases c (length (snd t))) as [Hlt|Hge].
  - destruct (Hg c) as (k & (z & Hz & Hk) & _); [lia|]. exists k, z. split; auto. rewrite nth_error_app1; auto.
  - destruct (IH (c - length (snd t))%nat) as (k & z & Hz & Hk); [lia|]. exists k, z. split; auto.
    rewrite nth_error_app2; auto.
Qed.

Lemma merge_names {A} o swap (items : list (merge_item A)) : items <> [] ->
  Forall (fun it => aligned (fst it)) items ->
  exists merged its' cg labels, merge_generate o swap items = Ok (merged, its') /\
    gm_cg merged = Some cg /\ gm_labels merged = Some labels /\ numbered labels /\
    length cg = length (gm_cells merged) /\
    (forall k, In k (map fst labels) <-> exists c, named labels cg c k) /\
    let order := if swap then rev items else items in
    gm_cells merged = flat_map (fun it => gm_cells (fst it)) order /\
    forall before mesh d after c, order = before ++ (mesh, d) :: after ->
      (c < length (gm_cells mesh))%nat ->
      exists k, named labels cg (length (flat_map (fun it => gm_cells (fst it)) before) + c) k /\
        base_name (labelled mesh) (ignore_groups o) (the_default o d) c k.
Proof.
  intros Hne Ha.
  destruct (merge_loop_spec o swap items None [] numbered_nil Ha)
    as (out & g & its' & E & Hn & _ & T & T1 & T2 & T3 & T4).
  assert (Hout : opt_list out = flat_map pairs_of (if swap then rev T else T)).
  { rewrite T4. destruct swap; cbn [opt_list app]; rewrite ?app_nil_r; auto. }
  set (T' := if swap then rev T else T) in *.
  assert (HT' : Forall (good_item o g) T').
  { unfold T'. destruct swap; auto. apply Forall_rev; auto. }
  assert (Hord : map fst T' = if swap then rev items else items).
  { unfold T'. destruct swap; auto. rewrite map_rev, T1; auto. }
  destruct (clean_groups_spec (map snd (opt_list out)) g Hn) as (cg & labels & Ec & L1 & L2 & L3 & L4 & _).
  { rewrite Hout, (pairs_snd o g) by auto. apply (flat_named o g); auto. }
  exists (mkG (map fst (opt_list out)) (Some cg) (Some labels)), its', cg, labels.
  split.
  { unfold merge_generate. destruct items as [|it items0]; [congruence|].
    rewrite E. cbn [bind].
    match goal with |- bind ?X _ = _ => change (X = Ok (Some cg, Some labels)) in Ec end.
    rewrite Ec. cbn [bind]. auto. }
  cbn [gm_cg gm_labels gm_cells]. split; auto. split; auto. split; auto.
  split; [rewrite L1, !map_length; auto|].
  split; [intros k; rewrite L4; split; intros (c & Hc); exists c; apply L3; auto|].
  split; [rewrite Hout, (pairs_fst o g) by auto; rewrite Hord; auto|].
  intros before mesh d after c Hsplit Hc. rewrite Hsplit in Hord.
  assert (exists Tb arr Ta, T' = Tb ++ ((mesh, d), arr) :: Ta /\ map fst Tb = before) as (Tb & arr & Ta & ET & Eb).
  { clear -Hord. revert before Hord. induction T' as [|[it arr] T' IH]; intros [|b before]; cbn [map fst app];
      try discriminate.
    - intros [= -> _]. exists [], arr, T'. auto.
    - intros [= -> H]. destruct (IH _ H) as (Tb & arr' & Ta & -> & <-).
      exists ((b, arr) :: Tb), arr', Ta. auto. }
  assert (HTb : Forall (good_item o g) Tb) by (rewrite ET in HT'; apply Forall_app in HT'; tauto).
  assert (Hg : good_item o g ((mesh, d), arr)).
  { rewrite ET in HT'. apply Forall_app in HT' as [_ HT']. inversion HT'; auto. }
  destruct Hg as [Hl Hg]. cbn [fst snd] in Hl, Hg. destruct (Hg c Hc) as (k & (z & Hz & Hk) & Hb).
  exists k. split; auto. apply L3. exists z. split; auto.
  rewrite Hout, (pairs_snd o g) by auto. rewrite ET, flat_map_app.
  match goal with |- nth_error (?F ++ _) (length ?B + c)%nat = _ =>
    assert (Hlen : length F = length B)
      by (subst before; exact (flat_length o g Tb HTb)) end.
  rewrite <- Hlen, nth_error_app2 by apply Nat.le_add_r.
  rewrite Nat.add_comm, Nat.add_sub. cbn [flat_map snd].
  rewrite nth_error_app1; auto. lia.
Qed.

(* ---- get_cell_group ---- *)
Lemma get_cell_group_spec data d : NoDup (map snd d) ->
  match get_cell_group (Some data) (Some d) with
  | Ok (Some (inl names)) => length names = length data /\
      forall c k, nth_error names c = Some k <-> named d data c k
  | Err e => e = KeyError /\ exists c z, nth_error data c = Some z /\ forall k, ~ In (k, z) d
  | _ => False
  end.
Proof.
  intros Hn. unfold get_cell_group.
  set (f := fun i => match inv_get i d with Some k => Ok k | None => Err KeyError end).
  destruct (mapM f data) as [names|e] eqn:E; cbn [bind].
  - apply mapM_Ok in E. pose proof (Forall2_len _ _ _ E) as Hl. split; auto.
    intros c k. split.
    + intros Hk. assert (c < length data)%nat as Hc.
      { rewrite Hl. apply nth_error_Some. congruence. }
      destruct (nth_error data c) as [z|] eqn:Ez; [|apply nth_error_None in Ez; lia].
      destruct (Forall2_nth_error _ _ _ _ _ E Ez) as (k' & Hk' & Hf).
      assert (k' = k) as -> by congruence. exists z. split; auto.
      unfold f in Hf. destruct (inv_get z d) eqn:Ei; [|discriminate]. apply Ok_inj in Hf. subst.
      apply inv_get_In; auto.
    + intros (z & Hz & Hin). destruct (Forall2_nth_error _ _ _ _ _ E Hz) as (k' & Hk' & Hf).
      unfold f in Hf. rewrite (In_inv_get _ _ _ Hn Hin) in Hf. apply Ok_inj in Hf. congruence.
  - induction data as [|x data IH]; cbn [mapM] in E; [discriminate|].
    destruct (f x) as [k|e'] eqn:Ef; cbn [bind] in E.
    + destruct (mapM f data) as [ys|e''] eqn:Em; cbn [bind] in E; [discriminate|].
      injection E as ->. destruct (IH eq_refl) as (H1 & c & z & Hz & H2). split; auto.
      exists (S c), z. auto.
    + injection E as ->. unfold f in Ef. destruct (inv_get x d) eqn:Ei; [discriminate|].
      injection Ef as <-. split; auto. exists 0%nat, x. split; auto.
      intros k Hk. apply inv_get_None in Ei. apply Ei. apply (in_map snd) in Hk; auto.
Qed.

(* ---- remap_categorical_data ---- *)
Lemma upd_app_end {E} (h : list E) x y : upd (length h) y (h ++ [x]) = h ++ [y].
Proof. induction h; cbn; auto. f_equal; auto. Qed.

Lemma aget_aset {B} k (v : B) d k' : aget k' (aset k v d) = if String.eqb k' k then Some v else aget k' d.
Proof.
  induction d as [|[k1 v1] d IH]; cbn [aset aget].
  - destruct (String.eqb_spec k' k); auto.
  - destruct (String.eqb_spec k k1) as [->|N]; cbn [aget].
    + destruct (String.eqb_spec k' k1); auto.
    + destruct (String.eqb_spec k' k1) as [->|N'].
      * destruct (String.eqb_spec k1 k); congruence || auto.
      * auto.
Qed.

Lemma remap_copy h mesh key ms pref r h' :
  remap_categorical_data h mesh key ms pref false = (r, h') ->
  (forall i m, nth_error h i = Some m -> nth_error h' i = Some m) /\
  (forall x, r = Ok x -> x = Some (length h) /\ length h' = S (length h)).
Proof.
  unfold remap_categorical_data. destruct (nth_error h mesh) as [m|] eqn:Em.
  2:{ intros H; apply pair_equal_spec in H as [<- <-]. split; auto. discriminate. }
  match goal with |- (match ?X with Ok _ => _ | Err _ => _ end) = _ -> _ => destruct X as [[d|n]|e] end;
    try (intros H; apply pair_equal_spec in H as [<- <-]; split; [auto|discriminate]).
  assert (Happ : forall x i m0, nth_error h i = Some m0 -> nth_error (h ++ [x]) i = Some m0).
  { intros x i m0 H. rewrite nth_error_app1; auto. apply nth_error_Some; congruence. }
  destruct (remap_data d _ ms) as [[out labels']|e];
    intros H; apply pair_equal_spec in H as [<- <-]; [|split; [apply Happ|discriminate]].
  rewrite upd_app_end. split; [apply Happ|]. intros x [= <-]. split; auto.
  rewrite app_length. cbn. lia.
Qed.

Lemma remap_inplace h mesh key ms pref r h' :
  remap_categorical_data h mesh key ms pref true = (r, h') ->
  length h' = length h /\
  (forall i, i <> mesh -> nth_error h' i = nth_error h i) /\
  (forall x, r = Ok x -> x = None) /\
  (forall e, r = Err e -> h' = h).
Proof.
  unfold remap_categorical_data. destruct (nth_error h mesh) as [m|] eqn:Em.
  2:{ intros H; apply pair_equal_spec in H as [<- <-]. repeat split; auto. discriminate. }
  match goal with |- (match ?X with Ok _ => _ | Err _ => _ end) = _ -> _ => destruct X as [[d|n]|e] end;
    try (intros H; apply pair_equal_spec in H as [<- <-]; repeat split; auto; discriminate).
  destruct (remap_data d _ ms) as [[out labels']|e];
    intros H; apply pair_equal_spec in H as [<- <-]; [|repeat split; auto; discriminate].
  rewrite upd_length. split; auto. split; [|split; congruence].
  intros i Hi. rewrite upd_nth_error. destruct (Nat.eqb_spec mesh i); [congruence|]. auto.
Qed.

Lemma remap_same h mesh key ms pref r1 h1 r2 h2 :
  remap_categorical_data h mesh key ms pref true = (r1, h1) ->
  remap_categorical_data h mesh key ms pref false = (r2, h2) ->
  (forall e, r1 = Err e <-> r2 = Err e) /\
  (forall x, r1 = Ok x -> nth_error h1 mesh = nth_error h2 (length h)).
Proof.
  unfold remap_categorical_data. destruct (nth_error h mesh) as [m|] eqn:Em.
  2:{ intros H H'; apply pair_equal_spec in H as [<- <-]; apply pair_equal_spec in H' as [<- <-].
      split; [tauto|discriminate]. }
  match goal with |- (match ?X with Ok _ => _ | Err _ => _ end) = _ -> _ => destruct X as [[d|n]|e] end;
    try (intros H H'; apply pair_equal_spec in H as [<- <-]; apply pair_equal_spec in H' as [<- <-];
         split; [tauto|discriminate]).
  destruct (remap_data d _ ms) as [[out labels']|e];
    intros H H'; apply pair_equal_spec in H as [<- <-]; apply pair_equal_spec in H' as [<- <-];
    [|split; [tauto|discriminate]].
  split; [split; discriminate|]. intros x _. rewrite upd_app_end, nth_error_app2, Nat.sub_diag by lia.
  rewrite upd_nth_error, Nat.eqb_refl.
  assert (mesh < length h)%nat as Hlt by (apply nth_error_Some; congruence).
  apply Nat.ltb_lt in Hlt. rewrite Hlt. auto.
Qed.

(* what the remapped mesh holds *)
Lemma remap_result h mesh m key ms pref d :
  nth_error h mesh = Some m ->
  (pref = "cell"%string /\ aget key (cm_cell m) = Some (AInt d)) \/
  (pref = "point"%string /\ aget key (cm_point m) = Some (AInt d)) ->
  NoDup (map fst (lab_of (aget key (cm_user m)))) ->
  unambiguous (lab_of (aget key (cm_user m))) ms -> known_keys (lab_of (aget key (cm_user m))) ms ->
  exists x h' m' d', remap_categorical_data h mesh key ms pref false = (Ok (Some x), h') /\
    nth_error h' x = Some m' /\
    image_under (lab_of (aget key (cm_user m))) ms d d' /\
    (pref = "cell"%string -> aget key (cm_cell m') = Some (AInt d') /\ cm_point m' = cm_point m) /\
    (pref = "point"%string -> aget key (cm_point m') = Some (AInt d') /\ cm_cell m' = cm_cell m) /\
    (forall k, k <> key -> aget k (cm_cell m') = aget k (cm_cell m) /\
                           aget k (cm_point m') = aget k (cm_point m) /\
                           aget k (cm_user m') = aget k (cm_user m)).
Proof.
  intros Hm Hp Hn Hu Hk. unfold remap_categorical_data. rewrite Hm.
  destruct (remap_data_law d _ ms Hn Hu Hk) as (d' & l' & E & Him).
  assert (Huser : forall k, k <> key ->
    aget k (match l' with Some dd => aset key dd (cm_user m) | None => cm_user m end) = aget k (cm_user m)).
  { intros k Hk'. destruct l'; auto. rewrite aget_aset. destruct (String.eqb_spec k key); [contradiction|auto]. }
  destruct Hp as [[-> Hp]|[-> Hp]]; cbn [String.eqb Ascii.eqb Bool.eqb]; rewrite Hp, E, upd_app_end;
    eexists _, _, _, d'; (split; [reflexivity|]); rewrite nth_error_app2, Nat.sub_diag by lia;
    (split; [reflexivity|]); cbn [cm_cell cm_point cm_user]; (split; [exact Him|]).
  - split; [intros _; rewrite aget_aset, String.eqb_refl; auto|]. split; [discriminate|].
    intros k Hk'. rewrite aget_aset. destruct (String.eqb_spec k key); [contradiction|]. auto.
  - split; [discriminate|]. split; [intros _; rewrite aget_aset, String.eqb_refl; auto|].
    intros k Hk'. rewrite aget_aset. destruct (String.eqb_spec k key); [contradiction|]. auto.
Qed.

Lemma remap_rejects h mesh m key ms pref b :
  nth_error h mesh = Some m ->
  (pref <> "cell"%string /\ pref <> "point"%string) \/
  (pref = "cell"%string /\ exists n, aget key (cm_cell m) = Some (AOther n)) \/
  (pref = "point"%string /\ exists n, aget key (cm_point m) = Some (AOther n)) \/
  ((exists d, pref = "cell"%string /\ aget key (cm_cell m) = Some (AInt d) \/
              pref = "point"%string /\ aget key (cm_point m) = Some (AInt d)) /\
   exists s v, In (KStr s, v) ms /\ forall z, ~ In (s, z) (lab_of (aget key (cm_user m)))) ->
  fst (remap_categorical_data h mesh key ms pref b) = Err ValueError.
Proof.
  intros Hm Hc. unfold remap_categorical_data. rewrite Hm.
  destruct Hc as [[H1 H2]|[(-> & n & Hn)|[(-> & n & Hn)|[(d & H) (s & v & Hin & Hs)]]]].
  - destruct (String.eqb_spec pref "cell"); [contradiction|]. destruct (String.eqb_spec pref "point"); [contradiction|]. auto.
  - cbn [String.eqb Ascii.eqb Bool.eqb]. rewrite Hn. auto.
  - cbn [String.eqb Ascii.eqb Bool.eqb]. rewrite Hn. auto.
  - destruct H as [[-> H]|[-> H]]; cbn [String.eqb Ascii.eqb Bool.eqb]; rewrite H;
      destruct b; rewrite (remap_data_unknown _ _ _ _ _ Hin Hs); auto.
Qed.

(* ---- repeated generation ---- *)
Lemma initialize_unlabelled {A} o (mesh mesh' : gmesh A) g d :
  gm_cells mesh' = gm_cells mesh -> gm_labels mesh = None -> gm_labels mesh' = None ->
  initialize_group_array o mesh' g GNone d = initialize_group_array o mesh g GNone d.
Proof.
  intros E1 E2 E3. unfold initialize_group_array. rewrite E1, E2, E3.
  destruct (gm_cg mesh), (gm_cg mesh'); auto.
Qed.

Lemma merge_loop_repeat {A} o swap (items : list (merge_item A)) : forall acc g out g' its,
  Forall (fun it => gm_labels (fst it) = None) items ->
  merge_loop o swap items acc g = Ok (out, g', its) ->
  merge_loop o swap its acc g = Ok (out, g', its) /\ (items = [] <-> its = []).
Proof.
  induction items as [|[mesh d] items IH]; intros acc g out g' its Hl; cbn [merge_loop].
  - intros H%Ok_inj. apply pair_equal_spec in H as [H <-]. apply pair_equal_spec in H as [<- <-].
    cbn [merge_loop]. split; auto. tauto.
  - inversion Hl as [|? ? L1 L2]; subst. cbn [fst] in L1.
    destruct (initialize_group_array o mesh g GNone d) as [[arr g1]|] eqn:E; [|discriminate].
    cbn [bind].
    match goal with |- context[merge_loop o swap items (Some ?X) g1] => set (acc1 := X) end.
    destruct (merge_loop o swap items (Some acc1) g1) as [[[out1 g2] its1]|] eqn:E1; [|discriminate].
    cbn [bind]. intros H%Ok_inj. apply pair_equal_spec in H as [H <-]. apply pair_equal_spec in H as [<- <-].
    destruct (IH _ _ _ _ _ L2 E1) as [IH1 _]. split; [|split; discriminate].
    cbn [merge_loop]. rewrite (initialize_unlabelled o mesh) by auto. rewrite E. cbn [bind gm_cells].
    fold acc1. rewrite IH1. cbn [bind gm_labels]. auto.
Qed.

Lemma merge_repeat {A} o swap (items : list (merge_item A)) m its :
  Forall (fun it => gm_labels (fst it) = None) items ->
  merge_generate o swap items = Ok (m, its) -> merge_generate o swap its = Ok (m, its).
Proof.
  intros Hl. unfold merge_generate. destruct items as [|it items]; [discriminate|].
  destruct (merge_loop o swap (it :: items) None []) as [[[out g] its1]|] eqn:E; [|discriminate].
  cbn [bind]. destruct (clean_groups _ _) as [[cg labels]|] eqn:Ec; [|discriminate]. cbn [bind].
  intros H%Ok_inj. apply pair_equal_spec in H as [<- <-].
  destruct (merge_loop_repeat _ _ _ _ _ _ _ _ Hl E) as [E2 Hne].
  destruct its1 as [|it1 its1]; [destruct Hne as [_ Hne]; specialize (Hne eq_refl); discriminate|].
  rewrite E2. cbn [bind]. rewrite Ec. reflexivity.
Qed.
