(* The loop over the items of a Voronoi mesh. *)
From Coq Require Import Reals Permutation Sorted.
From Verif Require Import Prelude Groups_model Groups_spec Groups_proof Groups2_proof Surface_model.
From Verif Require Import Lines_spec Lines_model Lines1_proof Topo5_proof Polygon3_proof.
From Verif Require Import Voronoi_model Voronoi_spec Voronoi1_proof.
Open Scope nat_scope.

Section Loop.
Context {A : Type} (g : vgeo A) (o : options) (b : vbase A) (items : list (vitem A)).
Hypothesis WF : well_formed b items.
Let base := gm_cells (vb_mesh b).

Definition tagged (x : nat * vitem A) : Prop := nth_error items (fst x) = Some (snd x).

Definition oprio (s : site) : option Z :=
  match s_owner s with
  | Background => None
  | Item j => option_map (fun it => Z.abs (vi_prio it)) (nth_error items j)
  end.

(* L: sites with their activity; P: the items seen so far *)
Record inv (P : list (nat * vitem A)) (L : list (site * bool)) (st : vstate) (t : dict) : Prop := mkInv {
  i_pts : vs_pts st = map s_pt (map fst L);
  i_act : vs_active st = map snd L;
  i_grp : length (vs_groups st) = length L;
  i_pri : vs_prio st = map oprio (map fst L);
  i_own : forall s x j, In (s, x) L -> s_owner s = Item j -> In j (map fst P);
  i_live : forall s x, In (s, x) L -> (x = true <->
     forall y, In y P -> outranks items (fst y) (s_owner s) -> ~ covers g base (snd y) (s_pt s));
  i_num : numbered t;
  i_name : forall k s, nth_error L k = Some (s, true) ->
     exists name, named t (vs_groups st) k name /\ site_name o b items s name }.

(* outranking and order *)
Lemma lower_outranks x y s : tagged x -> tagged y -> s_owner s = Item (fst x) -> tlt x y ->
  lower (vi_prio (snd y)) (oprio s) = true <-> outranks items (fst y) (s_owner s).
Proof.
  intros Tx Ty Hs L. unfold oprio. rewrite Hs, Tx. cbn [option_map outranks lower].
  unfold tlt, tkey in L. split.
  - intros H. exists (snd y), (snd x). repeat split; auto.
    destruct (Z.leb_spec 0 (vi_prio (snd y))); [apply Z.leb_le in H|apply Z.ltb_lt in H]; lia.
  - intros (a & c & Ha & Hc & H). unfold tagged in *. rewrite Ty in Ha. rewrite Tx in Hc.
    injection Ha as <-. injection Hc as <-.
    destruct (Z.leb_spec 0 (vi_prio (snd y))); [apply Z.leb_le|apply Z.ltb_lt]; lia.
Qed.

Lemma not_outranks x y : tagged x -> tagged y -> tlt x y \/ x = y -> ~ outranks items (fst x) (Item (fst y)).
Proof.
  intros Tx Ty L (a & c & Ha & Hc & H). unfold tagged in *. rewrite Tx in Ha. rewrite Ty in Hc.
  injection Ha as <-. injection Hc as <-. destruct L as [L|<-]; [unfold tlt, tkey in L|]; lia.
Qed.

Lemma map2_map_map {U V W X Y} (f : V -> W -> X) (a : U -> V) (c : U -> W) (d : Y -> U) l :
  map2 f (map a (map d l)) (map c (map d l)) = map (fun u => f (a (d u)) (c (d u))) l.
Proof. induction l as [|x l IH]; [reflexivity|]. cbn. now rewrite IH. Qed.

Lemma mask_set_map {U V} (f : U -> bool) (a : U -> V) v l :
  mask_set v (map f l) (map a l) = map (fun u => if f u then v else a u) l.
Proof. induction l as [|x l IH]; [reflexivity|]. cbn. rewrite IH. now destruct (f x). Qed.

Lemma add_item_inv P L st t y st' t' : tagged y -> Forall tagged P ->
  (forall x, In x P -> tlt x y) -> inv P L st t ->
  add_item g o base (snd y) (st, t) = Ok (st', t') ->
  exists hit : site -> bool,
    inv (P ++ [y]) (map (fun '(s, x) => (s, x && negb (hit s))) L ++ map (fun s => (s, true)) (ksites g base (fst y) (snd y))) st' t'
    /\ extends t t'.
Proof.
  intros Ty TP HP I. destruct y as [i it]. cbn [fst snd] in *. unfold add_item.
  destruct (clip_item g base it) as [m poly] eqn:Ec.
  assert (Hit : In it items) by (eapply nth_error_In; exact Ty).
  destruct WF as [_ WFi]. destruct (WFi it Hit) as [Hal Hpl].
  assert (Ham := clip_aligned _ _ _ _ _ Ec Hal).
  destruct (initialize_group_array o m t (GStr (vi_group it)) "") as [[arr t1]|] eqn:Eg; [|discriminate]. cbn [bind].
  destruct (groups_extend _ _ _ _ _ _ _ (i_num _ _ _ _ I) Ham Eg) as [N1 X1].
  assert (Hlen : length arr = length (gm_cells m)) by (eapply every_cell_named; [apply (i_num _ _ _ _ I)|exact Ham|exact Eg]).
  assert (Hname : forall r s, nth_error (ksites g base i it) r = Some s ->
     exists name, named t1 arr r name /\ site_name o b items s name).
  { intros r s Hr. destruct (ksites_nth _ _ _ _ _ _ Hr) as (Ho & Hc & Hlt). rewrite Ec in Hlt. cbn [fst] in Hlt.
    destruct (String.eqb_spec (vi_group it) "") as [E|E].
    - rewrite E in Eg. change (initialize_group_array o m t (GStr "") "") with (initialize_group_array o m t GNone "") in Eg.
      destruct (base_groups_kept o m t "" (i_num _ _ _ _ I) Ham) as (arr' & t1' & E' & _ & Hn).
      rewrite Eg in E'. apply Ok_inj, pair_equal_spec in E' as [<- <-].
      destruct (Hn r Hlt) as (k & Hk & Hb). exists k. split; [exact Hk|].
      unfold site_name. rewrite Ho. exists it. split; [exact Ty|]. right. split; [exact E|].
      exact (clip_base_name _ _ _ _ _ _ _ _ _ _ Ec Hal Hc Hb).
    - destruct (string_group_overrides o m t (vi_group it) "" (i_num _ _ _ _ I) Ham E Hpl) as (arr' & t1' & E' & _ & Hn).
      rewrite Eg in E'. apply Ok_inj, pair_equal_spec in E' as [<- <-].
      exists (vi_group it). split; [auto|]. unfold site_name. rewrite Ho. exists it. split; [exact Ty|]. left. auto. }
  assert (Kl := ksites_length g base i it). rewrite Ec in Kl. cbn [fst] in Kl.
  assert (Kp := ksites_pts g base i it). rewrite Ec in Kp. cbn [fst] in Kp.
  assert (Ko : forall s, In s (ksites g base i it) -> s_owner s = Item i).
  { intros s Hs. apply In_nth_error in Hs as (r & Hr). apply (ksites_nth _ _ _ _ _ _ Hr). }
  assert (MAIN : forall (hit : site -> bool) active garr,
    (forall s x, In (s, x) L -> (hit s = true <-> covers g base it (s_pt s) /\ outranks items i (s_owner s))) ->
    active = map (fun '(s, x) => x && negb (hit s)) L -> length garr = length L ->
    (forall k s, nth_error L k = Some (s, true) -> hit s = false -> nth_error garr k = nth_error (vs_groups st) k) ->
    inv (P ++ [(i, it)]) (map (fun '(s, x) => (s, x && negb (hit s))) L ++ map (fun s => (s, true)) (ksites g base i it))
      (mkVS (vs_pts st ++ map (vg_center g) (gm_cells m)) (active ++ repeat true (length (gm_cells m)))
            (garr ++ arr) (vs_prio st ++ repeat (Some (Z.abs (vi_prio it))) (length (gm_cells m)))) t1).
  { intros hit active garr Hhit Eact Lg Hg.
    assert (F1 : map fst (map (fun '(s, x) => (s, x && negb (hit s))) L) = map fst L).
    { rewrite map_map. apply map_ext. now intros [s x]. }
    assert (F2 : map fst (map (fun s : site => (s, true)) (ksites g base i it)) = ksites g base i it).
    { rewrite map_map. cbn. apply map_id. }
    constructor; cbn [vs_pts vs_active vs_groups vs_prio].
    - rewrite map_app, F1, F2, map_app, Kp, (i_pts _ _ _ _ I). reflexivity.
    - rewrite map_app. f_equal.
      + rewrite Eact, map_map. apply map_ext. now intros [s x].
      + rewrite map_map. cbn. rewrite <- Kl. clear. induction (ksites g base i it); [reflexivity|]. cbn. now rewrite IHl.
    - rewrite !app_length, !map_length, Kl, Lg, Hlen. reflexivity.
    - rewrite map_app, F1, F2, map_app, (i_pri _ _ _ _ I). f_equal. rewrite <- Kl.
      assert (Q : forall s, In s (ksites g base i it) -> oprio s = Some (Z.abs (vi_prio it))).
      { intros s Hs. unfold oprio. rewrite (Ko s Hs), Ty. reflexivity. }
      revert Q. clear. induction (ksites g base i it) as [|s l IH]; intros Q; [reflexivity|]. cbn.
      rewrite (Q s (or_introl eq_refl)), IH; [reflexivity|]. intros; apply Q; now right.
    - intros s x j Hin Hj. rewrite map_app. apply in_or_app. apply in_app_or in Hin as [Hin|Hin].
      + apply in_map_iff in Hin as ([s0 x0] & [= -> <-] & Hin). left. eapply (i_own _ _ _ _ I); eauto.
      + apply in_map_iff in Hin as (s0 & [= -> <-] & Hin). right. rewrite (Ko s Hin) in Hj. injection Hj as <-. now left.
    - intros s x Hin. apply in_app_or in Hin as [Hin|Hin].
      + apply in_map_iff in Hin as ([s0 x0] & E & Hin). injection E as -> <-.
        assert (Live := i_live _ _ _ _ I s x0 Hin). assert (H := Hhit s x0 Hin).
        rewrite andb_true_iff, negb_true_iff, Live. split.
        * intros [Q Hn] y [Hy|[<-|[]]]%in_app_or; [auto|]. cbn [fst snd]. intros O C.
          rewrite (proj2 H (conj C O)) in Hn. discriminate.
        * intros Q. split; [intros y Hy; apply Q; apply in_or_app; now left|].
          destruct (hit s) eqn:Eh; [|reflexivity]. destruct (proj1 H eq_refl) as [C O]. exfalso.
          apply (Q (i, it)); auto. apply in_or_app. right. now left.
      + apply in_map_iff in Hin as (s0 & E & Hin). injection E as -> <-. split; [|auto]. intros _ y Hy O _.
        rewrite (Ko s Hin) in O. revert O. change i with (fst (i, it)). rewrite Forall_forall in TP.
        apply in_app_or in Hy as [Hy|[<-|[]]]; apply not_outranks; auto.
    - exact N1.
    - intros k s Hk. destruct (lt_dec k (length L)) as [Hlt|Hge].
      + rewrite nth_error_app1 in Hk by (rewrite map_length; exact Hlt).
        rewrite nth_error_map in Hk. destruct (nth_error L k) as [[s0 x0]|] eqn:E0; [|discriminate].
        cbn in Hk. injection Hk as -> Hx. apply andb_true_iff in Hx as [-> Hh%negb_true_iff].
        destruct (i_name _ _ _ _ I k s E0) as (name & (z & Hz & Hin) & Hs).
        exists name. split; [|exact Hs]. exists z. split.
        * rewrite nth_error_app1 by (rewrite Lg; exact Hlt). rewrite (Hg k s E0 Hh). exact Hz.
        * destruct X1 as [ext ->]. apply in_or_app. now left.
      + rewrite nth_error_app2 in Hk by (rewrite map_length; lia). rewrite map_length, nth_error_map in Hk.
        destruct (nth_error (ksites g base i it) (k - length L)) as [s0|] eqn:E0; [|discriminate].
        cbn in Hk. injection Hk as ->. destruct (Hname _ _ E0) as (name & (z & Hz & Hin) & Hs).
        exists name. split; [|exact Hs]. exists z. split; [|exact Hin].
        rewrite nth_error_app2 by (rewrite Lg; lia). rewrite Lg. exact Hz. }
  destruct poly.
  - cbn [bind]. intros H. apply Ok_inj, pair_equal_spec in H as [<- <-]. exists (fun _ => false). split; [|exact X1].
    apply MAIN.
    + intros s x Hin. rewrite (covers_spec _ _ _ _ _ _ Ec). split; [discriminate|]. intros [[D _] _]. discriminate.
    + rewrite (i_act _ _ _ _ I). apply map_ext. intros [s x]. cbn. now rewrite andb_true_r.
    + apply (i_grp _ _ _ _ I).
    + reflexivity.
  - destruct ((length (gm_cells m) =? 0) && _); [discriminate|]. cbn [bind].
    intros H. apply Ok_inj, pair_equal_spec in H as [<- <-].
    set (hit := fun s : site => found (vg_find g (gm_cells m) (s_pt s)) && lower (vi_prio it) (oprio s)).
    exists hit. split; [|exact X1].
    assert (Em : map2 (fun p q => found (vg_find g (gm_cells m) p) && lower (vi_prio it) q) (vs_pts st) (vs_prio st) =
                 map (fun u => hit (fst u)) L).
    { rewrite (i_pts _ _ _ _ I), (i_pri _ _ _ _ I), map2_map_map. reflexivity. }
    rewrite Em. apply MAIN.
    + intros s x Hin. unfold hit. rewrite andb_true_iff, (covers_spec _ _ _ _ _ (s_pt s) Ec).
      assert (Q : lower (vi_prio it) (oprio s) = true <-> outranks items i (s_owner s)).
      { destruct (s_owner s) as [|j] eqn:Eo.
        - unfold oprio. rewrite Eo. cbn. tauto.
        - assert (Hj := i_own _ _ _ _ I s x j Hin Eo). apply in_map_iff in Hj as (p & <- & Hp).
          rewrite <- Eo. rewrite Forall_forall in TP.
          apply (lower_outranks p (i, it) s (TP p Hp) Ty Eo). auto. }
      rewrite Q. tauto.
    + rewrite (i_act _ _ _ _ I), mask_set_map. apply map_ext. intros [s x]. cbn. destruct (hit s); cbn.
      * now rewrite andb_false_r. * now rewrite andb_true_r.
    + rewrite mask_set_length. apply (i_grp _ _ _ _ I).
    + intros k s Hk Hh. rewrite mask_set_nth_error, nth_error_map, Hk by (rewrite map_length, (i_grp _ _ _ _ I); reflexivity).
      cbn. rewrite Hh. now destruct (nth_error (vs_groups st) k).
Qed.

Lemma add_items_inv T : forall P L st t st' t', Forall tagged (P ++ T) ->
  StronglySorted tlt (P ++ T) -> inv P L st t ->
  add_items g o base (map snd T) (st, t) = Ok (st', t') ->
  exists L', inv (P ++ T) L' st' t' /\
    map fst L' = map fst L ++ concat (map (fun y => ksites g base (fst y) (snd y)) T).
Proof.
  induction T as [|y T IH]; intros P L st t st' t' HT HS I; cbn [map add_items].
  - intros H. apply Ok_inj, pair_equal_spec in H as [<- <-]. exists L. rewrite app_nil_r. cbn. rewrite app_nil_r. auto.
  - destruct (add_item g o base (snd y) (st, t)) as [[st1 t1]|] eqn:E; [|discriminate]. cbn [bind]. intros H.
    assert (TP : Forall tagged P) by (apply Forall_app in HT; tauto).
    assert (Ty : tagged y) by (apply Forall_app in HT as [_ HT]; now inversion HT).
    assert (HP : forall x, In x P -> tlt x y).
    { intros x Hx. clear - HS Hx. induction P as [|p P IHP]; [easy|]. cbn in HS. apply StronglySorted_inv in HS as [HS Hp].
      destruct Hx as [->|Hx]; [|auto]. rewrite Forall_forall in Hp. apply Hp. apply in_or_app. right. now left. }
    destruct (add_item_inv _ _ _ _ _ _ _ Ty TP HP I E) as (hit & I1 & _).
    replace (P ++ y :: T) with ((P ++ [y]) ++ T) in * by (rewrite <- app_assoc; reflexivity).
    destruct (IH _ _ _ _ _ _ HT HS I1 H) as (L' & I' & E'). exists L'. split; [exact I'|].
    rewrite E', map_app, !map_map. cbn [concat]. rewrite app_assoc. f_equal. f_equal.
    + apply map_ext. now intros [s x].
    + cbn. apply map_id.
Qed.

Definition bsites (pts : list pt) : list site :=
  map2 (fun n p => mkSite Background n p) (seq 0 (length pts)) pts.

Lemma bsites_spec pts : map s_pt (bsites pts) = pts /\ map s_cell (bsites pts) = seq 0 (length pts) /\
  length (bsites pts) = length pts /\ Forall (fun s => s_owner s = Background) (bsites pts).
Proof.
  unfold bsites. generalize 0. induction pts as [|p pts IH]; intros a; [repeat split; constructor|].
  cbn [length seq map2 map s_pt s_cell]. destruct (IH (S a)) as (-> & -> & -> & F). repeat split. constructor; auto.
Qed.

Lemma bsites_nth pts k s : nth_error (bsites pts) k = Some s -> s_owner s = Background /\ s_cell s = k /\ k < length pts.
Proof.
  unfold bsites. rewrite map2_nth_error, nth_error_seq. destruct (k <? length pts) eqn:E; [|discriminate].
  apply Nat.ltb_lt in E. destruct (nth_error pts k); [|discriminate]. intros [= <-]. auto.
Qed.

Lemma start_inv st t : start g o b = Ok (st, t) ->
  exists L, inv [] L st t /\ base_sites g b (map fst L).
Proof.
  intros H. destruct WF as [WFb _].
  assert (M : exists pts arr, st = mkVS pts (repeat true (length pts)) arr (repeat None (length pts)) /\
    length arr = length pts /\ numbered t /\
    pts = match vb_pref b with PrefCell => map (vg_center g) (gm_cells (vb_mesh b)) | PrefPoint => vb_points b end /\
    forall k, k < length pts -> exists name, named t arr k name /\ site_name o b items (mkSite Background k (0,0,0)%R) name).
  { unfold start in H. unfold site_name. cbn [s_owner s_cell]. destruct (vb_pref b).
    - destruct (base_groups_kept o (vb_mesh b) [] "" numbered_nil WFb) as (arr & t0 & E & Hl & Hn).
      assert (N := groups_extend _ _ _ _ _ _ _ numbered_nil WFb E).
      rewrite E in H. cbn [bind] in H. apply Ok_inj, pair_equal_spec in H as [<- <-].
      eexists _, arr. split; [reflexivity|]. rewrite map_length. repeat split; auto; try apply N.
    - destruct (initialize_group_array_size o (length (vb_points b)) [] "") as [arr t0] eqn:E.
      apply Ok_inj, pair_equal_spec in H as [<- <-].
      destruct (groups_extend_size _ _ _ _ _ _ numbered_nil E) as (N & _ & Hl & Hn).
      eexists _, arr. split; [reflexivity|]. repeat split; auto; try apply N.
      intros k Hk. exists (default_group o). split; [|reflexivity]. apply (Hn k Hk). }
  destruct M as (pts & arr & -> & Hl & N & Ep & Hn).
  destruct (bsites_spec pts) as (B1 & B2 & B3 & B4).
  exists (map (fun s => (s, true)) (bsites pts)).
  assert (F : map fst (map (fun s : site => (s, true)) (bsites pts)) = bsites pts).
  { rewrite map_map. cbn. apply map_id. }
  split.
  - constructor; cbn [vs_pts vs_active vs_groups vs_prio]; rewrite ?F.
    + auto.
    + rewrite map_map. cbn. rewrite <- B3. clear. induction (bsites pts); [reflexivity|]. cbn. now rewrite IHl.
    + rewrite map_length. congruence.
    + rewrite <- B3. clear - B4. induction B4 as [|s l Hs _ IH]; [reflexivity|]. cbn. rewrite <- IH. unfold oprio. now rewrite Hs.
    + intros s x j Hin Hj. apply in_map_iff in Hin as (s0 & [= -> _] & Hin). rewrite Forall_forall in B4.
      rewrite (B4 s Hin) in Hj. discriminate.
    + intros s x Hin. apply in_map_iff in Hin as (s0 & [= -> <-] & Hin). split; [|auto]. intros _ y [].
    + exact N.
    + intros k s Hk. rewrite nth_error_map in Hk. destruct (nth_error (bsites pts) k) as [s0|] eqn:E0; [|discriminate].
      cbn in Hk. injection Hk as ->. destruct (bsites_nth _ _ _ E0) as (Ho & Hc & Hlt).
      destruct (Hn k Hlt) as (name & Hna & Hs). exists name. split; [exact Hna|].
      unfold site_name in *. cbn [s_owner s_cell] in Hs. rewrite Ho, Hc. exact Hs.
  - rewrite F. unfold base_sites. rewrite B1, B2, B3. auto.
Qed.

Lemma combine_tagged : Forall tagged (combine (seq 0 (length items)) items).
Proof.
  apply Forall_forall. intros [i it] Hin. unfold tagged. cbn.
  assert (X : forall (l : list (vitem A)) a, In (i, it) (combine (seq a (length l)) l) -> exists k, i = a + k /\ nth_error l k = Some it).
  { induction l as [|x l IH]; intros a H; [easy|]. cbn in H. destruct H as [[= <- <-]|H].
    - exists 0. split; [lia|reflexivity].
    - destruct (IH _ H) as (k & -> & Hk). exists (S k). split; [lia|exact Hk]. }
  destruct (X items 0 Hin) as (k & -> & Hk). exact Hk.
Qed.

Lemma seq_sorted a n : StronglySorted lt (seq a n).
Proof.
  revert a. induction n as [|n IH]; intros a; cbn [seq]; constructor; auto.
  apply Forall_forall. intros i Hi%in_seq. lia.
Qed.

Lemma scatter_spec st t : scatter g o b items = Ok (st, t) ->
  exists S, candidates g b items S /\ vs_pts st = map s_pt S /\
    length (vs_active st) = length S /\ length (vs_groups st) = length S /\ length (vs_prio st) = length S /\
    numbered t /\
    forall k s, nth_error S k = Some s ->
      (nth_error (vs_active st) k = Some true <-> ~ covered g b items s) /\
      (nth_error (vs_active st) k = Some true ->
       exists name, named t (vs_groups st) k name /\ site_name o b items s name).
Proof.
  unfold scatter. destruct (start g o b) as [[st0 t0]|] eqn:E; [|discriminate]. cbn [bind].
  destruct (start_inv _ _ E) as (L0 & I0 & B0).
  set (T := tsort (combine (seq 0 (length items)) items)).
  assert (Ec : map snd (combine (seq 0 (length items)) items) = items).
  { apply map_snd_combine. now rewrite seq_length. }
  assert (Ef : map fst (combine (seq 0 (length items)) items) = seq 0 (length items)).
  { apply map_fst_combine. now rewrite seq_length. }
  replace (vsort items) with (map snd T) by (unfold T; rewrite tsort_snd, Ec; reflexivity).
  assert (TT : Forall tagged T).
  { eapply Permutation_Forall; [symmetry; apply tsort_perm|]. apply combine_tagged. }
  assert (TS : StronglySorted tlt T) by (apply tsort_sorted; rewrite Ef; apply seq_sorted).
  intros H. destruct (add_items_inv T [] L0 st0 t0 st t TT TS I0 H) as (L & I & EL). cbn [app] in I.
  exists (map fst L).
  assert (Len : length (map fst L) = length L) by apply map_length.
  assert (TP : Permutation (map fst T) (seq 0 (length items))).
  { rewrite <- Ef. apply Permutation_map, tsort_perm. }
  split; [|split; [|split; [|split; [|split; [|split]]]]].
  - exists (map fst T), (map fst L0), (map (fun y => ksites g base (fst y) (snd y)) T).
    split; [split|split; [exact B0|split; [|exact EL]]].
    + exact TP.
    + clear - TT TS. induction TS as [|y T _ IH Hy]; [constructor|]. cbn. inversion TT as [|? ? Ty TT']; subst.
      constructor; [auto|]. rewrite Forall_map. rewrite Forall_forall in *. intros z Hz.
      exists (snd y), (snd z). repeat split; auto; [apply TT'; auto|]. apply (Hy z Hz).
    + clear - TT. induction TT as [|y T Ty _ IH]; [constructor|]. cbn. constructor; [|exact IH].
      exists (snd y). split; [exact Ty|]. apply ksites_item.
  - apply (i_pts _ _ _ _ I).
  - rewrite (i_act _ _ _ _ I), !map_length. reflexivity.
  - rewrite (i_grp _ _ _ _ I). lia.
  - rewrite (i_pri _ _ _ _ I), !map_length. reflexivity.
  - apply (i_num _ _ _ _ I).
  - intros k s Hk. rewrite nth_error_map in Hk. destruct (nth_error L k) as [[s0 x]|] eqn:Ek; [|discriminate].
    cbn in Hk. injection Hk as ->. rewrite (i_act _ _ _ _ I), nth_error_map, Ek. cbn [option_map snd].
    assert (Live := i_live _ _ _ _ I s x (nth_error_In _ _ Ek)). split.
    + split.
      * intros [= ->] (i & it & Hi & O & C). apply (proj1 Live eq_refl (i, it)); auto.
        assert (In i (map fst T)).
        { eapply Permutation_in; [symmetry; exact TP|]. apply in_seq. split; [lia|]. cbn. apply nth_error_Some. congruence. }
        apply in_map_iff in H0 as ([i' it'] & Ei & Hin). cbn in Ei. subst i'.
        rewrite Forall_forall in TT. assert (Q := TT _ Hin). unfold tagged in Q. cbn in Q. rewrite Hi in Q.
        injection Q as <-. exact Hin.
      * intros N. f_equal. apply Live. intros y Hy O C. apply N. exists (fst y), (snd y).
        rewrite Forall_forall in TT. split; [exact (TT y Hy)|auto].
    + intros [= ->]. apply (i_name _ _ _ _ I k s Ek).
Qed.

(* every item with a cell is accepted *)
Lemma scatter_defined :
  (forall it, In it items -> gm_cells (vi_mesh it) <> [] \/ vi_poly it = true) ->
  exists r, scatter g o b items = Ok r.
Proof.
  intros HN. destruct WF as [WFb WFi]. unfold scatter.
  assert (exists st t, start g o b = Ok (st, t) /\ numbered t) as (st & t & -> & N).
  { unfold start. destruct (vb_pref b).
    - destruct (base_groups_kept o (vb_mesh b) [] "" numbered_nil WFb) as (arr & t0 & E & _).
      rewrite E. cbn [bind]. eexists _, _. split; [reflexivity|]. apply (groups_extend _ _ _ _ _ _ _ numbered_nil WFb E).
    - destruct (initialize_group_array_size o (length (vb_points b)) [] "") as [arr t0] eqn:E.
      eexists _, _. split; [reflexivity|]. apply (groups_extend_size _ _ _ _ _ _ numbered_nil E). }
  cbn [bind].
  assert (HI : forall it, In it (vsort items) -> In it items).
  { intros it. assert (Ec : map snd (combine (seq 0 (length items)) items) = items).
    { apply map_snd_combine. now rewrite seq_length. }
    rewrite <- Ec at 1. rewrite <- tsort_snd. intros H. rewrite <- Ec.
    eapply Permutation_in; [|exact H]. apply Permutation_map, tsort_perm. }
  revert HI st t N. fold base. generalize (vsort items) as l. induction l as [|it l IH]; intros HI st t N; cbn [add_items]; [eauto|].
  assert (Hit := HI it (or_introl eq_refl)). destruct (WFi it Hit) as [Hal Hpl].
  assert (exists st1 t1, add_item g o base it (st, t) = Ok (st1, t1) /\ numbered t1) as (st1 & t1 & -> & N1).
  { unfold add_item. destruct (clip_item g base it) as [m poly] eqn:Ec.
    assert (Ham := clip_aligned _ _ _ _ _ Ec Hal).
    assert (exists arr t1, initialize_group_array o m t (GStr (vi_group it)) "" = Ok (arr, t1)) as (arr & t1 & Eg).
    { destruct (String.eqb_spec (vi_group it) "") as [E|E].
      - rewrite E. destruct (base_groups_kept o m t "" N Ham) as (arr & t1 & E1 & _). eauto.
      - destruct (string_group_overrides o m t (vi_group it) "" N Ham E Hpl) as (arr & t1 & E1 & _). eauto. }
    rewrite Eg. cbn [bind]. assert (N1 := proj1 (groups_extend _ _ _ _ _ _ _ N Ham Eg)).
    destruct poly; [cbn [bind]; eauto|].
    destruct (Nat.eqb_spec (length (gm_cells m)) 0) as [E0|E0]; cbn [andb]; [|cbn [bind]; eauto].
    exfalso. destruct (clip_retained _ _ _ _ _ Ec) as [R Pp].
    destruct (gm_cells m) as [|? ?] eqn:Em; [|discriminate]. rewrite <- Em in *. clear E0.
    destruct R as [[(c & Hc & Hi) (f & Hf & Ek)]|[Hno Ek]].
    - assert (In c (gm_cells m)); [|now rewrite Em in H]. rewrite Ek. apply filter_In. split; [auto|]. now apply Hf.
    - destruct (proj1 Pp eq_refl) as [D|(c & Hc & Hi)]; [|exact (Hno c Hc Hi)].
      destruct (HN it Hit) as [D'|D']; congruence. }
  cbn [bind]. apply IH; auto. intros; apply HI; now right.
Qed.
End Loop.
