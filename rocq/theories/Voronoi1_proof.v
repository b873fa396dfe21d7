(* Candidate points of a Voronoi mesh: order, names and activity. *)
From Coq Require Import Reals Permutation Sorted.
From Verif Require Import Prelude Groups_model Groups_spec Groups_proof Groups2_proof Surface_model.
From Verif Require Import Lines_spec Lines_model Lines1_proof Topo5_proof Polygon3_proof.
From Verif Require Import Voronoi_model Voronoi_spec.
Open Scope nat_scope.

(* ---- sorting ---- *)
Definition tkey {A} (x : nat * vitem A) : Z := Z.abs (vi_prio (snd x)).
Fixpoint tinsert {A} (x : nat * vitem A) (l : list (nat * vitem A)) :=
  match l with
  | [] => [x]
  | y :: l' => if (tkey x <=? tkey y)%Z then x :: l else y :: tinsert x l'
  end.
Fixpoint tsort {A} (l : list (nat * vitem A)) :=
  match l with [] => [] | x :: l' => tinsert x (tsort l') end.

Lemma tinsert_snd {A} (x : nat * vitem A) l : map snd (tinsert x l) = vinsert (snd x) (map snd l).
Proof.
  induction l as [|y l IH]; [reflexivity|]. cbn [tinsert vinsert map]. unfold tkey at 1 2.
  destruct (_ <=? _)%Z; cbn [map]; [reflexivity|]. now rewrite IH.
Qed.

Lemma tsort_snd {A} (l : list (nat * vitem A)) : map snd (tsort l) = vsort (map snd l).
Proof. induction l as [|x l IH]; [reflexivity|]. cbn [tsort vsort map]. now rewrite tinsert_snd, IH. Qed.

Lemma tinsert_perm {A} (x : nat * vitem A) l : Permutation (tinsert x l) (x :: l).
Proof.
  induction l as [|y l IH]; cbn [tinsert]; [auto|]. destruct (_ <=? _)%Z; [auto|].
  rewrite IH. apply perm_swap.
Qed.

Lemma tsort_perm {A} (l : list (nat * vitem A)) : Permutation (tsort l) l.
Proof. induction l as [|x l IH]; [auto|]. cbn [tsort]. now rewrite tinsert_perm, IH. Qed.

Definition tlt {A} (x y : nat * vitem A) : Prop := (tkey x < tkey y \/ tkey x = tkey y /\ (fst x < fst y)%nat)%Z.

Lemma tlt_trans {A} (x y z : nat * vitem A) : tlt x y -> tlt y z -> tlt x z.
Proof. unfold tlt. lia. Qed.

Lemma tinsert_sorted {A} (x : nat * vitem A) l : (forall y, In y l -> fst x < fst y) ->
  StronglySorted tlt l -> StronglySorted tlt (tinsert x l).
Proof.
  induction l as [|y l IH]; intros Hx Hs; cbn [tinsert]; [repeat constructor|].
  apply StronglySorted_inv in Hs as [Hs Hy].
  destruct (Z.leb_spec (tkey x) (tkey y)) as [E|E].
  - constructor; [constructor; auto|]. constructor.
    + unfold tlt. specialize (Hx y (or_introl eq_refl)). lia.
    + assert (T : tlt x y) by (unfold tlt; specialize (Hx y (or_introl eq_refl)); lia).
      eapply Forall_impl; [|exact Hy]. intros z. now apply tlt_trans.
  - constructor; [apply IH; auto; intros; apply Hx; now right|].
    eapply Permutation_Forall; [symmetry; apply tinsert_perm|]. constructor; auto. left. lia.
Qed.

Lemma tsort_sorted {A} (l : list (nat * vitem A)) : StronglySorted lt (map fst l) ->
  StronglySorted tlt (tsort l).
Proof.
  induction l as [|x l IH]; intros H; cbn [tsort map] in *; [constructor|].
  apply StronglySorted_inv in H as [H Hx]. apply tinsert_sorted; [|auto].
  intros y Hy. apply (Permutation_in _ (tsort_perm l)) in Hy.
  rewrite Forall_forall in Hx. apply Hx. now apply in_map.
Qed.

(* ---- retained cells ---- *)
Section Retained.
Context {A : Type} (g : vgeo A) (base : list A).

Definition insideb (c : A) : bool := found (vg_find g base (vg_center g c)).

Lemma insideb_spec c : insideb c = true <-> inside g base (vg_center g c).
Proof.
  unfold insideb, inside, found. destruct (vg_find g base (vg_center g c)); split; congruence.
Qed.

Lemma retained_unique cells k k' : retained g base cells k -> retained g base cells k' -> k = k'.
Proof.
  intros [[(c & Hc & Hi) (f & Hf & ->)]|[H ->]] [[(c' & Hc' & Hi') (f' & Hf' & ->)]|[H' ->]].
  - apply filter_ext. intros a. specialize (Hf a). specialize (Hf' a).
    destruct (f a), (f' a); try reflexivity; tauto || (exfalso; intuition discriminate).
  - exfalso. now apply (H' c Hc).
  - exfalso. now apply (H c' Hc').
  - reflexivity.
Qed.

Lemma mask_get_filter {B} (f : B -> bool) l : mask_get (map f l) l = filter f l.
Proof. induction l as [|x l IH]; [reflexivity|]. cbn. rewrite IH. now destruct (f x). Qed.

Lemma existsb_id (f : A -> bool) l : existsb (fun b : bool => b) (map f l) = true <-> exists x, In x l /\ f x = true.
Proof.
  rewrite existsb_exists. split.
  - intros (b & Hb & ->). apply in_map_iff in Hb as (x & <- & Hx). eauto.
  - intros (x & Hx & E). exists true. split; auto. rewrite <- E. now apply in_map.
Qed.

Lemma clip_retained it m poly : clip_item g base it = (m, poly) ->
  retained g base (gm_cells (vi_mesh it)) (gm_cells m) /\
  (poly = false <-> vi_poly it = false \/ exists c, In c (gm_cells (vi_mesh it)) /\ inside g base (vg_center g c)).
Proof.
  unfold clip_item. change (map _ (gm_cells (vi_mesh it))) with (map insideb (gm_cells (vi_mesh it))).
  destruct (existsb _ _) eqn:E; intros H; apply pair_equal_spec in H as [<- <-].
  - apply existsb_id in E as (c & Hc & Hi). apply insideb_spec in Hi. split.
    + left. split; [eauto|]. exists insideb. split; [apply insideb_spec|]. apply mask_get_filter.
    + split; eauto.
  - assert (N : forall c, In c (gm_cells (vi_mesh it)) -> ~ inside g base (vg_center g c)).
    { intros c Hc Hi. apply insideb_spec in Hi.
      assert (existsb (fun b : bool => b) (map insideb (gm_cells (vi_mesh it))) = true); [|congruence].
      apply existsb_id. eauto. }
    split; [right; auto|]. split; [auto|]. intros [H|(c & Hc & Hi)]; [auto|]. exfalso. eapply N; eauto.
Qed.

Lemma covers_spec it m poly p : clip_item g base it = (m, poly) ->
  covers g base it p <-> poly = false /\ found (vg_find g (gm_cells m) p) = true.
Proof.
  intros H. destruct (clip_retained _ _ _ H) as [R P]. split.
  - intros (kept & Rk & F & D). apply P in D. split; [auto|].
    rewrite (retained_unique _ _ _ R Rk). unfold found. destruct (vg_find _ _ _); congruence.
  - intros [D F]. apply P in D. exists (gm_cells m). repeat split; auto.
    unfold found in F. destruct (vg_find _ _ _); congruence.
Qed.

(* cell numbers of the retained cells *)
Definition clip_ids (it : vitem A) : list nat :=
  let mask := map insideb (gm_cells (vi_mesh it)) in
  if existsb (fun b => b) mask then mask_get mask (seq 0 (length (gm_cells (vi_mesh it))))
  else seq 0 (length (gm_cells (vi_mesh it))).

Lemma clip_ids_sorted it : StronglySorted lt (clip_ids it).
Proof.
  unfold clip_ids. destruct (existsb _ _).
  - replace (length (gm_cells (vi_mesh it))) with (length (map insideb (gm_cells (vi_mesh it)))) by apply map_length.
    apply mask_get_seq_sorted.
  - generalize 0. induction (length _) as [|n IH]; intros a; cbn [seq]; constructor; auto.
    apply Forall_forall. intros i Hi%in_seq. lia.
Qed.

Lemma seq_picks {B} (l : list B) : picks l (seq 0 (length l)) l.
Proof. assert (H := picks_seq [] l []). rewrite app_nil_r in H. exact H. Qed.

Lemma clip_picks it m poly : clip_item g base it = (m, poly) ->
  picks (gm_cells (vi_mesh it)) (clip_ids it) (gm_cells m) /\
  forall cg, gm_cg (vi_mesh it) = Some cg -> length cg = length (gm_cells (vi_mesh it)) ->
  exists cg', gm_cg m = Some cg' /\ picks cg (clip_ids it) cg'.
Proof.
  unfold clip_item, clip_ids. change (map _ (gm_cells (vi_mesh it))) with (map insideb (gm_cells (vi_mesh it))).
  set (mask := map insideb (gm_cells (vi_mesh it))).
  assert (Lm : length mask = length (gm_cells (vi_mesh it))) by apply map_length. clearbody mask.
  destruct (existsb _ mask); intros H; apply pair_equal_spec in H as [<- <-].
  - rewrite <- Lm. split.
    + assert (Q := mask_get_picks mask (gm_cells (vi_mesh it)) Lm []). exact Q.
    + intros cg Hcg Hl. cbn [extract_mask gm_cg]. rewrite Hcg. cbn [option_map]. eexists. split; [reflexivity|].
      assert (Q := mask_get_picks mask cg ltac:(lia) []). exact Q.
  - split; [apply seq_picks|]. intros cg Hcg Hl. exists cg. split; auto. rewrite <- Hl. apply seq_picks.
Qed.

Lemma clip_labels it m poly : clip_item g base it = (m, poly) ->
  gm_labels m = gm_labels (vi_mesh it) /\ (gm_cg m = None <-> gm_cg (vi_mesh it) = None).
Proof.
  unfold clip_item. destruct (existsb _ _); intros H; apply pair_equal_spec in H as [<- <-]; split; try reflexivity.
  cbn. destruct (gm_cg (vi_mesh it)); cbn; split; congruence.
Qed.

Lemma clip_aligned it m poly : clip_item g base it = (m, poly) -> aligned (vi_mesh it) -> aligned m.
Proof.
  intros H Ha. unfold aligned in *. destruct (clip_picks _ _ _ H) as [P Q]. destruct (clip_labels _ _ _ H) as [_ L].
  destruct (gm_cg (vi_mesh it)) as [cg|] eqn:E.
  - destruct (Q cg eq_refl Ha) as (cg' & -> & P'). apply picks_len in P, P'. lia.
  - now rewrite (proj2 L eq_refl).
Qed.

Lemma picks_nth {B} (v : list B) ids w r i : picks v ids w -> nth_error ids r = Some i ->
  nth_error w r = nth_error v i.
Proof.
  intros P Hi. destruct (Forall2_nth_error _ _ _ _ _ P Hi) as (y & Hy & E). congruence.
Qed.

Lemma clip_base_name it m poly ign d r c k : clip_item g base it = (m, poly) -> aligned (vi_mesh it) ->
  nth_error (clip_ids it) r = Some c ->
  base_name (labelled m) ign d r k -> base_name (labelled (vi_mesh it)) ign d c k.
Proof.
  intros H Ha Hr. destruct (clip_picks _ _ _ H) as [_ Q]. destruct (clip_labels _ _ _ H) as [L0 L].
  assert (EQ : forall cg labels, labelled (vi_mesh it) = Some (cg, labels) ->
    exists cg', labelled m = Some (cg', labels) /\ forall x, label_of cg' labels r x <-> label_of cg labels c x).
  { intros cg labels E. unfold labelled in E. destruct (gm_cg (vi_mesh it)) as [cg0|] eqn:Ecg; [|discriminate].
    destruct (gm_labels (vi_mesh it)) as [l0|] eqn:El; [|discriminate]. injection E as -> ->.
    unfold aligned in Ha. rewrite Ecg in Ha. destruct (Q cg eq_refl Ha) as (cg' & E' & P).
    exists cg'. unfold labelled. rewrite E', L0. split; [reflexivity|].
    intros x. unfold label_of. rewrite (picks_nth _ _ _ _ _ P Hr). reflexivity. }
  assert (EN : forall cg' labels, labelled m = Some (cg', labels) -> exists cg, labelled (vi_mesh it) = Some (cg, labels)).
  { intros cg' labels E. unfold labelled in *. destruct (gm_cg m) as [x|] eqn:Ex; [|discriminate].
    rewrite L0 in E. destruct (gm_labels (vi_mesh it)) as [l0|]; [|discriminate]. injection E as -> ->.
    destruct (gm_cg (vi_mesh it)) as [cg0|]; [eauto|]. discriminate (proj2 L eq_refl). }
  intros B. inversion B as [cg' labels k' E Hl Hn Ek|Hall Ek]; subst k.
  - destruct (EN _ _ E) as (cg & E1). destruct (EQ _ _ E1) as (cg'' & E2 & I). rewrite E in E2. injection E2 as ->.
    eapply bn_label; [exact E1|now apply I|exact Hn].
  - apply bn_default. intros cg labels k E Hl. destruct (EQ _ _ E) as (cg' & E' & I).
    eapply Hall; [exact E'|]. now apply I.
Qed.

(* the sites of an item *)
Definition ksites (i : nat) (it : vitem A) : list site :=
  map2 (fun n c => mkSite (Item i) n (vg_center g c)) (clip_ids it) (gm_cells (fst (clip_item g base it))).

Lemma ksites_item i it : item_sites g base i it (ksites i it).
Proof.
  unfold item_sites, ksites. destruct (clip_item g base it) as [m poly] eqn:E. cbn [fst].
  destruct (clip_picks _ _ _ E) as [P _]. destruct (clip_retained _ _ _ E) as [R _].
  assert (S := clip_ids_sorted it).
  set (ids := clip_ids it) in *. set (cs := gm_cells (vi_mesh it)) in *. clearbody ids cs. clear E.
  assert (X : Forall (site_of g (Item i) cs) (map2 (fun n c => mkSite (Item i) n (vg_center g c)) ids (gm_cells m)) /\
    map s_pt (map2 (fun n c => mkSite (Item i) n (vg_center g c)) ids (gm_cells m)) = map (vg_center g) (gm_cells m) /\
    map s_cell (map2 (fun n c => mkSite (Item i) n (vg_center g c)) ids (gm_cells m)) = ids /\
    Forall2 (fun s c => nth_error cs (s_cell s) = Some c) (map2 (fun n c => mkSite (Item i) n (vg_center g c)) ids (gm_cells m)) (gm_cells m)).
  { clear R S. revert P. generalize (gm_cells m). clear m. induction ids as [|n ids IH]; intros ks P; inversion P as [|? ? ? ? Hn P']; subst; cbn [map2].
    - repeat split; constructor.
    - destruct (IH _ P') as (I1 & I2 & I3 & I4). cbn [map s_pt s_cell]. rewrite I2, I3.
      repeat split; constructor; auto. split; [reflexivity|]. cbn. eauto. }
  destruct X as (X1 & X2 & X3 & X4). split; [auto|]. split; [|exists (gm_cells m); auto].
  rewrite <- X3 in S. clear - S. induction (map2 _ ids (gm_cells m)) as [|s l IH]; [constructor|].
  cbn in S. apply StronglySorted_inv in S as [S H]. constructor; [auto|].
  rewrite Forall_map in H. exact H.
Qed.

Lemma ksites_nth i it r s : nth_error (ksites i it) r = Some s ->
  s_owner s = Item i /\ nth_error (clip_ids it) r = Some (s_cell s) /\ r < length (gm_cells (fst (clip_item g base it))).
Proof.
  unfold ksites. rewrite map2_nth_error. destruct (nth_error (clip_ids it) r) as [n|]; [|discriminate].
  destruct (nth_error (gm_cells _) r) as [c|] eqn:E; [|discriminate]. intros [= <-]. repeat split.
  apply nth_error_Some. congruence.
Qed.

Lemma ksites_length i it : length (ksites i it) = length (gm_cells (fst (clip_item g base it))).
Proof.
  unfold ksites. rewrite map2_length. destruct (clip_item g base it) as [m poly] eqn:E. cbn [fst].
  destruct (clip_picks _ _ _ E) as [P _]. apply picks_len in P. lia.
Qed.

Lemma ksites_pts i it : map s_pt (ksites i it) = map (vg_center g) (gm_cells (fst (clip_item g base it))).
Proof.
  unfold ksites. destruct (clip_item g base it) as [m poly] eqn:E. cbn [fst].
  destruct (clip_picks _ _ _ E) as [P _]. revert P. generalize (gm_cells m) (clip_ids it) (gm_cells (vi_mesh it)).
  intros ks ids cs P. induction P; cbn [map2 map]; [reflexivity|]. now rewrite IHP.
Qed.
End Retained.
