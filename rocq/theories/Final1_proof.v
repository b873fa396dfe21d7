From Verif Require Import RealAux Perc_model Perc_spec Perc_proof Surface_model Surface_spec Surface_proof
  Volume_model Volume_spec Volume_proof SMerge_model SMerge_spec SMerge_proof
  Groups_model Groups_spec Groups_proof Groups2_proof
  Stack_model Stack_spec Cut_proof Gen_proof Stack_proof Stack2_proof Stack3_proof Final_model Final_spec.
From Coq Require Import Lra Ascii.
Open Scope nat_scope.

(* ---- names given by an item ---- *)
Lemma item_names o (mesh : gmesh nat) t group arr t' : numbered t -> aligned mesh ->
  initialize_group_array o mesh t group "" = Ok (arr, t') ->
  forall c, c < length (gm_cells mesh) -> exists k, named t' arr c k /\ item_name o mesh group c k.
Proof.
  intros Hn Ha H c Hc. destruct group as [|s|d].
  - destruct (base_groups_kept o mesh t "" Hn Ha) as (arr' & t1 & H1 & _ & H2).
    rewrite H in H1. injection H1 as <- <-. destruct (H2 c Hc) as (k & ? & ?). exists k. auto.
  - destruct (String.eqb_spec s "") as [->|Hs].
    + assert (H' : initialize_group_array o mesh t GNone "" = Ok (arr, t')) by exact H.
      destruct (base_groups_kept o mesh t "" Hn Ha) as (arr' & t1 & H1 & _ & H2).
      rewrite H' in H1. injection H1 as <- <-. destruct (H2 c Hc) as (k & ? & ?).
      exists k. split; auto. split; [auto|]. split; [discriminate|congruence].
    + destruct (plain_dec s) as [Hp|Hp].
      * destruct (string_group_overrides o mesh t s "" Hn Ha Hs Hp) as (arr' & t1 & H1 & _ & H2).
        rewrite H in H1. injection H1 as <- <-. exists s. split; [auto|].
        split; [congruence|]. split; [|auto]. intros s' ->. exfalso. exact (Hp s' eq_refl).
      * assert (H' : initialize_group_array o mesh t
            (GDict [(s, SelArr (MBool (repeat true (length (gm_cells mesh)))))]) "" = Ok (arr, t')).
        { revert H. rewrite !initialize_eq. cbn [entries_of].
          destruct (String.eqb_spec s ""); [congruence|]. auto. }
        assert (Hx := fun Hd => dict_groups _ _ _ _ _ _ _ Hn Ha Hd H' c Hc).
        destruct Hx as (k & Hk & [(e & (l1 & l2 & El & He & _) & _)|[_ Hb]]).
        { intros e [<-|[]]. exact I. }
        -- exfalso.
           destruct l1 as [|x [|? ?]]; cbn in El; try discriminate El.
           injection El as <- _. destruct He as [_ He2]. cbn [fst snd] in He2.
           destruct s as [|ch s']; [congruence|].
           destruct (ascii_dec ch "~"%char) as [->|Hch].
           ++ apply (He2 s' eq_refl). cbn [selects addresses]. apply nth_error_repeat_lt. exact Hc.
           ++ apply Hp. intros s'' [= -> _]. congruence.
        -- exists k. split; [auto|]. split; [congruence|]. split; [auto|]. intros _ Hpl. contradiction.
  - destruct (every_cell_named _ _ _ _ _ _ _ Hn Ha H) as [L Hk].
    destruct (Hk c) as (k0 & Hk0); [lia|].
    assert (Hdec : forall e : string * selector nat,
       ((exists m, snd e = SelArr m) \/ (exists f b, snd e = SelCall f /\ f mesh = MBool b)) \/
       ~ ((exists m, snd e = SelArr m) \/ (exists f b, snd e = SelCall f /\ f mesh = MBool b))).
    { intros [k sel]. cbn [snd]. destruct sel as [f|s|l|m|].
      - destruct (f mesh) as [b|ids] eqn:E.
        + left. right. eauto.
        + right. intros [(m & Hm)|(f' & b & Hf & Hb)]; [discriminate|]. injection Hf as <-. congruence.
      - right. intros [(m & Hm)|(f' & b & Hf & Hb)]; discriminate.
      - right. intros [(m & Hm)|(f' & b & Hf & Hb)]; discriminate.
      - left. left. eauto.
      - right. intros [(m & Hm)|(f' & b & Hf & Hb)]; discriminate. }
    assert (Hd : array_entries mesh d \/ ~ array_entries mesh d).
    { clear -Hdec. induction d as [|e d [IH|IH]].
      - left. intros e [].
      - destruct (Hdec e) as [He|He].
        + left. intros x [<-|Hx]; auto.
        + right. intros Hall. apply He, Hall. left; auto.
      - right. intros Hall. apply IH. intros x Hx. apply Hall. right; auto. }
    destruct Hd as [Hd|Hd].
    + assert (Hx := fun Hd => dict_groups _ _ _ _ _ _ _ Hn Ha Hd H c Hc).
      destruct Hx as (k & H1 & H2).
      { intros e He; destruct (Hd e He) as [(m & ->)|(f & b & -> & Hb)]; eauto. }
      exists k. split; auto. intros _. exact H2.
    + exists k0. split; auto. intros H'. contradiction.
Qed.

(* ---- the cleaned mesh ---- *)
Lemma forallb_zero l : forallb (Nat.eqb 0) l = true <-> forall i x, nth_error l i = Some x -> x = 0.
Proof.
  rewrite forallb_forall. split.
  - intros H i x Hx. apply nth_error_In, H, Nat.eqb_eq in Hx. auto.
  - intros H x Hx. apply In_nth_error in Hx as [i Hi]. apply Nat.eqb_eq. symmetry. eauto.
Qed.

Lemma at_coord_some {X} s (v : list X) c : in_shape s c -> length v = size3 s -> exists x, at_coord s v c = Some x.
Proof.
  intros Hc Hl. unfold at_coord. destruct (nth_error v (fidx s c)) eqn:E; eauto.
  apply nth_error_None in E. apply fidx_lt in Hc. lia.
Qed.

(* every position of an array is that of a coordinate *)
Lemma coord_of s i : i < size3 s -> exists c, in_shape s c /\ fidx s c = i.
Proof.
  destruct s as [[x y] z]. unfold size3, fidx. intros H.
  assert (0 < x) by (destruct x; lia). assert (0 < y) by (destruct y; [rewrite Nat.mul_0_r in H; cbn in H; lia|lia]).
  exists (i mod x, (i / x) mod y, i / x / y). split.
  - split; [apply Nat.mod_upper_bound; lia|]. split; [apply Nat.mod_upper_bound; lia|].
    rewrite Nat.div_div by lia. apply Nat.div_lt_upper_bound; [nia|]. nia.
  - pose proof (Nat.div_mod i x ltac:(lia)) as E1. pose proof (Nat.div_mod (i / x) y ltac:(lia)) as E2. nia.
Qed.

Section Clean.
Context {D : Type} (num : Z -> D) (int : D -> Z) (Hint : forall z, int (num z) = z).

Lemma map_int_num l : map int (map num l) = l.
Proof. rewrite map_map. rewrite <- (map_id l) at 2. apply map_ext. auto. Qed.

Lemma finish_spec (g : sgrid D) groups cg :
  NoDup (map fst (sg_cd g)) -> In ("CellGroup"%string, cg) (sg_cd g) -> numbered groups ->
  (forall i x, nth_error cg i = Some x -> exists k z, x = num z /\ In (k, z) groups) ->
  exists g' labels cg', finish num int g groups = Ok (g', labels) /\
    sg_dims g' = sg_dims g /\ sg_pts g' = sg_pts g /\ sg_pd g' = sg_pd g /\
    sg_ghost g' = clean_ghost (sg_ghost g) /\
    NoDup (map fst (sg_cd g')) /\
    (forall k v, k <> "CellGroup"%string -> In (k, v) (sg_cd g') <-> In (k, v) (sg_cd g)) /\
    In ("CellGroup"%string, map num cg') (sg_cd g') /\
    numbered labels /\ length cg' = length cg /\
    (forall c k, named groups (map int cg) c k <-> named labels cg' c k) /\
    (forall k, In k (map fst labels) <-> exists c, named labels cg' c k).
Proof.
  intros HN Hcg Hn Hall.
  destruct (clean_groups_spec (map int cg) groups Hn) as (data' & d' & E & L & Hn' & HI & HK & _).
  { intros c Hc. rewrite map_length in Hc. destruct (nth_error cg c) as [x|] eqn:Ex.
    - destruct (Hall c x Ex) as (k & z & -> & Hk). exists k, z. split; auto.
      rewrite nth_error_map, Ex. cbn. now rewrite Hint.
    - apply nth_error_None in Ex. lia. }
  unfold finish, clean_grid. rewrite (lookup_NoDup "CellGroup" (sg_cd g) cg HN Hcg). cbn [option_map].
  match goal with |- context [clean_groups ?a ?b] => change (clean_groups a b) with (clean_groups (Some (map int cg)) (Some groups)) end.
  rewrite E. cbn [bind]. eexists. exists d', data'. split; [reflexivity|].
  cbn [sg_dims sg_pts sg_pd sg_ghost sg_cd]. repeat (split; [reflexivity|]).
  split; [apply aput_NoDup; auto|].
  split; [intros k v Hk; apply aput_other; auto|].
  split; [apply aput_In|]. split; [auto|]. split; [rewrite L, map_length; auto|].
  split; [auto|]. intros k. rewrite HK. split; intros (c & Hc); exists c; apply HI; auto.
Qed.

(* the names read back *)
Lemma names_spec labels cg' : numbered labels ->
  (forall c, c < length cg' -> exists k, named labels cg' c k) ->
  (forall k, In k (map fst labels) <-> exists c, named labels cg' c k) ->
  exists names, get_cell_group (Some (map int (map num cg'))) (Some labels) = Ok (Some (inl names)) /\
    length names = length cg' /\
    (forall c k, nth_error names c = Some k <-> named labels cg' c k) /\
    (forall k, In k (map fst labels) <-> In k names).
Proof.
  intros Hn Hall HK. rewrite map_int_num.
  assert (Hd : NoDup (map snd labels)).
  { destruct Hn as [_ ->]. apply FinFun.Injective_map_NoDup; [|apply seq_NoDup]. intros x y; lia. }
  pose proof (get_cell_group_spec cg' labels Hd) as H.
  match goal with |- context [get_cell_group ?a ?b] => change (get_cell_group a b) with (get_cell_group (Some cg') (Some labels)) end.
  match type of H with context [get_cell_group ?a ?b] => change (get_cell_group a b) with (get_cell_group (Some cg') (Some labels)) in H end.
  destruct (get_cell_group (Some cg') (Some labels)) as [[[names|]|]|e]; cbn beta iota in H; try contradiction.
  - destruct H as [L H]. exists names. split; [auto|]. split; [auto|]. split; [auto|].
    intros k0. rewrite HK. split.
    + intros (c & Hc). apply H in Hc. eapply nth_error_In; eauto.
    + intros Hk0. apply In_nth_error in Hk0 as [c Hc]. exists c. apply H; auto.
  - exfalso. destruct H as (_ & c & z & Hz & Hno).
    destruct (Hall c) as (k & z' & Hz' & Hk); [apply nth_error_Some; congruence|].
    rewrite Hz in Hz'. injection Hz' as <-. exact (Hno k Hk).
Qed.
End Clean.

(* ---- structured stacks ---- *)
Section Structured.
Context {D : Type} (num : Z -> D) (volumes : shape3 -> list pt -> list R).
Context (ax : nat) (Hax : ax <= 2) (d : shape3) (Hu : unit_along ax d).
Context (name : string) (N1 : name <> "ColumnId"%string) (N2 : name <> "LayerId"%string)
  (N3 : name <> "CellGroup"%string).

Lemma merged_wf o i1 rest bs groups n g : rest <> [] ->
  Forall (fun it => it_trans it = false) rest ->
  Forall (fun i => wf_base d (it_mesh i)) (i1 :: rest) ->
  gen_loop (sops num) o name (extr volumes) (fun _ _ _ _ => Err NotImplementedError) 0 0 [] i1 rest
    = Ok (bs, groups, n) ->
  merge_structured bs (Some ax) = Ok g -> wf_grid ax g.
Proof.
  intros Hne Ht Hw Hg Hm.
  destruct (blocks_inv num volumes ax Hax d Hu _ _ _ _ _ _ _ Ht Hw Hg) as (_ & nsubs & Ln & Lb & En & HB).
  assert (HW : forall j blk, nth_error bs j = Some blk -> wf_grid ax blk).
  { intros j blk Hj. destruct (block_wf num volumes ax Hax d Hu name i1 rest nsubs groups o j blk) as [H _]; auto. }
  destruct bs as [|b1 bs]; [destruct rest; [congruence|simpl in Lb; lia]|].
  rewrite merge_is_fold in Hm.
  apply (merge_fold_wf ax b1 bs g Hax); auto.
  - apply (HW 0 b1 eq_refl).
  - rewrite Forall_forall. intros x Hx. apply In_nth_error in Hx as [k Hk]. apply (HW (S k) x Hk).
Qed.

Lemma names_along o i1 rest bs groups n g : rest <> [] ->
  Forall (fun it => it_trans it = false) rest ->
  Forall (fun i => wf_base d (it_mesh i)) (i1 :: rest) ->
  gen_loop (sops num) o name (extr volumes) (fun _ _ _ _ => Err NotImplementedError) 0 0 [] i1 rest
    = Ok (bs, groups, n) ->
  merge_structured bs (Some ax) = Ok g ->
  numbered groups /\ sg_dims g = setc ax (S n) d /\
  exists nsubs, layer_counts rest nsubs /\ n = list_sum nsubs /\
  exists cg, In ("CellGroup"%string, cg) (sg_cd g) /\ length cg = n_cells (sg_dims g) /\
    forall c, in_shape (cell_shape (sg_dims g)) c ->
      exists j a b k z, layer_in nsubs (comp ax c) j /\
        nth_error (i1 :: rest) j = Some a /\ nth_error rest j = Some b /\
        at_coord (cell_shape (sg_dims g)) cg c = Some (num z) /\ In (k, z) groups /\
        item_name o (gview (sops num) (it_mesh a)) (it_group b) (fidx (cell_shape d) (setc ax 0 c)) k.
Proof.
  intros Hne Ht Hw Hg Hm.
  pose proof (merged_wf _ _ _ _ _ _ _ Hne Ht Hw Hg Hm) as Wg.
  destruct (generated_cells num volumes ax Hax d Hu _ _ _ _ _ _ _ _ N1 N2 N3 Hne Ht Hw Hg Hm)
    as (Hnum & nsubs & Ln & En & HL & Hd & col & lay & itm & cg & _ & _ & _ & Hcg & HC).
  split; [auto|]. split; [auto|]. exists nsubs. split; [split; auto|]. split; [auto|].
  exists cg. split; auto. split.
  { apply wf_unfold in Wg as (_ & _ & _ & _ & Hl & _). eauto. }
  intros c Hin.
  destruct (HC _ Hin) as (j & a & b & arr & gj & gj' & nsub & Hj & Ha & Hb & Hi & G1 & G2 & G3 & La & Hns & Hc' & _ & _ & _ & E).
  assert (Wa : wf_base d (it_mesh a)).
  { rewrite Forall_forall in Hw. apply Hw. eapply nth_error_In; eauto. }
  assert (Hal : aligned (gview (sops num) (it_mesh a))) by (apply (base_aligned num d); auto).
  assert (Hgc : length (gm_cells (gview (sops num) (it_mesh a))) = n_cells d).
  { cbn. rewrite seq_length. destruct Wa as (-> & _); auto. }
  set (i0 := fidx (cell_shape d) (setc ax 0 c)) in *.
  assert (Hi0 : i0 < n_cells d).
  { unfold i0, n_cells.
    assert (Hsh : in_shape (cell_shape d) (setc ax 0 c)).
    { rewrite Hd, cell_shape_setc in Hin.
      rewrite <- (setc_comp ax (cell_shape d)).
      apply (in_shape_swap ax _ _ _ c _ Hin); [rewrite setc_setc; auto|].
      rewrite cell_shape_comp. lia. }
    apply fidx_lt; auto. }
  destruct (item_names _ _ _ _ _ _ G1 Hal Hi i0) as (k & (z & Hz & Hkz) & Hk); [lia|].
  exists j, a, b, k, z. repeat (split; [assumption|]).
  split.
  - rewrite E. unfold at_coord. fold i0. rewrite nth_error_map, Hz. reflexivity.
  - split; [|auto]. destruct G3 as [ext ->]. apply in_or_app; auto.
Qed.
End Structured.
