From Verif Require Import RealAux Perc_model Perc_spec Perc_proof Surface_model Surface_spec Surface_proof
  Volume_model Volume_spec Volume_proof Ring_proof UVol_proof UVol2_proof UVol3_proof
  SMerge_model SMerge_spec SMerge_proof Groups_model Groups_spec Groups_proof Groups2_proof
  Stack_model Stack_spec Cut_proof Gen_proof Stack_proof Stack2_proof Stack3_proof Stack4_proof
  Lines_spec Final_model Final_spec Final1_proof Unstr_model Unstr_spec Unstr1_proof.
From Coq Require Import Lra Permutation.
Open Scope nat_scope.

(* ---- pv.merge ---- *)
Lemma appended_one {D} (b : uvol D) : NoDup (map fst (uv_cd b)) -> appended [b] b.
Proof.
  intros HN. split.
  { intros cells HF. inversion HF as [|? cs ? ? Hc HF']; subst. inversion HF'; subst. exists (fun i => i).
    cbn [stacked flat_map]. rewrite !app_nil_r. split; [|auto]. rewrite map_map. replace (map _ cs) with cs; [exact Hc|].
    rewrite <- (map_id cs) at 1. apply map_ext. intros c. symmetry. rewrite rename_rename. apply rename_id. }
  split; [auto|]. split.
  { intros k. split; [intros H x [ <- | [] ]; auto|]. intros H. apply H. left; auto. }
  split.
  { intros k x Hx. exists [x]. split; [constructor; auto|]. cbn. rewrite app_nil_r. auto. }
  cbn. rewrite app_nil_r. split; [auto|]. intros (x & [ <- | [] ] & _ & H). exact H.
Qed.

Lemma merged_appended {D} (pvmerge : list (uvol D) -> res (uvol D)) bs g : appends pvmerge ->
  (forall b, In b bs -> NoDup (map fst (uv_cd b))) ->
  merge_unstructured pvmerge bs = Ok g ->
  exists order bs', Permutation order (seq 0 (length bs)) /\ picks bs order bs' /\ appended bs' g.
Proof.
  intros HA HN. destruct bs as [|b [|b' bs]]; cbn [merge_unstructured]; [discriminate| |apply HA].
  intros H%Ok_inj. subst g. exists [0], [b]. split; [apply Permutation_refl|].
  split; [repeat constructor|]. apply appended_one. apply HN. left; auto.
Qed.

(* ---- _clean ---- *)
Lemma finish_unstructured_spec {D} (num : Z -> D) (int : D -> Z) (Hint : forall z, int (num z) = z) clean (g : uvol D) groups cg :
  NoDup (map fst (uv_cd (clean g))) -> In ("CellGroup"%string, cg) (uv_cd (clean g)) -> numbered groups ->
  (forall i x, nth_error cg i = Some x -> exists k z, x = num z /\ In (k, z) groups) ->
  exists g' labels cg', finish_unstructured num int clean g groups = Ok (g', labels) /\
    uv_types g' = uv_types (clean g) /\ uv_stream g' = uv_stream (clean g) /\ uv_pts g' = uv_pts (clean g) /\
    uv_ghost g' = clean_ghost (uv_ghost (clean g)) /\
    NoDup (map fst (uv_cd g')) /\
    (forall k v, k <> "CellGroup"%string -> In (k, v) (uv_cd g') <-> In (k, v) (uv_cd (clean g))) /\
    In ("CellGroup"%string, map num cg') (uv_cd g') /\
    numbered labels /\ length cg' = length cg /\
    (forall c k, named groups (map int cg) c k <-> named labels cg' c k) /\
    (forall k, In k (map fst labels) <-> exists c, named labels cg' c k).
Proof.
  intros HN Hcg Hn Hall.
  destruct (clean_groups_spec (map int cg) groups Hn) as (data' & d' & E & L & Hn' & HI & HK & _).
  { intros c Hc. rewrite map_length in Hc. destruct (nth_error cg c) as [x|] eqn:Ex.
    - destruct (Hall c x Ex) as (k & z & -> & Hk). exists k, z. split; auto.
      rewrite nth_error_map, Ex. cbn. now rewrite Hint.
    - apply nth_error_None in Ex. lia. }
  unfold finish_unstructured. cbn zeta. rewrite (lookup_NoDup "CellGroup" (uv_cd (clean g)) cg HN Hcg). cbn [option_map].
  match goal with |- context [clean_groups ?a ?b] => change (clean_groups a b) with (clean_groups (Some (map int cg)) (Some groups)) end.
  rewrite E. cbn [bind]. eexists. exists d', data'. split; [reflexivity|].
  cbn [uv_types uv_stream uv_pts uv_ghost uv_cd]. repeat (split; [reflexivity|]).
  split; [apply aput_NoDup; auto|].
  split; [intros k v Hk; apply aput_other; auto|].
  split; [apply aput_In|]. split; [auto|]. split; [rewrite L, map_length; auto|].
  split; [auto|]. intros k. rewrite HK. split; intros (c & Hc); exists c; apply HI; auto.
Qed.

Lemma picks_at {X} (vals : list X) ids xs p i : picks vals ids xs -> nth_error ids p = Some i ->
  exists x, nth_error xs p = Some x /\ nth_error vals i = Some x.
Proof. intros HF Hp. destruct (Forall2_nth_error _ _ _ _ _ HF Hp) as (x & ? & ?). eauto. Qed.

Lemma picks_lengths {X Y} (f : X -> list Y) (n : nat -> nat) vals ids xs : picks vals ids xs ->
  (forall i x, In i ids -> nth_error vals i = Some x -> length (f x) = n i) ->
  Forall2 (fun i ys => length ys = n i) ids (map f xs).
Proof.
  induction 1 as [|i x ids xs Hi HF IH]; intros H; constructor; [apply H; cbn; auto|].
  apply IH. intros k y Hk. apply H. cbn; auto.
Qed.

Section Assemble.
Context {D : Type} (num : Z -> D) (int : D -> Z) (Hint : forall z, int (num z) = z).
Context (name : string) (N1 : name <> "ColumnId"%string) (N2 : name <> "LayerId"%string) (N3 : name <> "CellGroup"%string).
Context (invert : bool) (o : options) (tol : R) (clean : uvol D -> uvol D) (Hclean : cleans tol clean).
Context (items rest : list (item (ubase D))) (Hit : exists i1, items = i1 :: rest) (Hne : rest <> []).
Context (Hw : Forall (fun i => wf_ubase (it_mesh i)) items).
Context (bs : list (uvol D)) (groups : dict) (Hnum : numbered groups) (nsubs : list nat).
Context (HLC : layer_counts rest nsubs) (Lb : length bs = length rest).
Context (HB : forall j a b, nth_error items j = Some a -> nth_error rest j = Some b ->
      exists ns blk, nth_error nsubs j = Some ns /\ nth_error bs j = Some blk /\
        block_of num name invert o nsubs groups j a b ns blk).
Context (order : list nat) (bs' : list (uvol D)) (g0 : uvol D).
Context (Hord : Permutation order (seq 0 (length bs))) (Hpick : picks bs order bs') (Happ : appended bs' g0).

Definition nsf (j : nat) : nat := nth j nsubs 0.
Definition ncf (j : nat) : nat := match nth_error items j with Some a => n_base a | None => 0 end.
Definition place := places nsf ncf order.

Lemma order_in j : In j order <-> j < length rest.
Proof.
  rewrite <- Lb. split; intros H.
  - apply (Permutation_in _ Hord) in H. apply in_seq in H. lia.
  - apply (Permutation_in _ (Permutation_sym Hord)). apply in_seq. lia.
Qed.

Lemma ordered j : j < length rest -> exists a b blk, nth_error items j = Some a /\ nth_error items (S j) = Some b /\
  nth_error rest j = Some b /\ nth_error bs j = Some blk /\ nth_error nsubs j = Some (nsf j) /\ ncf j = n_base a /\
  wf_ubase (it_mesh a) /\
  block_of num name invert o nsubs groups j a b (nsf j) blk.
Proof.
  intros Hj. destruct (nth_error rest j) as [b|] eqn:Hb; [|apply nth_error_None in Hb; lia].
  destruct (nth_error items j) as [a|] eqn:Ha.
  2:{ apply nth_error_None in Ha. destruct Hit as [i1 ->]. cbn in Ha. lia. }
  destruct (HB j a b Ha eq_refl) as (ns & blk & Hns & Hblk & HO) || destruct (HB j a b Ha Hb) as (ns & blk & Hns & Hblk & HO).
  exists a, b, blk. split; [auto|]. split; [destruct Hit as [i1 ->]; auto|]. split; [auto|]. split; [auto|].
  assert (E : nsf j = ns) by (apply nth_error_nth; auto). rewrite E.
  split; [auto|]. split; [unfold ncf; rewrite Ha; auto|]. split; [|auto].
  rewrite Forall_forall in Hw. apply Hw. eapply nth_error_In; eauto.
Qed.

Lemma in_blocks blk : In blk bs' -> exists j, j < length rest /\ nth_error bs j = Some blk.
Proof.
  intros H. apply In_nth_error in H as [p Hp].
  destruct (Forall2_nth_error_r _ _ _ _ _ Hpick Hp) as (j & Hj & E).
  exists j. split; [|auto]. apply order_in. eapply nth_error_In; eauto.
Qed.

Lemma placed_all : placed items nsubs place.
Proof.
  split.
  - apply places_NoDup. apply (Permutation_NoDup (Permutation_sym Hord)). apply seq_NoDup.
  - intros j l c. unfold place. rewrite places_In, order_in. split.
    + intros (Hj & Hl & Hc). destruct (ordered j Hj) as (a & b & blk & Ha & _ & _ & _ & Hns & En & _).
      exists (nsf j), a. rewrite <- En. auto.
    + intros (ns & a & Hns & Ha & Hl & Hc). 
      assert (Hj : j < length rest). { destruct HLC as [<- _]. apply nth_error_Some. congruence. }
      split; [auto|]. unfold nsf, ncf. rewrite Ha. rewrite (nth_error_nth _ _ 0 Hns). auto.
Qed.

(* cells, arrays and ghosts of the merged mesh *)
Lemma blocks_cells : exists cells, Forall2 cells_of bs' cells /\
  Forall2 (fun j cs => length cs = nsf j * ncf j) order cells.
Proof.
  assert (H : forall ids xs, picks bs ids xs -> (forall i, In i ids -> i < length rest) ->
    exists cells, Forall2 cells_of xs cells /\ Forall2 (fun j cs => length cs = nsf j * ncf j) ids cells).
  { induction 1 as [|j blk ids xs Hj HF IH]; intros HI; [exists []; auto|].
    destruct IH as (cells & H1 & H2); [intros i Hi; apply HI; right; auto|].
    destruct (ordered j (HI j (or_introl eq_refl))) as (a & b & blk' & _ & _ & _ & Hb & _ & En & _ & HO).
    assert (blk' = blk) as -> by congruence.
    destruct HO as (perc & cs & cg & _ & _ & _ & _ & Hc & Lc & _).
    exists (cs :: cells). split; constructor; auto. rewrite En. auto. }
  apply (H order bs' Hpick). intros i. apply order_in.
Qed.

Lemma blocks_ghost : uv_ghost g0 = flat_map uv_ghost bs'.
Proof.
  destruct Happ as (_ & _ & _ & _ & Egh & _). apply Egh. intros blk Hin. destruct (in_blocks _ Hin) as (j & Hj & E).
  destruct (ordered j Hj) as (a & b & blk' & _ & _ & _ & Hb & _ & _ & _ & HO). assert (blk' = blk) as -> by congruence.
  destruct HO as (perc & cs & cg & _ & _ & _ & _ & Hcs & Lcs & _ & _ & _ & _ & _ & _ & _ & _ & _ & _ & HLg & _).
  rewrite HLg, <- Lcs. exact (decode_length _ _ _ Hcs).
Qed.

Lemma merged_cells : exists cells0, cells_of g0 cells0 /\ length cells0 = length place /\
  forall i j l c, nth_error place i = Some (j, l, c) ->
    exists a b blk, nth_error items j = Some a /\ nth_error items (S j) = Some b /\
      wf_ubase (it_mesh a) /\ ncf j = n_base a /\ l < nsf j /\ c < n_base a /\
      block_of num name invert o nsubs groups j a b (nsf j) blk /\
      (forall k x w, In (k, x) (uv_cd g0) -> In (k, w) (uv_cd blk) -> nth_error x i = nth_error w (l * n_base a + c)) /\
      nth_error (uv_ghost g0) i = nth_error (uv_ghost blk) (l * n_base a + c) /\
      (forall k, In k (map fst (uv_cd g0)) -> In k (map fst (uv_cd blk))) /\
      forall cs, cells_of blk cs -> exists off,
        nth_error cells0 i = option_map (rename off) (nth_error cs (l * n_base a + c)) /\
        forall cell y, nth_error cs (l * n_base a + c) = Some cell -> In y (vcell_ids cell) ->
          y < length (uv_pts blk) -> nth_error (uv_pts g0) (off y) = nth_error (uv_pts blk) y.
Proof.
  destruct Happ as (Hcells & HND & Hkeys & Harr & _). pose proof blocks_ghost as Egh.
  destruct blocks_cells as (cells & HF & HL). destruct (Hcells cells HF) as (f & Hg0 & Hf).
  exists (map (rename f) (stacked 0 bs' cells)). split; [auto|]. split.
  { rewrite map_length, stacked_concat. apply places_length. apply stack_list_lengths; auto. apply (Forall2_len _ _ _ HF). }
  intros i j l c Hi. destruct (located _ _ _ _ _ _ _ Hi) as (p & Hp & Hl & Hc & HX).
  assert (Hj : j < length rest) by (apply order_in; eapply nth_error_In; eauto).
  destruct (ordered j Hj) as (a & b & blk & Ha & Hb & _ & Hblk & _ & En & Wa & HO).
  destruct (picks_at _ _ _ _ _ Hpick Hp) as (blk' & Hpb & E). assert (blk' = blk) as -> by congruence.
  exists a, b, blk. split; [auto|]. split; [auto|]. split; [auto|]. split; [auto|]. split; [auto|]. split; [rewrite <- En; auto|].
  split; [exact HO|].
  split.
  { intros k x w Hx Hkw. destruct (Harr k x Hx) as (xs & Hxs & ->).
    assert (HL' : Forall2 (fun j xs => length xs = nsf j * ncf j) order xs).
    { clear -Hpick Hxs Hit Lb HB Hw Hord HLC.
      assert (HI : forall j, In j order -> j < length rest) by (intros; apply order_in; auto).
      clear Hord. revert xs Hxs. induction Hpick as [|j blk ids bl Hj HF IH]; intros xs Hxs; inversion Hxs; subst; constructor.
      - destruct (ordered j (HI j (or_introl eq_refl))) as (a & b & blk' & _ & _ & _ & Hb & _ & En & _ & HO).
        assert (blk' = blk) as -> by congruence.
        destruct HO as (perc & cs & cg & _ & _ & _ & _ & _ & _ & _ & _ & _ & _ & _ & HLv & _). rewrite En. eauto.
      - apply IH; auto. intros; apply HI; right; auto. }
    destruct (HX D xs HL') as (v & Hv & ->). rewrite En. f_equal.
    destruct (Forall2_nth_error _ _ _ _ _ Hxs Hpb) as (v' & Hv' & Hin). assert (v' = v) as -> by congruence.
    destruct HO as (perc & cs & cg & _ & _ & _ & _ & _ & _ & _ & _ & _ & HN & _).
    eapply NoDup_fst_fun; eauto. }
  split.
  { rewrite Egh, flat_map_concat_map. destruct (HX nat (map uv_ghost bs')) as (v & Hv & ->).
    - apply (picks_lengths _ _ bs); auto. intros k x Hk Hx. apply order_in in Hk.
      destruct (ordered k Hk) as (a' & b' & blk' & _ & _ & _ & Hb' & _ & En' & _ & HO').
      assert (blk' = x) as -> by congruence.
      destruct HO' as (perc & cs & cg & _ & _ & _ & _ & _ & _ & _ & _ & _ & _ & _ & _ & _ & _ & _ & _ & HLg & _).
      rewrite En'. auto.
    - rewrite nth_error_map, Hpb in Hv. injection Hv as <-. rewrite En. auto. }
  split.
  { intros k Hk. apply (proj1 (Hkeys k) Hk). eapply nth_error_In; eauto. }
  intros cs Hcs. destruct (Forall2_nth_error _ _ _ _ _ HF Hpb) as (cs' & Hp' & Hcs').
  assert (cs' = cs) as -> by (unfold cells_of in *; congruence).
  destruct (stack_list_at bs' 0 cells p blk cs Hpb Hp') as (off & Hoff & Hpts).
  assert (E1 : nth_error (stacked 0 bs' cells) i = option_map (rename (fun y => off + y)) (nth_error cs (l * n_base a + c))).
  { rewrite stacked_concat. destruct (HX vcell (stack_list 0 bs' cells)) as (v & Hv & ->).
    - apply stack_list_lengths; auto. apply (Forall2_len _ _ _ HF).
    - rewrite Hoff in Hv. injection Hv as <-. rewrite nth_error_map, En. auto. }
  exists (fun y => f (off + y)). split.
  - rewrite nth_error_map, E1. destruct (nth_error cs _); cbn [option_map]; [f_equal; apply rename_rename|auto].
  - intros cell y Hcell Hy Hlt. rewrite Hcell in E1. cbn [option_map] in E1. rewrite <- Hpts by auto.
    destruct (nth_error (flat_map uv_pts bs') (off + y)) as [pt|] eqn:Ept; [|apply nth_error_None in Ept].
    + apply Hf; [|auto]. apply in_flat_map. eexists. split; [eapply nth_error_In; exact E1|]. apply (rename_In (fun y => off + y)). auto.
    + exfalso. pose proof (Hpts y Hlt) as Q. rewrite (proj2 (nth_error_None _ _) Ept) in Q. symmetry in Q. apply nth_error_None in Q. lia.
Qed.

Lemma merged_array k x : In (k, x) (uv_cd g0) -> length x = length place.
Proof.
  intros Hx. destruct Happ as (Hcells & HND & Hkeys & Harr & Egh).
  destruct (Harr k x Hx) as (xs & Hxs & ->). apply places_length.
  assert (HI : forall j, In j order -> j < length rest) by (intros; apply order_in; auto).
  clear Hcells Hkeys Harr Egh Hx Happ Hord. revert xs Hxs.
  induction Hpick as [|j blk ids bl Hj HF IH]; intros xs Hxs; inversion Hxs; subst; constructor.
  - destruct (ordered j (HI j (or_introl eq_refl))) as (a & b & blk' & _ & _ & _ & Hb & _ & En & _ & HO).
    assert (blk' = blk) as -> by congruence.
    destruct HO as (perc & cs & cg & _ & _ & _ & _ & _ & _ & _ & _ & _ & _ & _ & HLv & _). rewrite En. eauto.
  - apply IH; auto. intros; apply HI; right; auto.
Qed.
Lemma merged_ghost : length (uv_ghost g0) = length place.
Proof.
  rewrite blocks_ghost, flat_map_concat_map. apply places_length.
  apply (picks_lengths _ _ bs); auto. intros k x Hk Hx. apply order_in in Hk.
  destruct (ordered k Hk) as (a' & b' & blk' & _ & _ & _ & Hb' & _ & En' & _ & HO').
  assert (blk' = x) as -> by congruence.
  destruct HO' as (perc & cs & cg & _ & _ & _ & _ & _ & _ & _ & _ & _ & _ & _ & _ & _ & _ & _ & _ & HLg & _).
  rewrite En'. auto.
Qed.

Lemma merged_keys k : In k (map fst (uv_cd g0)) <->
  In k ["ColumnId"; "LayerId"; name; "CellGroup"]%string \/
  forall j a b, nth_error items j = Some a -> nth_error items (S j) = Some b ->
    In k (map fst (us_cd (ub_surf (it_mesh a)))).
Proof.
  destruct Happ as (Hcells & HND & Hkeys & Harr & Egh). rewrite Hkeys.
  assert (HK : forall j a b blk, nth_error items j = Some a -> nth_error items (S j) = Some b -> nth_error bs j = Some blk ->
     (In k (map fst (uv_cd blk)) <-> In k ["ColumnId"; "LayerId"; name; "CellGroup"]%string \/ In k (map fst (us_cd (ub_surf (it_mesh a)))))).
  { intros j a b blk Ha Hb Hblk.
    assert (Hj : j < length rest) by (rewrite <- Lb; apply nth_error_Some; congruence).
    destruct (ordered j Hj) as (a' & b' & blk' & Ha' & _ & _ & Hb' & _ & En' & _ & HO').
    assert (blk' = blk) as -> by congruence. assert (a' = a) as -> by congruence.
    destruct HO' as (perc & cs & cg & _ & _ & _ & _ & _ & _ & _ & _ & _ & _ & HKK & _). apply HKK. }
  split.
  - intros H. destruct (in_dec String.string_dec k ["ColumnId"; "LayerId"; name; "CellGroup"]%string) as [|Hn]; [auto|].
    right. intros j a b Ha Hb.
    assert (Hj : j < length rest).
    { destruct Hit as [i1 Ei]. rewrite Ei in Hb. cbn in Hb. apply nth_error_Some. congruence. }
    destruct (ordered j Hj) as (a' & b' & blk & _ & _ & _ & Hblk & _).
    apply order_in in Hj. apply In_nth_error in Hj as [p Hp].
    destruct (picks_at _ _ _ _ _ Hpick Hp) as (blk' & Hpb & E). assert (blk' = blk) as -> by congruence.
    apply nth_error_In in Hpb. apply H in Hpb. apply (HK j a b blk Ha Hb Hblk) in Hpb. tauto.
  - intros H blk Hin. destruct (in_blocks blk Hin) as (j & Hj & Hblk).
    destruct (ordered j Hj) as (a & b & _ & Ha & Hb & _). apply (HK j a b blk Ha Hb Hblk).
    destruct H as [H|H]; [auto|]. right. eapply H; eauto.
Qed.

Lemma place_at i : i < length place -> exists j l c, nth_error place i = Some (j, l, c).
Proof. intros H. destruct (nth_error place i) as [[[j l] c]|] eqn:E; [eauto|]. apply nth_error_None in E. lia. Qed.

Lemma assembled : exists g' labels, finish_unstructured num int clean g0 groups = Ok (g', labels) /\
  placed items nsubs place /\ identified num name nsubs place g' /\
  extruded_cells invert tol items place g' /\ ugroups_follow int o items place g' labels /\
  ughosts_follow items place g' /\ ucells_follow name items place g'.
Proof.
  destruct merged_cells as (cells0 & Hc0 & Lc0 & HC).
  destruct (Hclean g0 cells0 Hc0) as (f & Hcl & Ecd & Egh & Hpts).
  assert (HND : NoDup (map fst (uv_cd g0))) by (destruct Happ as (_ & H & _); auto).
  assert (HKin : forall k, In k ["ColumnId"; "LayerId"; name; "CellGroup"]%string -> exists x, In (k, x) (uv_cd g0)).
  { intros k Hk. assert (H : In k (map fst (uv_cd g0))) by (apply merged_keys; auto).
    apply in_map_iff in H as ([k' x] & <- & H). eauto. }
  destruct (HKin "CellGroup"%string) as (cg & Hcg); [cbn; auto|].
  assert (HCGI : forall i j l c, nth_error place i = Some (j, l, c) -> exists a b k z,
     nth_error items j = Some a /\ nth_error items (S j) = Some b /\ nth_error cg i = Some (num z) /\ In (k, z) groups /\
     item_name o (ubase_view (it_mesh a)) (it_group b) c k).
  { intros i j l c Hi. destruct (HC i j l c Hi) as (a & b & blk & Ha & Hb & Wa & En & Hl & Hc & HO & Harr & _).
    destruct HO as (perc & cs & cgb & _ & _ & _ & _ & _ & _ & _ & _ & _ & _ & _ & _ & _ & Hcgb & HG & _).
    destruct (HG l c Hl Hc) as (k & z & Hz & Hkz & Hk). exists a, b, k, z.
    rewrite (Harr _ _ _ Hcg Hcgb). auto. }
  pose proof (merged_array _ _ Hcg) as Lcg.
  destruct (finish_unstructured_spec num int Hint clean g0 groups cg) as
    (g' & labels & cg' & Hf & Ety & Est & Ept & Egh' & HN' & Hoth & Hcg' & Hnl & Lcg' & Hname & HKl); auto.
  { rewrite Ecd; auto. } { rewrite Ecd; auto. }
  { intros i x Hx. destruct (place_at i) as (j & l & c & Hi); [rewrite <- Lcg; apply nth_error_Some; congruence|].
    destruct (HCGI _ _ _ _ Hi) as (a & b & k & z & _ & _ & Hz & Hk & _). rewrite Hx in Hz. injection Hz as ->. eauto. }
  rewrite Ecd in Hoth. rewrite Egh in Egh'.
  exists g', labels. split; [auto|]. split; [apply placed_all|].
  split.
  { destruct (HKin "ColumnId"%string) as (col & Hcol); [cbn; auto|].
    destruct (HKin "LayerId"%string) as (lay & Hlay); [cbn; auto|].
    destruct (HKin name) as (itm & Hitm); [cbn; auto|].
    exists col, lay, itm.
    split; [apply Hoth; [discriminate|auto]|]. split; [apply Hoth; [discriminate|auto]|]. split; [apply Hoth; auto|].
    split; [eapply merged_array; eauto|]. split; [eapply merged_array; eauto|]. split; [eapply merged_array; eauto|].
    intros i j l c Hi. destruct (HC i j l c Hi) as (a & b & blk & Ha & Hb & Wa & En & Hl & Hc & HO & Harr & _).
    destruct HO as (perc & cs & cgb & _ & _ & _ & _ & _ & _ & _ & _ & _ & _ & _ & _ & HID & _).
    destruct HID as (col' & lay' & itm' & Hc1 & Hl1 & Hi1 & _ & _ & _ & HH).
    rewrite (Harr _ _ _ Hcol Hc1), (Harr _ _ _ Hlay Hl1), (Harr _ _ _ Hitm Hi1).
    apply HH; auto. }
  split.
  { exists (map (rename f) cells0). split; [unfold cells_of in *; rewrite Ety, Est; auto|].
    split; [rewrite map_length; auto|].
    intros i j l c Hi. destruct (HC i j l c Hi) as (a & b & blk & Ha & Hb & Wa & En & Hl & Hc & HO & _ & _ & _ & HX).
    destruct HO as (perc & cs & cgb & Hp & Hp2 & Ens & Hlb & Hcs & Lcs & Lpb & HPp & HCc & _).
    destruct (nth_error (us_cells (ub_surf (it_mesh a))) c) as [base|] eqn:Eb; [|apply nth_error_None in Eb; unfold n_base in Hc; lia].
    destruct (HCc l c base Hl Eb) as (cell & Hcell & Hext & Hrng).
    destruct (HX cs Hcs) as (off & Hoff & Hop). rewrite Hcell in Hoff. cbn [option_map] in Hoff.
    exists a, b, perc, base, cell, (fun y => f (off y)).
    split; [auto|]. split; [auto|]. split; [auto|]. split; [auto|]. cbn zeta. split; [auto|].
    split; [rewrite nth_error_map, Hoff; cbn [option_map]; f_equal; apply rename_rename|].
    intros v h t p q Hv Hh Ht Hpv Hqv.
    set (np := length (us_pts (ub_surf (it_mesh a)))) in *.
    pose proof (extruded_ids _ _ _ _ _ _ _ Hext Hv Hh) as Hin.
    assert (Hr : v + (l + h) * np < length (uv_pts blk)).
    { apply Hrng; auto. intros x Hx. destruct Wa as (_ & _ & Wr). eapply Wr; eauto. eapply nth_error_In; eauto. }
    assert (HPv : nth_error (uv_pts g0) (off (v + (l + h) * np)) = Some (lerp t p q)).
    { rewrite (Hop cell) by auto. rewrite (Nat.add_comm v). apply HPp; auto. }
    destruct (fun Hi => Hpts _ _ Hi HPv) as (r & Hr1 & Hr2).
    { apply in_flat_map. exists (rename off cell). split; [eapply nth_error_In; eauto|].
      apply (rename_In off). auto. }
    exists r. rewrite Ept. split; [auto|]. destruct p as [[? ?] ?], q as [[? ?] ?]. exact Hr2. }
  split.
  { destruct (names_spec num int Hint labels cg' Hnl) as (names & H1 & H2 & H3 & H4); [|auto|].
    { intros c Hc. destruct (place_at c) as (j & l & c' & Hi); [lia|].
      destruct (HCGI _ _ _ _ Hi) as (a & b & k & z & _ & _ & Hz & Hk & _). exists k. apply Hname. exists z.
      split; [rewrite nth_error_map, Hz; cbn; now rewrite Hint|auto]. }
    split; [auto|]. split; [auto|]. exists (map num cg'), names. split; [auto|]. split; [auto|]. split; [lia|].
    split; [auto|]. intros i j l c Hi. destruct (HCGI _ _ _ _ Hi) as (a & b & k & z & Ha & Hb & Hz & Hk & Hit').
    exists a, b, k. split; [auto|]. split; [auto|]. split; [|auto].
    apply H3, Hname. exists z. split; [rewrite nth_error_map, Hz; cbn; now rewrite Hint|auto]. }
  split.
  { assert (Hfl : forall i, flag_of (uv_ghost g') i = flag_of (uv_ghost g0) i).
    { intros i. rewrite Egh'. unfold clean_ghost, flag_of. destruct (forallb (Nat.eqb 0) (uv_ghost g0)) eqn:Ef; [|auto].
      rewrite forallb_zero in Ef. destruct (nth_error (uv_ghost g0) i) as [x|] eqn:Ex.
      - rewrite (nth_error_nth _ _ 0 Ex). rewrite (Ef i x Ex). destruct i; auto.
      - rewrite (nth_overflow (uv_ghost g0)) by (apply nth_error_None; auto). destruct i; auto. }
    split.
    { rewrite Egh'. unfold clean_ghost. destruct (forallb (Nat.eqb 0) (uv_ghost g0)) eqn:Ef; [auto|]. right.
      split; [apply merged_ghost|].
      assert (exists x, In x (uv_ghost g0) /\ x <> 0) as (x & Hx & Hx0).
      { clear -Ef. induction (uv_ghost g0) as [|x l IH]; [discriminate|]. cbn [forallb] in Ef.
        destruct (Nat.eqb_spec 0 x) as [<-|Hx]; [destruct (IH Ef) as (y & ? & ?); exists y; split; auto; right; auto|].
        exists x. split; [left; auto|auto]. }
      apply In_nth_error in Hx as [i Hi]. exists i. rewrite <- merged_ghost.
      split; [apply nth_error_Some; congruence|]. unfold flag_of. rewrite (nth_error_nth _ _ 0 Hi). auto. }
    intros i j l c Hi. destruct (HC i j l c Hi) as (a & b & blk & Ha & Hb & Wa & En & Hl & Hc & HO & _ & HGi & _).
    destruct HO as (perc & cs & cgb & Hp & Hp2 & Ens & Hlb & Hcs & Lcs & Lpb & HPp & HCc & _ & _ & _ & _ & _ & _ & _ & _ & HGG).
    destruct (nth_error (us_cells (ub_surf (it_mesh a))) c) as [base|] eqn:Eb; [|apply nth_error_None in Eb; unfold n_base in Hc; lia].
    exists a, b, perc, base. split; [auto|]. split; [auto|]. split; [auto|]. split; [auto|].
    destruct (HGG l c base Hl Eb) as [HG1 HG2]. rewrite Hfl. unfold flag_of at 1 2.
    split; intros HH; apply nth_error_nth; rewrite HGi; auto. }
  split.
  { intros k. rewrite <- merged_keys. destruct (String.string_dec k "CellGroup"%string) as [->|Hk].
    - split; intros _; apply in_map_iff; [exists ("CellGroup"%string, cg)|exists ("CellGroup"%string, map num cg')]; auto.
    - rewrite !in_map_iff. split; intros ([k' v] & <- & Hv); exists (k', v); (split; [auto|]); apply Hoth; auto. }
  intros k x Hx Hk. assert (Hkc : k <> "CellGroup"%string) by (intros ->; apply Hk; cbn; auto).
  apply Hoth in Hx; [|auto]. split; [eapply merged_array; eauto|].
  intros i j l c Hi. destruct (HC i j l c Hi) as (a & b & blk & Ha & Hb & Wa & En & Hl & Hc & HO & Harr & _ & HKb & _).
  assert (exists w, In (k, w) (uv_cd blk)) as (w & Hkw).
  { assert (H : In k (map fst (uv_cd blk))) by (apply HKb; apply in_map_iff; exists (k, x); auto).
    apply in_map_iff in H as ([k' w] & <- & H). eauto. }
  destruct HO as (perc & cs & cgb & _ & _ & _ & _ & _ & _ & _ & _ & _ & _ & _ & _ & _ & _ & _ & HDD & _).
  destruct (HDD k w Hkw Hk) as (v & Hv & Hvw). exists a, v. split; [auto|]. split; [auto|].
  rewrite (Harr _ _ _ Hx Hkw). auto.
Qed.
End Assemble.
