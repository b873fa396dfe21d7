From Verif Require Import RealAux Perc_model Perc_spec Perc_proof Surface_model Surface_spec Surface_proof
  Volume_model Volume_spec SMerge_model SMerge_spec SMerge_proof UVol3_proof
  Groups_model Groups_spec Groups_proof Groups2_proof
  Stack_model Stack_spec Cut_proof Gen_proof Stack_proof Stack2_proof Stack3_proof Stack4_proof Stack6_proof Stack7_proof
  Final_model Final_spec Final1_proof Final2_proof Final3_proof Line_spec Line1_proof Line2_proof.
From Coq Require Import Lra.
Open Scope nat_scope.

Section Lines.
Context {D : Type} (num : Z -> D) (int : D -> Z) (Hint : forall z, int (num z) = z).
Context (areas : shape3 -> list pt -> list R).
Context (Har : forall dims pts, length (areas dims pts) = n_cells dims).
Context (ax : nat) (Hax : ax <= 2) (nc : nat).
Notation ops := (lops num).
Notation la := (across ax).
Notation lext := (lextr areas ax).
Notation notrans := (fun _ _ _ _ => Err NotImplementedError).
Notation d0 := (lbase_dims ax nc).

Section Merged.
Context (o : options) (i1 : item (lbase D)) (rest : list (item (lbase D))) (bs : list (sgrid D))
  (groups : dict) (g : sgrid D) (nsubs : list nat) (Hne : rest <> []).
Context (HL : layer_counts rest nsubs) (Hlen : length bs = length nsubs)
  (HB : forall j blk, nth_error bs j = Some blk -> lblock num areas ax nc o i1 rest nsubs groups j blk).
Context (Hm : merge_structured bs (Some ax) = Ok g) (Hnum : numbered groups) (Hnc : 1 <= nc).

Lemma lfinish : exists g' labels cg cg', finish num int g groups = Ok (g', labels) /\
    sg_dims g' = sg_dims g /\ sg_pts g' = sg_pts g /\ sg_pd g' = sg_pd g /\
    sg_ghost g' = clean_ghost (sg_ghost g) /\
    NoDup (map fst (sg_cd g')) /\
    (forall k v, k <> "CellGroup"%string -> In (k, v) (sg_cd g') <-> In (k, v) (sg_cd g)) /\
    In ("CellGroup"%string, cg) (sg_cd g) /\
    In ("CellGroup"%string, map num cg') (sg_cd g') /\
    numbered labels /\ length cg' = n_cells (sg_dims g) /\
    (forall c k, named groups (map int cg) c k <-> named labels cg' c k) /\
    exists names, get_cell_group (Some (map int (map num cg'))) (Some labels) = Ok (Some (inl names)) /\
      length names = length cg' /\
      (forall c k, nth_error names c = Some k <-> named labels cg' c k) /\
      (forall k, In k (map fst labels) <-> In k names).
Proof.
  destruct (lgroups_known num areas Har ax Hax nc o i1 rest bs groups g nsubs Hne HL Hlen HB Hm Hnum Hnc) as (cg & Hcg & Lcg & HA).
  destruct (lmerged_dims num areas Har ax Hax nc o i1 rest bs groups g nsubs Hne HL Hlen HB Hm) as (W & Hd & Hn).
  apply wf_unfold in W as (_ & _ & _ & HN & _).
  destruct (finish_spec num int Hint g groups cg HN Hcg Hnum HA)
    as (g2 & labels2 & cg' & Hf' & Dd & Dp & Dpd & Dg & DN & DO & DC & DL & Lc & Dnm & DK).
  assert (Hall : forall c, c < length cg' -> exists k, named labels2 cg' c k).
  { intros c Hc. rewrite Lc in Hc. destruct (nth_error cg c) as [x|] eqn:Ex; [|apply nth_error_None in Ex; lia].
    destruct (HA c x Ex) as (k & z & -> & Hk). exists k. apply Dnm. exists z. split; auto.
    rewrite nth_error_map, Ex. cbn. now rewrite Hint. }
  destruct (names_spec num int Hint labels2 cg' DL Hall DK) as (names & E1 & E2 & E3 & E4).
  exists g2, labels2, cg, cg'. repeat (split; [assumption|]). split; [congruence|]. split; [exact Dnm|]. eauto 8.
Qed.

Definition cell_seg : nat -> nat -> nat -> nat := match ax with 0 => swapped_seg nc | _ => own_seg end.
Definition cell_lev : nat -> nat -> nat -> nat := match ax with 0 => swapped_lev nc | _ => own_lev end.

Lemma cell_index n i l : 2 <= n -> i < nc -> l < n - 1 ->
  fidx (cell_shape (grid_dims la ax (S nc) n)) (seg_at ax i l) = cell_lev (n - 1) i l * nc + cell_seg (n - 1) i l /\
  cell_lev (n - 1) i l < n - 1 /\ cell_seg (n - 1) i l < nc.
Proof.
  intros Hn Hi Hl. destruct (Nat.eq_dec ax 0) as [E|E].
  - assert (Hf : fidx (cell_shape (grid_dims la ax (S nc) n)) (seg_at ax i l) = l + (n - 1) * i).
    { rewrite E. unfold seg_at, grid_coord, across, grid_dims. cbn -[Nat.max Nat.sub Nat.mul]. nia. }
    rewrite Hf. unfold cell_lev, cell_seg. rewrite E. unfold swapped_lev, swapped_seg.
    pose proof (Nat.div_mod (l + (n - 1) * i) nc ltac:(lia)).
    split; [lia|]. split; [|apply Nat.mod_upper_bound; lia].
    apply Nat.div_lt_upper_bound; [lia|]. nia.
  - rewrite (seg_index ax Hax nc) by (auto; lia). unfold cell_lev, cell_seg.
    destruct ax as [|x]; [congruence|]. unfold own_lev, own_seg. lia.
Qed.

Lemma ltile {X} (v : list X) n i l : length v = nc -> 2 <= n -> i < nc -> l < n - 1 ->
  at_coord (cell_shape (grid_dims la ax (S nc) n)) (tile v (n - 1)) (seg_at ax i l) = nth_error v (cell_seg (n - 1) i l).
Proof.
  intros Lv Hn Hi Hl. unfold at_coord. destruct (cell_index n i l Hn Hi Hl) as (-> & H1 & H2). rewrite <- Lv.
  apply tile_nth_error; lia.
Qed.

Lemma lfinal g' labels : finish num int g groups = Ok (g', labels) ->
  lgroups_follow cell_seg int o ax nc (i1 :: rest) nsubs g' labels /\
  lghosts_follow cell_seg areas ax nc (i1 :: rest) nsubs g' /\
  lcells_follow cell_seg ax nc (i1 :: rest) nsubs g' /\
  lids_follow cell_seg cell_lev num ax nc nsubs g'.
Proof.
  intros Hf.
  destruct lfinish as (g2 & labels2 & cg & cg' & Hf' & Dd & Dp & Dpd & Dg & DN & DO & Hcg & DC & DL & Lc & Dnm & names & E1 & E2 & E3 & E4).
  rewrite Hf in Hf'. injection Hf' as <- <-.
  pose proof (lorigin num areas Har ax Hax nc o i1 rest bs groups g nsubs Hne HL Hlen HB Hm Hnc) as HO.
  pose proof (lkeys num areas Har ax Hax nc o i1 rest bs groups g nsubs Hne HL Hlen HB Hm Hnc) as HK.
  destruct (lmerged_dims num areas Har ax Hax nc o i1 rest bs groups g nsubs Hne HL Hlen HB Hm) as (W & Hd & Hn).
  apply wf_unfold in W as (_ & _ & _ & HN & HLen & HGl).
  split; [|split; [|split]].
  - split; [exact DL|]. split; [exact DN|]. exists (map num cg'), names.
    split; [exact DC|]. split; [exact E1|]. split; [rewrite E2, Lc, Dd; reflexivity|]. split; [exact E4|].
    intros i l Hi Hl.
    destruct (HO i l Hi Hl) as (j & a & b & arr & gj & gj' & b0 & perc & blk & Hj & Hns & Ha & Hb & Hig & G1 & G2 & Wa & Wb & La & Hxx & Hp & Hp2 & Eb & Hdb & Hr & HC & _).
    destruct (strip_facts num areas Har ax Hax nc _ _ _ _ _ _ Wa Wb La Hxx) as (perc' & Hp' & _ & _ & Hnc' & _ & _ & HT & _).
    rewrite Hp in Hp'. injection Hp' as <-.
    destruct (HT "CellGroup"%string (map num arr) (aput_In _ _ _)) as [HT1 HT2].
    assert (Hv : In ("CellGroup"%string, tile (map num arr) (length perc - 1)) (sg_cd blk)).
    { rewrite Eb. cbn [put_all numbered_ids fold_left fst snd put_ids lops sg_cd].
      apply aput_other; [discriminate|]. apply aput_other; [discriminate|]. apply aput_other; [discriminate|]. exact HT1. }
    specialize (HC _ _ _ Hcg Hv). rewrite Hdb, ltile in HC by (auto; lia).
    assert (Hal : aligned (gview ops (it_mesh a))) by (apply lb_align; apply (wf_line_lbase ax Hax nc); auto).
    destruct (item_names _ _ _ _ _ _ G1 Hal Hig (cell_seg (length perc - 1) i (l - list_sum (firstn j nsubs)))) as (k & (z & Hz & Hkz) & Hk).
    { cbn. rewrite seq_length. destruct Wa as (_ & -> & _). apply cell_index; lia. }
    rewrite nth_error_map, Hz in HC. cbn [option_map] in HC.
    exists j, (length perc - 1), a, b, k. repeat (split; [assumption|]). split; [|exact Hk].
    rewrite Dd. unfold at_coord in *. apply E3, Dnm. exists z. split.
    + rewrite nth_error_map, HC. cbn. now rewrite Hint.
    + destruct G2 as [ext ->]. apply in_or_app; auto.
  - assert (Hflag : forall c, in_shape (cell_shape (sg_dims g)) c ->
       exists x, at_coord (cell_shape (sg_dims g)) (sg_ghost g) c = Some x /\
         flag_at (cell_shape (sg_dims g')) (sg_ghost g') c = x).
    { intros c Hc. destruct (at_coord_some _ (sg_ghost g) c Hc HGl) as [x Hx]. exists x. split; [exact Hx|].
      rewrite Dd, Dg. unfold clean_ghost. destruct (forallb (Nat.eqb 0) (sg_ghost g)) eqn:E.
      - rewrite forallb_zero in E. unfold at_coord in Hx. apply E in Hx. subst x.
        unfold flag_at, at_coord. destruct (fidx _ _); reflexivity.
      - unfold flag_at. now rewrite Hx. }
    split.
    + rewrite Dg. unfold clean_ghost. destruct (forallb (Nat.eqb 0) (sg_ghost g)) eqn:E; [now left|right].
      split; [rewrite Dd; exact HGl|].
      assert (exists i x, nth_error (sg_ghost g) i = Some x /\ x <> 0) as (i & x & Hx & Hx0).
      { clear -E. induction (sg_ghost g) as [|y l IH]; [discriminate|]. cbn [forallb] in E.
        destruct (Nat.eqb_spec 0 y) as [Hy|Hy].
        - cbn [andb] in E. destruct (IH E) as (i & x & ? & ?). exists (S i), x. auto.
        - exists 0, y. split; [reflexivity|]. auto. }
      assert (Hi : i < n_cells (sg_dims g)) by (rewrite <- HGl; apply nth_error_Some; congruence).
      destruct (coord_of _ _ Hi) as (c & Hc & Ei). rewrite Hd in Hc.
      destruct (seg_of ax Hax nc _ _ Hnc Hn Hc) as (i' & l & Hi' & Hl & ->).
      exists i', l. split; [auto|]. split; [auto|]. rewrite Dd. unfold flag_at, at_coord. rewrite Ei, Hx. exact Hx0.
    + intros i l Hi Hl.
      assert (Hc : in_shape (cell_shape (sg_dims g)) (seg_at ax i l)) by (rewrite Hd; apply seg_in; auto).
      destruct (Hflag _ Hc) as (x & Hx & Ef). rewrite Ef.
      destruct (HO i l Hi Hl) as (j & a & b & arr & gj & gj' & b0 & perc & blk & Hj & Hns & Ha & Hb & Hig & G1 & G2 & Wa & Wb & La & Hxx & Hp & Hp2 & Eb & Hdb & Hr & _ & HG).
      destruct (strip_facts num areas Har ax Hax nc _ _ _ _ _ _ Wa Wb La Hxx)
        as (perc' & Hp' & _ & Hd0 & Hnc' & HS & _ & _ & _ & Lg & Hgh).
      rewrite Hp in Hp'. injection Hp' as <-.
      assert (Egh : sg_ghost blk = sg_ghost b0) by (rewrite Eb; reflexivity).
      set (l' := l - list_sum (firstn j nsubs)) in *.
      assert (Hin : in_shape (cell_shape (grid_dims la ax (S nc) (length perc))) (seg_at ax i l')).
      { replace (length perc) with (S (length perc - 1)) by lia. apply seg_in; auto; unfold l'; lia. }
      destruct (at_coord_some _ (areas (sg_dims b0) (sg_pts b0)) _ Hin) as [w Hw].
      { rewrite Har, Hd0. reflexivity. }
      exists j, (length perc - 1), a, b, perc, (sg_pts b0), w. repeat (split; [assumption|]).
      split; [rewrite <- Hd0 at 2; exact Hw|].
      unfold at_coord in Hw. destruct (Hgh _ _ Hw) as [Z1 Z2].
      rewrite Hx, Hdb, Egh in HG. unfold at_coord in HG.
      split; intros H0.
      * specialize (Z1 H0). congruence.
      * specialize (Z2 H0). rewrite Z2 in HG.
        destruct (ln_ghost (lb_line (it_mesh a))) as [gh|] eqn:Eg; [|congruence].
        assert (Lgh : length gh = nc) by (destruct Wa as (_ & _ & _ & _ & _ & _ & _ & _ & Wg & _); auto).
        pose proof (ltile gh (length perc) i l' Lgh Hp2 Hi ltac:(unfold l'; lia)) as T. unfold at_coord in T.
        rewrite T in HG. symmetry. apply nth_error_nth. auto.
  - split.
    + intros k. assert (Hkk : In k (map fst (sg_cd g')) <-> In k (map fst (sg_cd g))).
      { destruct (string_dec k "CellGroup") as [->|Hk].
        - split; intros _; [apply (in_map fst) in Hcg; exact Hcg|apply (in_map fst) in DC; exact DC].
        - rewrite !in_map_iff. split; intros ([k' v] & Ek & Hv); cbn in Ek; subst k'; exists (k, v);
            (split; [reflexivity|]); apply (DO k v Hk); exact Hv. }
      rewrite Hkk. apply HK.
    + intros k x Hx Hk. cbn [In] in Hk.
      assert (Hx' : In (k, x) (sg_cd g)) by (apply DO; [intuition congruence|exact Hx]).
      split; [rewrite Dd; eauto|]. intros i l Hi Hl. rewrite Dd.
      destruct (HO i l Hi Hl) as (j & a & b & arr & gj & gj' & b0 & perc & blk & Hj & Hns & Ha & Hb & Hig & G1 & G2 & Wa & Wb & La & Hxx & Hp & Hp2 & Eb & Hdb & Hr & HC & _).
      destruct (strip_facts num areas Har ax Hax nc _ _ _ _ _ _ Wa Wb La Hxx) as (perc' & Hp' & _ & _ & Hnc' & _ & _ & HT & _).
      rewrite Hp in Hp'. injection Hp' as <-.
      assert (Hin : In k (map fst (ln_cd (lb_line (it_mesh a))))).
      { assert (Hk' : In k (map fst (sg_cd g))) by (apply (in_map fst) in Hx'; exact Hx').
        apply HK in Hk' as [Hk'|Hk']; [cbn [In] in Hk'; tauto|]. eapply Hk'; eauto. }
      apply in_map_iff in Hin as ([k' v] & Ek' & Hv). cbn in Ek'. subst k'.
      exists j, (length perc - 1), a, v. repeat (split; [assumption|]).
      destruct (HT k v) as [HT1 HT2]. { apply aput_other; [intuition congruence|exact Hv]. }
      rewrite (HC k x (tile v (length perc - 1)) Hx').
      * rewrite Hdb. apply ltile; auto; lia.
      * rewrite Eb. cbn [put_all numbered_ids fold_left fst snd put_ids lops sg_cd].
        apply aput_other; [intuition congruence|]. apply aput_other; [intuition congruence|].
        apply aput_other; [intuition congruence|]. exact HT1.
  - assert (HI : forall k, In k ["ColumnId"; "LayerId"; "StackItem"]%string -> exists v, In (k, v) (sg_cd g) /\ In (k, v) (sg_cd g')).
    { intros k Hk. assert (Hk' : In k (map fst (sg_cd g))) by (apply HK; left; cbn in *; tauto).
      apply in_map_iff in Hk' as ([k' v] & Ek & Hv). cbn in Ek. subst k'. exists v. split; [auto|].
      apply DO; auto. intros ->. cbn in Hk. intuition discriminate. }
    destruct (HI "ColumnId"%string) as (col & Hcol & Hcol'); [cbn; auto|].
    destruct (HI "LayerId"%string) as (lay & Hlay & Hlay'); [cbn; auto|].
    destruct (HI "StackItem"%string) as (itm & Hitm & Hitm'); [cbn; auto|].
    exists col, lay, itm. repeat (split; [assumption|]). intros i l Hi Hl. cbv zeta. rewrite Dd.
    destruct (HO i l Hi Hl) as (j & a & b & arr & gj & gj' & b0 & perc & blk & Hj & Hns & Ha & Hb & Hig & G1 & G2 & Wa & Wb & La & Hxx & Hp & Hp2 & Eb & Hdb & Hr & HC & _).
    destruct (put_block_ids num "StackItem" (length perc - 1) nc (list_sum (firstn j nsubs)) j (sg_cd b0))
      as (col' & lay' & itm' & I1 & I2 & I3 & _ & _ & _ & HBk); try discriminate.
    assert (Ecd : sg_cd blk = aput "StackItem" (map num (repeat (Z.of_nat j) ((length perc - 1) * nc)))
      (aput "LayerId" (map num (repeat_each (map Z.of_nat (seq (list_sum (firstn j nsubs)) (length perc - 1))) nc))
        (aput "ColumnId" (map num (tile (map Z.of_nat (seq 0 nc)) (length perc - 1))) (sg_cd b0)))) by (rewrite Eb; reflexivity).
    rewrite <- Ecd in I1, I2, I3.
    rewrite (HC _ _ _ Hcol I1), (HC _ _ _ Hlay I2), (HC _ _ _ Hitm I3), Hdb.
    unfold at_coord.
    destruct (cell_index (length perc) i (l - list_sum (firstn j nsubs))) as (-> & Q1 & Q2); [lia|lia|lia|].
    destruct (HBk _ _ Q1 Q2) as (B1 & B2 & B3). rewrite B1, B2, B3.
    exists j, (length perc - 1). repeat (split; [assumption|]). split; [reflexivity|]. split; reflexivity.
Qed.
End Merged.

(* ---- the cut keeps lines ---- *)
Lemma wf_line_only i j : only_points ops i j -> wf_line nc (it_mesh i) ->
  length (points ops j) = S nc -> wf_line nc (it_mesh j).
Proof.
  intros (E & _) (A1 & A2 & A3 & A4) Hl. rewrite E. cbn. unfold wf_line; cbn. repeat (split; [auto|]); apply A4.
Qed.

Lemma line_stack_pre o bu items g groups n js :
  Forall (fun i => wf_line nc (it_mesh i)) items ->
  Forall (fun it => it_trans it = false) (tl items) ->
  stack2d num areas o ax bu items = Ok (g, groups, n, js) ->
  exists i1 rest j1 rest' bs, items = i1 :: rest /\ rest <> [] /\ js = j1 :: rest' /\ rest' <> [] /\
    Forall2 (only_points ops) items js /\
    Forall (fun i => wf_line nc (it_mesh i)) js /\
    Forall (fun it => it_trans it = false) rest' /\
    gen_loop ops o "StackItem" lext notrans 0 0 [] j1 rest' = Ok (bs, groups, n) /\
    merge_structured bs (Some ax) = Ok g.
Proof.
  intros Hw Ht H. apply stack_inv in H as (i1 & rest & j1 & rest' & bs & -> & Hne & -> & Hl & Hc & Hg & Hm).
  edestruct (fun H => cut_loop_lengths ops (lops_lawful num) ax bu rest i1 _ (S nc) H Hc) as [HF HP].
  { intros i Hi. rewrite Forall_forall in Hw. apply (Hw i Hi). }
  exists i1, rest, j1, rest', bs. repeat (split; [assumption || reflexivity|]).
  assert (rest' <> []) by (destruct rest', rest; auto; simpl in Hl; congruence).
  split; [auto|]. split; [auto|]. split; [|split; [|split; [exact Hg|exact Hm]]].
  - rewrite Forall_forall in *. intros j Hj. pose proof Hj as Hj'. apply In_nth_error in Hj' as [k Hk].
    destruct (Forall2_nth_error_r _ _ _ _ _ HF Hk) as (i & Hi & Ho).
    apply (wf_line_only i); auto. apply Hw. eapply nth_error_In; eauto.
  - inversion HF; subst. eapply only_points_trans; eauto.
Qed.

Lemma line_mesh_inv o bu items g labels js :
  stack2d_mesh num int areas o ax bu items = Ok (g, labels, js) ->
  exists g0 groups n, stack2d num areas o ax bu items = Ok (g0, groups, n, js) /\
    finish num int g0 groups = Ok (g, labels).
Proof.
  unfold stack2d_mesh. destruct (stack2d _ _ _ _ _ _) as [[[[g0 groups] n] js0]|]; [|discriminate].
  cbn [bind]. destruct (finish num int g0 groups) as [[g1 l1]|] eqn:E; [|discriminate]. cbn [bind].
  intros H%Ok_inj. injection H as <- <- <-. eauto.
Qed.

Lemma lview_only i j : only_points ops i j ->
  lbase_view (it_mesh j) = lbase_view (it_mesh i) /\ ln_cd (lb_line (it_mesh j)) = ln_cd (lb_line (it_mesh i)) /\
  it_group j = it_group i.
Proof. intros (-> & _ & _ & _ & _ & -> & _). repeat split. Qed.

Lemma line_final o bu items g labels js :
  Forall (fun i => wf_line nc (it_mesh i)) items ->
  Forall (fun it => it_trans it = false) (tl items) ->
  stack2d_mesh num int areas o ax bu items = Ok (g, labels, js) ->
  Forall2 (only_points ops) items js /\
  exists nsubs, layer_counts (tl items) nsubs /\
    lnodes_follow ax nc js nsubs g /\
    lgroups_follow cell_seg int o ax nc items nsubs g labels /\
    lghosts_follow cell_seg areas ax nc js nsubs g /\
    lcells_follow cell_seg ax nc items nsubs g /\
    lids_follow cell_seg cell_lev num ax nc nsubs g.
Proof.
  intros Hw Ht H. apply line_mesh_inv in H as (g0 & groups & n & H & Hf).
  destruct (line_stack_pre o bu items g0 groups n js Hw Ht H)
    as (i1 & rest & j1 & rest' & bs & Ei & Hne & -> & Hne' & HF & Hw' & Ht' & Hg & Hm).
  destruct (lblocks_inv num areas Har ax Hax nc o j1 rest' bs groups n Ht' Hw' Hg) as (Hnum & nsubs & HL & Hlen & En & HB).
  assert (Hnc : 1 <= nc) by (inversion Hw' as [|? ? W]; apply W).
  split; [exact HF|]. exists nsubs. split.
  { subst items. inversion HF; subst. cbn. eapply layer_counts_only; eauto. }
  split.
  - pose proof (lnodes num areas Har ax Hax nc o j1 rest' bs groups g0 nsubs Hne' HL Hlen HB Hm Hnc) as HN.
    destruct (lfinish o j1 rest' bs groups g0 nsubs Hne' HL Hlen HB Hm Hnum Hnc) as (g2 & l2 & cg & cg' & Hf' & Dd & Dp & _).
    rewrite Hf in Hf'. injection Hf' as <- <-. unfold lnodes_follow in *. rewrite Dd, Dp. exact HN.
  - destruct (lfinal o j1 rest' bs groups g0 nsubs Hne' HL Hlen HB Hm Hnum Hnc g labels Hf) as (F1 & F2 & F3 & F4).
    split; [|split; [exact F2|split; [|exact F4]]].
    + destruct F1 as (A1 & A2 & cg & names & A3 & A4 & A5 & A6 & A7). split; [auto|]. split; [auto|].
      exists cg, names. repeat (split; [assumption|]). intros i l Hi Hl.
      destruct (A7 i l Hi Hl) as (j & ns & a & b & k & Hj & Hns & Ha & Hb & Hk & Hit).
      destruct (Forall2_nth_error_r _ _ _ _ _ HF Ha) as (a0 & Ha0 & Oa).
      destruct (Forall2_nth_error_r _ _ _ (S j) b HF Hb) as (b0 & Hb0 & Ob).
      exists j, ns, a0, b0, k. repeat (split; [assumption|]).
      destruct (lview_only _ _ Oa) as (<- & _). destruct (lview_only _ _ Ob) as (_ & _ & <-). exact Hit.
    + destruct F3 as [A1 A2]. split.
      * intros k. rewrite A1. split; (intros [Hk|Hk]; [now left|right]); intros j a b Ha Hb.
        -- destruct (Forall2_nth_error _ _ _ _ _ HF Ha) as (a0 & Ha0 & Oa).
           destruct (Forall2_nth_error _ _ _ (S j) b HF Hb) as (b0 & Hb0 & Ob).
           destruct (lview_only _ _ Oa) as (_ & <- & _). eauto.
        -- destruct (Forall2_nth_error_r _ _ _ _ _ HF Ha) as (a0 & Ha0 & Oa).
           destruct (Forall2_nth_error_r _ _ _ (S j) b HF Hb) as (b0 & Hb0 & Ob).
           destruct (lview_only _ _ Oa) as (_ & -> & _). eauto.
      * intros k x Hx Hk. destruct (A2 k x Hx Hk) as [L A3]. split; [exact L|]. intros i l Hi Hl.
        destruct (A3 i l Hi Hl) as (j & ns & a & v & Hj & Hns & Ha & Hv & E).
        destruct (Forall2_nth_error_r _ _ _ _ _ HF Ha) as (a0 & Ha0 & Oa).
        exists j, ns, a0, v. destruct (lview_only _ _ Oa) as (_ & <- & _). auto.
Qed.

(* ---- existence ---- *)
Lemma strip_defined (a b : lbase D) arr r m perc : wf_line nc a -> wf_line nc b -> length arr = nc ->
  resolution_to_perc r m = Ok perc -> 2 <= length perc ->
  exists b0, lext (set_cg ops arr a) b r m = Ok b0.
Proof.
  intros (N1 & Na & Pa & La & Ra & Da & PDa & CDa & Ga & Cga) (_ & Nb & Pb & Lb & Rb & _) Larr Hp Hp2.
  assert (HG : forall l : lbase D, length (ln_pts (lb_line l)) = S nc -> (forall v, In v (ln_ids (lb_line l)) -> v < S nc) ->
     exists ps, get_points (LinePoly (lb_line l)) = Ok ps).
  { intros l Hl Hi. cbn. apply mapM_defined. intros v Hv. specialize (Hi v Hv).
    destruct (nth_error (ln_pts (lb_line l)) v) as [p|] eqn:E; [eauto|apply nth_error_None in E; lia]. }
  destruct (HG (set_cg ops arr a) Pa Ra) as [pa Hpa]. destruct (HG b Pb Rb) as [pb Hpb].
  pose proof (get_points_length _ _ Hpa) as Lpa. pose proof (get_points_length _ _ Hpb) as Lpb.
  cbn [set_cg lops lb_line ln_ids] in Lpa. rewrite La in Lpa. rewrite Lb in Lpb.
  unfold lextr, generate_surface_from_two_lines. rewrite Hpa, Hpb. cbn [bind].
  rewrite Lpa, Lpb, Nat.eqb_refl, Hp. cbn [negb bind].
  assert (Hpl : plane_axes (stack2d_plane ax) la ax).
  { destruct ax as [|[|[|]]]; try lia; constructor. }
  destruct (surface_points_defined (stack2d_plane ax) la ax pa pb perc Hpl) as [[dims pts] Hs].
  rewrite Hs. cbn [bind].
  pose proof (surface_points_spec _ _ _ _ _ _ Hs) as (la' & lb' & Hpl' & Hd & Lp & _).
  apply (plane_axes_across ax Hax) in Hpl' as [-> ->]. rewrite Lpa in Hd, Lp.
  assert (Hcells : n_cells dims = (length perc - 1) * nc) by (rewrite Hd; apply strip_cells; auto).
  edestruct (mapM_defined (fun kv : string * list D => assign_data (length pts) (fst kv, tile (snd kv) (length perc)))
    (ln_pd (lb_line a))) as [pd Hpd].
  { intros [k v] Hv. unfold assign_data. cbn [fst snd]. rewrite tile_length, (PDa k v Hv), Lp.
    rewrite (Nat.mul_comm (length perc)), Nat.eqb_refl. eauto. }
  edestruct (mapM_defined (fun kv : string * list D => assign_data (n_cells dims) (fst kv, tile (snd kv) (length perc - 1)))
    (aput "CellGroup" (map num arr) (ln_cd (lb_line a)))) as [cd Hcd].
  { intros [k v] Hv. unfold assign_data. cbn [fst snd].
    assert (Lv : length v = nc).
    { revert k v Hv. apply (aput_all _ _ _ (fun v => length v = nc)); auto. rewrite map_length; auto. }
    rewrite tile_length, Lv, Hcells, Nat.eqb_refl. eauto. }
  cbn [set_cg lops lb_line ln_pd ln_cd ln_ghost]. rewrite Hpd. cbn [bind]. rewrite Hcd. cbn [bind].
  destruct (ln_ghost (lb_line a)) as [gh|] eqn:Eg.
  - rewrite tile_length, (Ga gh eq_refl), Hcells, Nat.eqb_refl. cbn [bind]. eauto.
  - cbn [bind]. eauto.
Qed.

Lemma line_mesh_defined o bu items : 2 <= length items ->
  Forall (fun i => wf_line nc (it_mesh i)) items ->
  Forall (fun it => it_trans it = false /\ positions_span it /\ group_by_name it) (tl items) ->
  exists g labels js, stack2d_mesh num int areas o ax bu items = Ok (g, labels, js).
Proof.
  intros H2 Hw Ht. destruct items as [|i1 [|i2 rest0]]; simpl in H2; try lia. clear H2.
  set (r := i2 :: rest0) in *. cbn [tl] in Ht.
  destruct (cut_loop_defined ops (lops_lawful num) ax bu (S nc) r i1) as [js Hc].
  { intros i Hi. rewrite Forall_forall in Hw. apply (Hw i Hi). }
  destruct (cut_loop_cons _ _ _ _ _ _ Hc) as (j1 & rest & -> & Hl).
  edestruct (fun H => cut_loop_lengths ops (lops_lawful num) ax bu r i1 _ (S nc) H Hc) as [HF HPl].
  { intros i Hi. rewrite Forall_forall in Hw. apply (Hw i Hi). }
  assert (Hw' : Forall (fun i => wf_line nc (it_mesh i)) (j1 :: rest)).
  { rewrite Forall_forall in *. intros j Hj. pose proof Hj as Hj'. apply In_nth_error in Hj' as [k Hk].
    destruct (Forall2_nth_error_r _ _ _ _ _ HF Hk) as (i & Hi & Ho).
    apply (wf_line_only i); auto. apply Hw. eapply nth_error_In; eauto. }
  assert (HF' : Forall2 (only_points ops) r rest) by (inversion HF; auto).
  assert (HP : Forall (fun it => it_trans it = false /\ positions_span it /\ group_by_name it) rest).
  { clear -HF' Ht. revert Ht; induction HF' as [|i j l l' Ho HF IH]; intros Ht; constructor;
      inversion Ht as [|? ? Hi Hl]; subst; auto.
    destruct Ho as (_ & E1 & E2 & _ & _ & E3 & E4). unfold positions_span, group_by_name in *.
    rewrite E1, E2, E3, E4. auto. }
  assert (Hne : rest <> []) by (destruct rest; [simpl in Hl; lia|discriminate]).
  assert (HT : Forall (fun it => it_trans it = false) rest) by (eapply Forall_impl; [|exact HP]; cbn; tauto).
  assert (HGen : exists x, gen_loop ops o "StackItem" lext notrans 0 0 [] j1 rest = Ok x).
  { apply gen_loop_err; auto using numbered_nil.
    - eapply Forall_impl; [|exact Hw']. intros i Hi. apply lb_align; apply (wf_line_lbase ax Hax nc); auto.
    - intros j a b arr gg gg' Hn Ha Hb Hi. rewrite Forall_forall in Hw', HP.
      assert (Wa : wf_line nc (it_mesh a)) by (apply Hw'; eapply nth_error_In; eauto).
      assert (Wb : wf_line nc (it_mesh b)) by (apply Hw'; right; eapply nth_error_In; eauto).
      destruct (HP b) as (_ & (perc & Hp & Hp2 & _) & _); [eapply nth_error_In; eauto|].
      pose proof Wa as (N1 & Nc & _).
      assert (Larr : length arr = nc).
      { destruct (initialize_spec _ _ _ _ _ _ _ Hn (lb_align num _ (wf_line_lbase ax Hax nc _ Wa)) Hi) as (_ & _ & L & _).
        rewrite L. cbn. rewrite seq_length. auto. }
      destruct (strip_defined (it_mesh a) (it_mesh b) arr (it_res b) (it_method b) perc) as [b0 Hb0]; auto.
      destruct (strip_facts num areas Har ax Hax nc _ _ _ _ _ _ Wa Wb Larr Hb0) as (perc' & Hp' & _ & _ & Hn' & _).
      exists b0, (length perc' - 1). split; [exact Hb0|]. cbn [ncM ncB lops set_cg lb_nc]. rewrite Nc. split; [lia|exact Hn'].
    - intros j a b gg Ha Hb. rewrite Forall_forall in HP. apply initialize_total.
      apply (HP b). eapply nth_error_In; eauto. }
  destruct HGen as [[[bs groups] n] Hg].
  destruct (lblocks_inv num areas Har ax Hax nc o j1 rest bs groups n HT Hw' Hg) as (Hnum & nsubs & HL & Hlen & En & HB).
  assert (Hnc : 1 <= nc) by (inversion Hw' as [|? ? W]; apply W).
  assert (HM : exists g, merge_structured bs (Some ax) = Ok g).
  { pose proof (fun j blk H => proj1 (lblock_wf num areas Har ax Hax nc o j1 rest nsubs groups j blk (HB j blk H))) as HWf.
    destruct bs as [|b1 bs'] eqn:Eb.
    { destruct HL as [L _]. destruct nsubs; [|discriminate]. destruct rest; [congruence|discriminate]. }
    assert (W1 : wf_grid ax b1) by (apply (HWf 0 b1 eq_refl)).
    assert (Wl : Forall (wf_grid ax) bs').
    { rewrite Forall_forall. intros x Hx. apply In_nth_error in Hx as [k Hk]. apply (HWf (S k) x Hk). }
    destruct (proj1 (merge_fold_defined ax b1 bs' Hax W1 Wl)) as [F _].
    destruct F as [g Hg'].
    2: { exists g. rewrite merge_is_fold. exact Hg'. }
    apply chain_nth. intros j A B HA HB'.
    destruct (HB _ _ HA) as (a & b & arr & gj & gj' & b0 & perc & Ha & Hb & Hi & G1 & G2 & Wa & Wb & La & Hx & Hp & Hp2 & Hns & EA).
    destruct (HB _ _ HB') as (b2 & e & arr2 & gj2 & gj2' & b02 & perc2 & Hb2 & He & Hi2 & G12 & G22 & Wb2 & We & La2 & Hx2 & Hpp2 & Hp22 & Hns2 & EB).
    assert (b2 = b) as -> by (simpl in Hb2; congruence).
    destruct (strip_facts num areas Har ax Hax nc _ _ _ _ _ _ Wa Wb La Hx) as (perc' & Hp' & _ & HdA & _ & [_ HPA] & _).
    rewrite Hp in Hp'. injection Hp' as <-.
    destruct (strip_facts num areas Har ax Hax nc _ _ _ _ _ _ Wb We La2 Hx2) as (perc' & Hp' & _ & HdB & _ & [_ HPB] & _).
    rewrite Hpp2 in Hp'. injection Hp' as <-.
    assert (EdA : sg_dims A = grid_dims la ax (S nc) (length perc)) by (rewrite EA; exact HdA).
    assert (EdB : sg_dims B = grid_dims la ax (S nc) (length perc2)) by (rewrite EB; exact HdB).
    assert (EpA : sg_pts A = sg_pts b0) by (rewrite EA; reflexivity).
    assert (EpB : sg_pts B = sg_pts b02) by (rewrite EB; reflexivity).
    rewrite Forall_forall in HP.
    destruct (HP b) as (_ & (p1 & Hp1 & _ & _ & Hlast) & _); [eapply nth_error_In; eauto|].
    rewrite Hp in Hp1. injection Hp1 as <-.
    destruct (HP e) as (_ & (p2 & Hp2' & _ & Hfirst & _) & _); [eapply nth_error_In; eauto|].
    rewrite Hpp2 in Hp2'. injection Hp2' as <-.
    split.
    { rewrite EdA, EdB, !(strip_dims ax Hax), !setc_setc. reflexivity. }
    intros c p q Hcc HpA HqB. rewrite EdA in Hcc.
    assert (exists i, i < S nc /\ setc ax 0 c = grid_coord la ax i 0 /\
       setc ax (length perc - 1) c = grid_coord la ax i (length perc - 1)) as (i & Hi' & Ec0 & Ec1).
    { clear -Hcc Hax. destruct c as [[x y] z]. unfold grid_dims, grid_coord, across in *.
      destruct ax as [|[|[|]]]; try lia; cbn in *; [exists y|exists x|exists x]; (split; [lia|]);
        split; repeat f_equal; lia. }
    destruct (line_point_some ax Hax nc (it_mesh a) i Wa Hi') as [x Hx'].
    destruct (line_point_some ax Hax nc (it_mesh b) i Wb Hi') as [y Hy'].
    destruct (line_point_some ax Hax nc (it_mesh e) i We Hi') as [z Hz'].
    assert (EC : comp ax (sg_dims A) = length perc).
    { rewrite EdA, (strip_dims ax Hax), comp_setc. reflexivity. }
    rewrite EC, Ec1, EdA, EpA, (HPA i (length perc - 1) 1%R x y Hlast Hx' Hy') in HpA.
    rewrite Ec0, EdB, EpB, (HPB i 0 0%R y z Hfirst Hy' Hz') in HqB.
    injection HpA as <-. injection HqB as <-. rewrite !on_way_lerp, lerp_1, lerp_0. apply near_refl. }
  destruct HM as [g Hm].
  destruct (lfinish o j1 rest bs groups g nsubs Hne HL Hlen HB Hm Hnum Hnc) as (g2 & l2 & cg & cg' & Hf & _).
  exists g2, l2, (j1 :: rest). unfold stack2d_mesh, stack2d, stack_generate. fold r.
  change (match r with [] => _ | _ => _ end) with
    (let! js := cut_loop ops ax bu i1 r in
      match js with
      | [] => Err ValueError
      | j1 :: rest' =>
          let! r := gen_loop ops o "StackItem" lext notrans 0 0 [] j1 rest' in
          let '(bs, groups, n) := r in
          let! m := merge_structured bs (Some ax) in
          Ok (m, groups, n, js)
      end).
  rewrite Hc. cbn [bind]. rewrite Hg. cbn [bind]. rewrite Hm. cbn [bind]. rewrite Hf. cbn [bind]. reflexivity.
Qed.
End Lines.
