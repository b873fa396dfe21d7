From Verif Require Import RealAux Perc_model Perc_spec Perc_proof Surface_model Surface_spec Surface_proof
  Volume_model Volume_spec SMerge_model SMerge_spec SMerge_proof UVol3_proof
  Groups_model Groups_spec Groups_proof Groups2_proof
  Stack_model Stack_spec Cut_proof Gen_proof Stack_proof Stack2_proof Stack3_proof Stack4_proof Stack6_proof Stack7_proof
  Final_model Final_spec Final1_proof Final2_proof Final3_proof Line_spec Line1_proof.
From Coq Require Import Lra.
Open Scope nat_scope.

Section Lines.
Context {D : Type} (num : Z -> D) (areas : shape3 -> list pt -> list R).
Context (Har : forall dims pts, length (areas dims pts) = n_cells dims).
Context (ax : nat) (Hax : ax <= 2) (nc : nat).
Notation ops := (lops num).
Notation la := (across ax).
Notation lext := (lextr areas ax).
Notation notrans := (fun _ _ _ _ => Err NotImplementedError).
Notation d0 := (lbase_dims ax nc).

Lemma wf_line_lbase (m : lbase D) : wf_line nc m -> wf_lbase m.
Proof. intros (H1 & H2 & _ & H3 & _ & _ & _ & _ & _ & H4). unfold wf_lbase. rewrite H2, H3. repeat split; try lia. auto. Qed.

Lemma line_point_some (m : lbase D) i : wf_line nc m -> i < S nc -> exists p, line_point m i p.
Proof.
  intros (_ & _ & HP & HL & HR & _) Hi.
  destruct (nth_error (ln_ids (lb_line m)) i) as [v|] eqn:Ev; [|apply nth_error_None in Ev; lia].
  destruct (nth_error (ln_pts (lb_line m)) v) as [p|] eqn:Ep.
  - exists p, v. auto.
  - apply nth_error_None in Ep. specialize (HR v (nth_error_In _ _ Ev)). lia.
Qed.
Lemma line_point_fun (m : lbase D) i p q : line_point m i p -> line_point m i q -> p = q.
Proof. intros (v & H1 & H2) (w & H3 & H4). congruence. Qed.

(* block j, before and after its identifiers are added *)
Definition lblock (o : options) (i1 : item (lbase D)) rest (nsubs : list nat) groups (j : nat) (blk : sgrid D) :=
  exists a b arr gj gj' b0 perc,
    nth_error (i1 :: rest) j = Some a /\ nth_error rest j = Some b /\
    initialize_group_array o (gview ops (it_mesh a)) gj (it_group b) "" = Ok (arr, gj') /\
    numbered gj /\ extends gj' groups /\
    wf_line nc (it_mesh a) /\ wf_line nc (it_mesh b) /\ length arr = nc /\
    lext (set_cg ops arr (it_mesh a)) (it_mesh b) (it_res b) (it_method b) = Ok b0 /\
    resolution_to_perc (it_res b) (it_method b) = Ok perc /\ 2 <= length perc /\
    nth_error nsubs j = Some (length perc - 1) /\
    blk = put_all ops (numbered_ids "StackItem" j (list_sum (firstn j nsubs)) (length perc - 1) nc) b0.

Lemma lblocks_inv o (i1 : item (lbase D)) rest bs groups n :
  Forall (fun it => it_trans it = false) rest ->
  Forall (fun i => wf_line nc (it_mesh i)) (i1 :: rest) ->
  gen_loop ops o "StackItem" lext notrans 0 0 [] i1 rest = Ok (bs, groups, n) ->
  numbered groups /\ exists nsubs, layer_counts rest nsubs /\ length bs = length nsubs /\ n = list_sum nsubs /\
    forall j blk, nth_error bs j = Some blk -> lblock o i1 rest nsubs groups j blk.
Proof.
  intros Ht Hw Hg.
  destruct (gen_loop_inv ops o "StackItem" lext notrans rest 0 0 [] i1 bs groups n)
    as (Hn & _ & nsubs & Ln & Lb & En & HJ); auto using numbered_nil.
  { eapply Forall_impl; [|exact Hw]. intros i Hi. apply lb_align, wf_line_lbase; auto. }
  split; [auto|]. exists nsubs.
  assert (HK : forall j b, nth_error rest j = Some b -> exists a arr gj gj' b0 perc,
    nth_error (i1 :: rest) j = Some a /\
    initialize_group_array o (gview ops (it_mesh a)) gj (it_group b) "" = Ok (arr, gj') /\
    numbered gj /\ extends gj' groups /\
    wf_line nc (it_mesh a) /\ wf_line nc (it_mesh b) /\ length arr = nc /\
    lext (set_cg ops arr (it_mesh a)) (it_mesh b) (it_res b) (it_method b) = Ok b0 /\
    resolution_to_perc (it_res b) (it_method b) = Ok perc /\ 2 <= length perc /\
    nth_error nsubs j = Some (length perc - 1) /\
    nth_error bs j = Some (put_all ops (numbered_ids "StackItem" j (list_sum (firstn j nsubs)) (length perc - 1) nc) b0)).
  { intros j b Hb.
    assert (Hj : j < length rest) by (apply nth_error_Some; congruence).
    destruct (nth_error (i1 :: rest) j) as [a|] eqn:Ha; [|apply nth_error_None in Ha; simpl in Ha; lia].
    destruct (HJ j a b Ha Hb) as (arr & gj & gj' & b0 & nsub & H1 & H2 & H3 & H4 & H5 & H6 & H7 & H8 & H9).
    rewrite Forall_forall in Hw.
    assert (Wa : wf_line nc (it_mesh a)) by (apply Hw; eapply nth_error_In; eauto).
    assert (Wb : wf_line nc (it_mesh b)) by (apply Hw; right; eapply nth_error_In; eauto).
    pose proof Wa as (N1 & Nc & _).
    assert (Larr : length arr = nc).
    { destruct (initialize_spec _ _ _ _ _ _ _ H2 (lb_align num _ (wf_line_lbase _ Wa)) H1) as (_ & _ & L & _).
      rewrite L. cbn. rewrite seq_length. auto. }
    destruct (strip_facts num areas Har ax Hax nc (it_mesh a) (it_mesh b) arr b0 (it_res b) (it_method b) Wa Wb Larr H5) as (perc & Hp & Hp2 & Hd & Hnc & _).
    cbn [ncM ncB lops set_cg lb_nc] in H7, H8. rewrite Nc in H7, H8. rewrite Hnc in H8. change (ncM ops (set_cg ops arr (it_mesh a))) with (lb_nc (it_mesh a)) in H9. rewrite Nc in H9.
    assert (nsub = length perc - 1) as -> by (apply Nat.mul_cancel_r in H8; lia).
    exists a, arr, gj, gj', b0, perc. split; [reflexivity|]. repeat (split; [assumption|]). exact H9. }
  split.
  { split; [auto|]. intros j b Hb. destruct (HK j b Hb) as (a & arr & gj & gj' & b0 & perc & _ & _ & _ & _ & _ & _ & _ & _ & Hp & _ & Hns & _).
    exists (length perc - 1). split; [auto|]. exists perc. auto. }
  split; [lia|]. split; [exact En|].
  intros j blk Hblk.
  destruct (nth_error rest j) as [b|] eqn:Hb.
  - destruct (HK j b Hb) as (a & arr & gj & gj' & b0 & perc & K1 & K2 & K3 & K4 & K5 & K6 & K7 & K8 & K9 & K10 & K11 & K12).
    exists a, b, arr, gj, gj', b0, perc. repeat (split; [assumption|]). congruence.
  - apply nth_error_None in Hb. assert (j < length bs) by (apply nth_error_Some; congruence). lia.
Qed.

Lemma lblock_wf o i1 rest nsubs groups j blk : lblock o i1 rest nsubs groups j blk ->
  wf_grid ax blk /\ exists ns, nth_error nsubs j = Some ns /\ 1 <= ns /\ sg_dims blk = setc ax (S ns) d0.
Proof.
  intros (a & b & arr & gj & gj' & b0 & perc & Ha & Hb & Hi & G1 & G2 & Wa & Wb & La & Hx & Hp & Hp2 & Hns & ->).
  destruct (strip_facts num areas Har ax Hax nc _ _ _ _ _ _ Wa Wb La Hx)
    as (perc' & Hp' & _ & Hd & Hnc & [HP _] & Hk & _ & HL & Hgl & _).
  rewrite Hp in Hp'. injection Hp' as <-.
  cbn [put_all numbered_ids fold_left fst snd put_ids lops sg_dims sg_cd sg_pts sg_ghost].
  split.
  - apply wf_unfold. cbn [sg_dims sg_pts sg_cd sg_ghost]. rewrite Hnc in HL, Hgl |- *.
    split; [|split; [|split; [|split; [|split]]]].
    + intros a' Ha'. rewrite Hd. unfold grid_dims, across. destruct ax as [|[|[|]]], a' as [|[|[|]]]; cbn; lia.
    + rewrite Hd. unfold grid_dims, across. destruct ax as [|[|[|]]]; cbn; lia.
    + rewrite HP, Hd, strip_size; auto.
    + do 3 apply aput_NoDup. rewrite Hk. apply aput_NoDup. apply Wa.
    + apply (aput_all _ _ _ (fun v => length v = _)); [rewrite map_length, repeat_length; auto|].
      apply (aput_all _ _ _ (fun v => length v = _)); [rewrite map_length, repeat_each_length, map_length, seq_length; auto|].
      apply (aput_all _ _ _ (fun v => length v = _)); [rewrite map_length, tile_length, map_length, seq_length; auto|].
      exact HL.
    + exact Hgl.
  - exists (length perc - 1). split; [exact Hns|]. split; [lia|].
    rewrite Hd, (strip_dims ax Hax). f_equal. lia.
Qed.

Section Merged.
Context (o : options) (i1 : item (lbase D)) (rest : list (item (lbase D))) (bs : list (sgrid D))
  (groups : dict) (n : nat) (g : sgrid D) (nsubs : list nat) (Hne : rest <> []).
Context (HL : layer_counts rest nsubs) (Hlen : length bs = length nsubs)
  (HB : forall j blk, nth_error bs j = Some blk -> lblock o i1 rest nsubs groups j blk).
Context (Hm : merge_structured bs (Some ax) = Ok g) (Hnum : numbered groups) (Hnc : 1 <= nc).

Lemma lbs_ne : bs <> [].
Proof. intros ->. destruct HL as [L _]. destruct nsubs; [|discriminate]. destruct rest; [congruence|discriminate]. Qed.
Lemma lHW : forall j blk, nth_error bs j = Some blk -> wf_grid ax blk /\ exists ns,
            nth_error nsubs j = Some ns /\ 1 <= ns /\ sg_dims blk = setc ax (S ns) d0.
Proof. intros. eapply lblock_wf; eauto. Qed.

Lemma lmerged_dims : wf_grid ax g /\ sg_dims g = grid_dims la ax (S nc) (S (list_sum nsubs)) /\ 1 <= list_sum nsubs.
Proof.
  destruct (bl_dims ax Hax d0 bs nsubs g lbs_ne Hlen lHW Hm) as (W & Hd & Hn).
  split; [auto|]. split; [|auto]. rewrite Hd. symmetry. apply strip_dims; auto.
Qed.

Lemma lnodes : lnodes_follow ax nc (i1 :: rest) nsubs g.
Proof.
  destruct lmerged_dims as (W & Hd & Hn). split; [exact Hd|]. split.
  { apply wf_unfold in W as (_ & _ & -> & _). rewrite Hd. apply strip_size; auto. }
  intros j a b perc i k t p q Ha Hb Hp Hk Hlp Hlq. cbn [nth_error] in Hb.
  assert (Hj : j < length bs).
  { destruct HL as [L _]. rewrite Hlen, L. apply nth_error_Some. congruence. }
  destruct (nth_error bs j) as [blk|] eqn:Hblk; [|apply nth_error_None in Hblk; lia].
  pose proof (HB j blk Hblk) as (a' & b' & arr & gj & gj' & b0 & perc' & Ha' & Hb' & Hi & G1 & G2 & Wa & Wb & La & Hx & Hp' & Hp2 & Hns & Eb).
  rewrite Ha in Ha'. injection Ha' as <-. rewrite Hb in Hb'. injection Hb' as <-.
  rewrite Hp in Hp'. injection Hp' as <-.
  destruct (strip_facts num areas Har ax Hax nc _ _ _ _ _ _ Wa Wb La Hx)
    as (perc' & Hp' & _ & Hdb & _ & [_ HP] & _).
  rewrite Hp in Hp'. injection Hp' as <-.
  specialize (HP i k t p q Hk Hlp Hlq).
  assert (Ed : sg_dims blk = grid_dims la ax (S nc) (length perc)) by (rewrite Eb; exact Hdb).
  assert (Ep : sg_pts blk = sg_pts b0) by (rewrite Eb; reflexivity).
  assert (Hi' : i < S nc).
  { destruct Hlp as (v & Hv & _). assert (i < length (ln_ids (lb_line (it_mesh a)))) by (apply nth_error_Some; congruence).
    destruct Wa as (_ & _ & _ & Lids & _). lia. }
  assert (Hk' : k < length perc) by (apply nth_error_Some; congruence).
  destruct (bl_point ax Hax d0 bs nsubs g lbs_ne Hlen lHW Hm j blk (grid_coord la ax i k) (on_way t p q) Hblk)
    as (r & Hr & Hnear & Heq).
  { rewrite Ed. apply node_in; auto. }
  { rewrite Ed, Ep. exact HP. }
  pose proof (seg_comp ax Hax i k) as C1. unfold seg_at in C1.
  pose proof (seg_setc ax Hax i k (list_sum (firstn j nsubs) + k)) as C2. unfold seg_at in C2.
  rewrite C1, C2 in Hr. rewrite C1 in Heq. eauto.
Qed.

(* where a cell comes from, whatever the axis *)
Lemma lorigin i l : i < nc -> l < list_sum nsubs ->
  exists j a b arr gj gj' b0 perc blk, layer_in nsubs l j /\ nth_error nsubs j = Some (length perc - 1) /\
    nth_error (i1 :: rest) j = Some a /\ nth_error rest j = Some b /\
    initialize_group_array o (gview ops (it_mesh a)) gj (it_group b) "" = Ok (arr, gj') /\
    numbered gj /\ extends gj' groups /\
    wf_line nc (it_mesh a) /\ wf_line nc (it_mesh b) /\ length arr = nc /\
    lext (set_cg ops arr (it_mesh a)) (it_mesh b) (it_res b) (it_method b) = Ok b0 /\
    resolution_to_perc (it_res b) (it_method b) = Ok perc /\ 2 <= length perc /\
    blk = put_all ops (numbered_ids "StackItem" j (list_sum (firstn j nsubs)) (length perc - 1) nc) b0 /\
    sg_dims blk = grid_dims la ax (S nc) (length perc) /\
    list_sum (firstn j nsubs) <= l < list_sum (firstn j nsubs) + (length perc - 1) /\
    (forall k x v, In (k, x) (sg_cd g) -> In (k, v) (sg_cd blk) ->
       at_coord (cell_shape (sg_dims g)) x (seg_at ax i l) =
       at_coord (cell_shape (sg_dims blk)) v (seg_at ax i (l - list_sum (firstn j nsubs)))) /\
    at_coord (cell_shape (sg_dims g)) (sg_ghost g) (seg_at ax i l) =
    at_coord (cell_shape (sg_dims blk)) (sg_ghost blk) (seg_at ax i (l - list_sum (firstn j nsubs))).
Proof.
  intros Hi Hl. destruct lmerged_dims as (W & Hd & Hn).
  assert (Hc : in_shape (cell_shape (sg_dims g)) (seg_at ax i l)) by (rewrite Hd; apply seg_in; auto).
  destruct (bl_cell ax Hax d0 bs nsubs g lbs_ne Hlen lHW Hm _ Hc)
    as (j & blk & ns & Hin & Hblk & Hns & Hr & Hc' & HK & HG).
  rewrite (seg_comp ax Hax) in Hin, Hr, HK, HG. rewrite (seg_setc ax Hax) in HK, HG.
  pose proof (HB j blk Hblk) as (a & b & arr & gj & gj' & b0 & perc & Ha & Hb & Hi' & G1 & G2 & Wa & Wb & La & Hx & Hp & Hp2 & Hns' & Eb).
  destruct (lHW j blk Hblk) as (_ & ns2 & Hns2 & _ & Hdb).
  rewrite Hns' in Hns. injection Hns as <-. rewrite Hns' in Hns2. injection Hns2 as <-.
  exists j, a, b, arr, gj, gj', b0, perc, blk. repeat (split; [assumption|]).
  split; [|split; [lia|split; assumption]].
  rewrite Hdb, (strip_dims ax Hax nc (length perc)). f_equal. lia.
Qed.

Lemma lkeys k : In k (map fst (sg_cd g)) <->
     In k ["ColumnId"; "LayerId"; "StackItem"; "CellGroup"]%string \/
     forall j a b, nth_error (i1 :: rest) j = Some a -> nth_error (i1 :: rest) (S j) = Some b ->
       In k (map fst (ln_cd (lb_line (it_mesh a)))).
Proof.
  rewrite (bl_keys ax Hax d0 bs nsubs g lbs_ne Hlen lHW Hm).
  assert (HBk : forall j blk, nth_error bs j = Some blk ->
    exists a b, nth_error (i1 :: rest) j = Some a /\ nth_error rest j = Some b /\
      forall k, In k (map fst (sg_cd blk)) <->
        In k ["ColumnId"; "LayerId"; "StackItem"; "CellGroup"]%string \/ In k (map fst (ln_cd (lb_line (it_mesh a))))).
  { intros j blk Hj.
    destruct (HB j blk Hj) as (a & b & arr & gj & gj' & b0 & perc & Ha & Hb & Hi & G1 & G2 & Wa & Wb & La & Hx & Hp & Hp2 & Hns & ->).
    exists a, b. repeat (split; [assumption|]). intros k'.
    cbn [put_all numbered_ids fold_left fst snd put_ids lops sg_cd]. rewrite !aput_fst.
    destruct (strip_facts num areas Har ax Hax nc _ _ _ _ _ _ Wa Wb La Hx) as (_ & _ & _ & _ & _ & _ & Hk & _).
    rewrite Hk, aput_fst. cbn [In]. intuition. }
  split.
  - intros Hall.
    destruct (in_dec string_dec k ["ColumnId"; "LayerId"; "StackItem"; "CellGroup"]%string) as [Hi|Hi]; [auto|].
    right. intros j a b Ha Hb. cbn [nth_error] in Hb.
    assert (Hj : j < length bs) by (destruct HL as [L _]; rewrite Hlen, L; apply nth_error_Some; congruence).
    destruct (nth_error bs j) as [blk|] eqn:Eb; [|apply nth_error_None in Eb; lia].
    destruct (HBk j blk Eb) as (a' & b' & Ha' & _ & Hk). rewrite Ha in Ha'. injection Ha' as <-.
    specialize (Hall blk (nth_error_In _ _ Eb)). apply Hk in Hall. tauto.
  - intros HH blk Hin. apply In_nth_error in Hin as [j Hj].
    destruct (HBk j blk Hj) as (a & b & Ha & Hb & Hk). apply Hk. destruct HH as [|HH]; [auto|right; eauto].
Qed.

(* every number of the merged group array stands for a group, whatever the axis *)
Lemma lgroups_known : exists cg, In ("CellGroup"%string, cg) (sg_cd g) /\ length cg = n_cells (sg_dims g) /\
  forall i x, nth_error cg i = Some x -> exists k z, x = num z /\ In (k, z) groups.
Proof.
  destruct lmerged_dims as (W & Hd & Hn). apply wf_unfold in W as (_ & _ & _ & HN & HLen & _).
  assert (Hk : In "CellGroup"%string (map fst (sg_cd g))) by (apply lkeys; left; cbn; auto).
  apply in_map_iff in Hk as ([k cg] & Ek & Hcg). cbn in Ek. subst k.
  exists cg. split; [auto|]. split; [eauto|]. intros x0 x Hx.
  assert (Hi : x0 < n_cells (sg_dims g)) by (rewrite <- (HLen _ _ Hcg); apply nth_error_Some; congruence).
  destruct (coord_of _ _ Hi) as (c & Hc & Ei). rewrite Hd in Hc.
  destruct (seg_of ax Hax nc _ _ Hnc Hn Hc) as (i & l & Hi' & Hl & ->).
  destruct (lorigin i l Hi' Hl) as (j & a & b & arr & gj & gj' & b0 & perc & blk & Hj & Hns & Ha & Hb & Hig & G1 & G2 & Wa & Wb & La & Hxx & Hp & Hp2 & Eb & Hdb & Hr & HK & _).
  destruct (strip_facts num areas Har ax Hax nc _ _ _ _ _ _ Wa Wb La Hxx) as (perc' & Hp' & _ & _ & Hnc' & _ & _ & HT & _).
  rewrite Hp in Hp'. injection Hp' as <-.
  destruct (HT "CellGroup"%string (map num arr) (aput_In _ _ _)) as [HT1 _].
  assert (Hv : In ("CellGroup"%string, tile (map num arr) (length perc - 1)) (sg_cd blk)).
  { rewrite Eb. cbn [put_all numbered_ids fold_left fst snd put_ids lops sg_cd].
    apply aput_other; [discriminate|]. apply aput_other; [discriminate|]. apply aput_other; [discriminate|]. exact HT1. }
  specialize (HK _ _ _ Hcg Hv). unfold at_coord in HK.
  rewrite Ei, Hx in HK. symmetry in HK. apply nth_error_In in HK.
  assert (Hxa : In x (map num arr)).
  { clear -HK. induction (length perc - 1) as [|m IH]; cbn in HK; [contradiction|]. apply in_app_or in HK as [H|H]; auto. }
  apply in_map_iff in Hxa as (z & <- & Hz). apply In_nth_error in Hz as [c Hcz].
  assert (Hal : aligned (gview ops (it_mesh a))) by (apply lb_align, wf_line_lbase; auto).
  destruct (item_names _ _ _ _ _ _ G1 Hal Hig c) as (k & (z' & Hz' & Hkz) & _).
  { cbn. rewrite seq_length. destruct Wa as (_ & -> & _). rewrite <- La. apply nth_error_Some. congruence. }
  rewrite Hcz in Hz'. injection Hz' as <-. exists k, z. split; [auto|]. destruct G2 as [ext ->]. apply in_or_app; auto.
Qed.

End Merged.
End Lines.
