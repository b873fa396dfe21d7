From Verif Require Import RealAux Perc_model Perc_spec Perc_proof Surface_model Surface_spec Surface_proof
  Volume_model Volume_spec Volume_proof SMerge_model SMerge_spec SMerge_proof
  Groups_model Groups_spec Groups_proof Groups2_proof
  Stack_model Stack_spec Cut_proof Gen_proof Stack_proof Stack2_proof Stack3_proof
  Final_model Final_spec Final1_proof Final2_proof.
From Coq Require Import Lra.
Open Scope nat_scope.

Section Structured.
Context {D : Type} (num : Z -> D) (int : D -> Z) (Hint : forall z, int (num z) = z).
Context (volumes : shape3 -> list pt -> list R).
Context (ax : nat) (Hax : ax <= 2) (d : shape3) (Hu : unit_along ax d).
Context (name : string) (N1 : name <> "ColumnId"%string) (N2 : name <> "LayerId"%string)
  (N3 : name <> "CellGroup"%string).
Notation ops := (sops num).
Notation extr := (extr volumes).
Context (o : options) (i1 : item (sbase D)) (rest : list (item (sbase D))) (bs : list (sgrid D))
  (groups : dict) (n : nat) (g : sgrid D) (Hne : rest <> [])
  (Ht : Forall (fun it => it_trans it = false) rest)
  (Hw : Forall (fun i => wf_base d (it_mesh i)) (i1 :: rest))
  (Hg : gen_loop ops o name extr (fun _ _ _ _ => Err NotImplementedError) 0 0 [] i1 rest = Ok (bs, groups, n))
  (Hm : merge_structured bs (Some ax) = Ok g).

Lemma layer_counts_fun nsubs nsubs' : layer_counts rest nsubs -> layer_counts rest nsubs' -> nsubs = nsubs'.
Proof.
  intros [L1 H1] [L2 H2]. apply nth_error_ext. intros k.
  destruct (nth_error rest k) as [b|] eqn:Eb.
  - destruct (H1 k b Eb) as (m & E1 & p & P1 & ->). destruct (H2 k b Eb) as (m' & E2 & p' & P2 & ->). congruence.
  - apply nth_error_None in Eb. transitivity (@None nat); [|symmetry]; apply nth_error_None; lia.
Qed.

Lemma finish_total : exists g' labels, finish num int g groups = Ok (g', labels).
Proof.
  destruct (names_along num volumes ax Hax d Hu name N1 N2 N3 o i1 rest bs groups n g Hne Ht Hw Hg Hm)
    as (Hn & Hd & nsubs & HL & En & cg & Hcg & Lcg & HC).
  pose proof (merged_wf num volumes ax Hax d Hu name N1 N2 N3 o i1 rest bs groups n g Hne Ht Hw Hg Hm) as Wg.
  apply wf_unfold in Wg as (_ & _ & _ & HN & _).
  destruct (finish_spec num int Hint g groups cg HN Hcg Hn) as (g' & labels & cg' & H & _); eauto.
  intros i x Hx.
  assert (Hi : i < n_cells (sg_dims g)) by (rewrite <- Lcg; apply nth_error_Some; congruence).
  destruct (coord_of _ _ Hi) as (c & Hc & Ei).
  destruct (HC c Hc) as (j & a & b & k & z & _ & _ & _ & E & Hk & _).
  unfold at_coord in E. rewrite Ei, Hx in E. injection E as ->. eauto.
Qed.

Lemma final_along g' labels : finish num int g groups = Ok (g', labels) ->
  (forall dims pts, length (volumes dims pts) = n_cells dims) ->
  exists nsubs, layer_counts rest nsubs /\ sg_dims g' = setc ax (S (list_sum nsubs)) d /\
    sg_pts g' = sg_pts g /\ sg_pd g' = sg_pd g /\
    groups_follow int o ax d (i1 :: rest) nsubs g' labels /\
    ghosts_follow volumes ax d (i1 :: rest) nsubs g' /\
    cells_follow name ax d (i1 :: rest) nsubs g'.
Proof.
  intros Hf Hvol.
  destruct (names_along num volumes ax Hax d Hu name N1 N2 N3 o i1 rest bs groups n g Hne Ht Hw Hg Hm)
    as (Hn & Hd & nsubs & HL & En & cg & Hcg & Lcg & HC).
  pose proof (merged_wf num volumes ax Hax d Hu name N1 N2 N3 o i1 rest bs groups n g Hne Ht Hw Hg Hm) as Wg.
  destruct (cell_origin num volumes ax Hax d Hu name N1 N2 N3 o i1 rest bs groups n g Hne Ht Hw Hg Hm)
    as (nsubs' & HL' & _ & _ & HK & HO).
  rewrite (layer_counts_fun _ _ HL' HL) in HO. clear nsubs' HL'.
  apply wf_unfold in Wg as (_ & _ & _ & HN & HLen & HGl).
  assert (HA : forall i x, nth_error cg i = Some x -> exists k z, x = num z /\ In (k, z) groups).
  { intros i x Hx.
    assert (Hi : i < n_cells (sg_dims g)) by (rewrite <- Lcg; apply nth_error_Some; congruence).
    destruct (coord_of _ _ Hi) as (c & Hc & Ei).
    destruct (HC c Hc) as (j & a & b & k & z & _ & _ & _ & E & Hk & _).
    unfold at_coord in E. rewrite Ei, Hx in E. injection E as ->. eauto. }
  destruct (finish_spec num int Hint g groups cg HN Hcg Hn HA)
    as (g2 & labels2 & cg' & Hf' & Dd & Dp & Dpd & Dg & DN & DO & DC & DL & Lc & Dnm & DK).
  rewrite Hf in Hf'. injection Hf' as <- <-.
  exists nsubs. split; [exact HL|]. split; [rewrite Dd, Hd, En; reflexivity|]. split; [exact Dp|]. split; [exact Dpd|].
  assert (Hall : forall c, c < length cg' -> exists k, named labels cg' c k).
  { intros c Hc. rewrite Lc in Hc. destruct (nth_error cg c) as [x|] eqn:Ex; [|apply nth_error_None in Ex; lia].
    destruct (HA c x Ex) as (k & z & -> & Hk). exists k. apply Dnm. exists z. split; auto.
    rewrite nth_error_map, Ex. cbn. now rewrite Hint. }
  destruct (names_spec num int Hint labels cg' DL Hall DK) as (names & E1 & E2 & E3 & E4).
  split; [|split].
  - split; [exact DL|]. split; [exact DN|]. exists (map num cg'), names.
    split; [exact DC|]. split; [exact E1|]. split; [rewrite E2, Lc, Dd; exact Lcg|]. split; [exact E4|].
    intros c Hc. rewrite Dd in *.
    destruct (HC c Hc) as (j & a & b & k & z & Hj & Ha & Hb & E & Hk & Hi).
    exists j, a, b, k. repeat (split; [assumption|]). split; [|exact Hi].
    unfold at_coord. apply E3, Dnm. exists z. split; [|exact Hk].
    unfold at_coord in E. rewrite nth_error_map, E. cbn. now rewrite Hint.
  - assert (Hflag : forall c, in_shape (cell_shape (sg_dims g)) c ->
       exists x, at_coord (cell_shape (sg_dims g)) (sg_ghost g) c = Some x /\
         flag_at (cell_shape (sg_dims g')) (sg_ghost g') c = x).
    { intros c Hc. destruct (at_coord_some _ (sg_ghost g) c Hc HGl) as [x Hx]. exists x. split; [exact Hx|].
      rewrite Dd, Dg. unfold clean_ghost. destruct (forallb (Nat.eqb 0) (sg_ghost g)) eqn:E.
      - rewrite forallb_zero in E. unfold at_coord in Hx. apply E in Hx. subst x.
        unfold flag_at, at_coord. destruct (fidx _ _); reflexivity.
      - unfold flag_at. now rewrite Hx. }
    split.
    + rewrite Dg. unfold clean_ghost. destruct (forallb (Nat.eqb 0) (sg_ghost g)) eqn:E; [now left|right].
      split; [rewrite Dd; exact HGl|].
      assert (exists i x, nth_error (sg_ghost g) i = Some x /\ x <> 0) as (i & x & Hx & Hx0).
      { clear -E. induction (sg_ghost g) as [|y l IH]; [discriminate|]. cbn [forallb] in E.
        destruct (Nat.eqb_spec 0 y) as [Hy|Hy].
        - cbn [andb] in E. destruct (IH E) as (i & x & ? & ?). exists (S i), x. auto.
        - exists 0, y. split; [reflexivity|]. auto. }
      assert (Hi : i < n_cells (sg_dims g)) by (rewrite <- HGl; apply nth_error_Some; congruence).
      destruct (coord_of _ _ Hi) as (c & Hc & Ei).
      exists c. rewrite Dd. split; [exact Hc|]. unfold flag_at, at_coord. rewrite Ei, Hx. exact Hx0.
    + intros c Hc. rewrite Dd in Hc. destruct (Hflag c Hc) as (x & Hx & Ef).
      destruct (HO c Hc) as (j & a & b & arr & perc & b0 & Hj & Ha & Hb & Wa & Wb & Hxx & Hp & Hp2 & Hd0 & Hc' & _ & Eg).
      assert (Da : ss_dims (sb_surf (set_cg ops arr (it_mesh a))) = d) by (destruct Wa as [Da _]; exact Da).
      pose proof Wa as (_ & _ & _ & _ & _ & Wgh & _).
      destruct (vol_structured_ghost volumes (sb_surf (set_cg ops arr (it_mesh a))) (sb_surf (it_mesh b))
                 (it_res b) (it_method b) b0 perc ax) with (c := setc ax (comp ax c - list_sum (firstn j nsubs)) c)
        as (w & Hw1 & Hw2 & Hw3); auto.
      * rewrite Da; exact Hu.
      * apply aput_nonempty.
      * rewrite Da. exact Wgh.
      * rewrite Da in Hw3. cbn [set_cg sops sb_surf ss_ghost] in Hw3. rewrite setc_setc in Hw3.
        rewrite Ef. exists j, a, b, perc, (sg_pts b0), w.
        rewrite Hx in Eg. rewrite <- Eg in Hw2, Hw3. rewrite Hd0 in Hw1.
        split; [exact Hj|]. split; [exact Ha|]. split; [exact Hb|]. split; [exact Hp|].
        split; [|split; [exact Hw1|split; intros H; [specialize (Hw2 H)|specialize (Hw3 H)]; congruence]].
        split.
        { destruct (vol_structured_block _ _ _ _ _ _ Hxx (aput_nonempty _ _ _)) as (_ & _ & _ & _ & Hl & _).
          rewrite Hl, Hd0. reflexivity. }
        intros c2 t p q Hc2 Ht2 Hp1 Hq1. rewrite <- Hd0 in Hc2.
        destruct (block_points num volumes ax Hax d Hu _ _ _ _ _ _ _ Wa Wb Hxx Hp c2 t Hc2 Ht2) as (p' & q' & Hp' & Hq' & E).
        unfold at_coord in Hp1, Hq1. rewrite Hp1 in Hp'. rewrite Hq1 in Hq'. injection Hp' as <-. injection Hq' as <-.
        rewrite Hd0 in E. rewrite E. destruct p as [[? ?] ?], q as [[? ?] ?]. reflexivity.
  - split.
    + intros k. assert (Hkk : In k (map fst (sg_cd g')) <-> In k (map fst (sg_cd g))).
      { destruct (string_dec k "CellGroup") as [->|Hk].
        - split; intros _; [apply (in_map fst) in Hcg; exact Hcg|apply (in_map fst) in DC; exact DC].
        - rewrite !in_map_iff. split; intros ([k' v] & Ek & Hv); cbn in Ek; subst k'; exists (k, v);
            (split; [reflexivity|]); apply (DO k v Hk); exact Hv. }
      rewrite Hkk. apply HK.
    + intros k x Hx Hk. cbn [In] in Hk.
      assert (Hx' : In (k, x) (sg_cd g)) by (apply DO; [intuition congruence|exact Hx]).
      split; [rewrite Dd; eauto|]. intros c Hc. rewrite Dd in *.
      destruct (HO c Hc) as (j & a & b & arr & perc & b0 & Hj & Ha & Hb & Wa & Wb & Hxx & Hp & Hp2 & Hd0 & Hc' & Ek & _).
      assert (Hin : In k (map fst (ss_cd (sb_surf (it_mesh a))))).
      { assert (Hk' : In k (map fst (sg_cd g))) by (apply (in_map fst) in Hx'; exact Hx').
        apply HK in Hk' as [Hk'|Hk']; [cbn [In] in Hk'; tauto|]. eauto. }
      apply in_map_iff in Hin as ([k' v] & Ek' & Hv). cbn in Ek'. subst k'.
      exists j, a, v. repeat (split; [assumption|]).
      destruct (vol_structured_data_axis volumes (sb_surf (set_cg ops arr (it_mesh a))) (sb_surf (it_mesh b))
         (it_res b) (it_method b) b0 k v ax Hxx Hax) as [_ HV].
      { cbn. destruct Wa as (-> & _). apply Hu. }
      destruct HV as (w & Hw1 & Hw2). { cbn. apply aput_other; [intuition congruence|exact Hv]. }
      rewrite (Ek k x w); [|cbn [In]; tauto|exact Hx'|exact Hw1].
      unfold at_coord. rewrite Hw2 by exact Hc'. cbn [set_cg sops sb_surf ss_dims]. rewrite setc_setc.
      destruct Wa as (-> & _). reflexivity.
Qed.
End Structured.
