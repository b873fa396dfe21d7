From Verif Require Import RealAux Perc_model Perc_spec Perc_proof Surface_model Surface_spec Surface_proof
  Volume_model Volume_spec Volume_proof SMerge_model SMerge_spec SMerge_proof
  Groups_model Groups_spec Groups_proof Groups2_proof
  Stack_model Stack_spec Cut_proof Gen_proof Stack_proof Stack2_proof Stack3_proof Final_model Final_spec Final1_proof.
From Coq Require Import Lra.
Open Scope nat_scope.

(* ghost array and point data of one block *)
Lemma vol_structured_ghost {D} volumes (sa sb : ssurf D) r m g perc ax :
  ax <= 2 -> unit_along ax (ss_dims sa) -> ss_cd sa <> [] ->
  generate_volume_structured volumes sa sb r m = Ok g -> resolution_to_perc r m = Ok perc ->
  2 <= length perc ->
  (forall gh, ss_ghost sa = Some gh -> length gh = n_cells (ss_dims sa)) ->
  length (volumes (sg_dims g) (sg_pts g)) = n_cells (sg_dims g) ->
  forall c, in_shape (cell_shape (sg_dims g)) c ->
    exists w, at_coord (cell_shape (sg_dims g)) (volumes (sg_dims g) (sg_pts g)) c = Some w /\
      (w = 0%R -> at_coord (cell_shape (sg_dims g)) (sg_ghost g) c = Some 32) /\
      (w <> 0%R -> at_coord (cell_shape (sg_dims g)) (sg_ghost g) c =
                   Some (base_flag (cell_shape (ss_dims sa)) (ss_ghost sa) (setc ax 0 c))).
Proof.
  intros Hax Hu Hne H Hp Hp2 Hgl Hv c Hc.
  destruct (unit_along_dim _ _ Hax Hu) as (_ & Hfu & _).
  pose proof (vol_structured_inv _ _ _ _ _ _ H) as (Hs & Hl & Hd & perc' & Hp' & Hp0 & Hdims & Hpts).
  rewrite Hp in Hp'. injection Hp' as <-.
  destruct (at_coord_some (cell_shape (sg_dims g)) _ c Hc Hv) as [w Hw].
  exists w. split; [exact Hw|].
  revert H Hw Hv Hc. unfold generate_volume_structured.
  destruct (negb (length (ss_pts sa) =? length (ss_pts sb))); [discriminate|].
  destruct (negb (shape_eqb (ss_dims sa) (ss_dims sb))); [discriminate|].
  destruct (negb (structured_dimension (ss_dims sa) =? 2)); [discriminate|].
  rewrite Hp; unfold bind at 1.
  destruct (Nat.eqb_spec (length perc) 0) as [|Hp1]; [discriminate|].
  rewrite <- Hdims.
  rewrite Hfu in *.
  destruct (sg_dims g) as [[nx ny] nz] eqn:Hg.
  set (pts := ravelF nx ny nz _) in *.
  unfold bind at 1. destruct (mapM _ (ss_pd sa)) as [pd|] eqn:Hpd; [|discriminate].
  unfold bind at 1. destruct (mapM _ (ss_cd sa)) as [cd|] eqn:Hcd; [|discriminate].
  unfold bind at 1.
  match goal with |- match ?x with _ => _ end = _ -> _ => destruct x as [gh|] eqn:Hgh; [|discriminate] end.
  intros H%Ok_inj; subst g; cbn [sg_dims sg_pd sg_cd sg_pts sg_ghost] in *.
  intros Hw Hv Hc.
  assert (Lgh : length gh = n_cells (nx, ny, nz) /\
     at_coord (cell_shape (nx, ny, nz)) gh c = Some (base_flag (cell_shape (ss_dims sa)) (ss_ghost sa) (setc ax 0 c))).
  { destruct (ss_ghost sa) as [gg|] eqn:Egg.
    - unfold bind in Hgh. destruct (repeat_structured_data _ _ _ _) as [v|] eqn:Er; [|discriminate].
      destruct (Nat.eqb_spec (length v) (n_cells (nx, ny, nz))) as [El|]; [|discriminate].
      injection Hgh as <-. split; [exact El|].
      assert (Hm1 : 0 < length perc - 1) by lia.
      destruct (repeat_structured_law _ _ _ _ _ Hax Hm1 Er) as (Lg & _ & HR).
      assert (Esh : setc ax (comp ax (cell_shape (ss_dims sa)) * (length perc - 1)) (cell_shape (ss_dims sa)) = cell_shape (nx, ny, nz)).
      { rewrite Hdims, cell_shape_setc. f_equal. rewrite cell_shape_comp. destruct Hu as [-> _]. change (Nat.max 1 (1 - 1)) with 1. lia. }
      rewrite Esh in HR. unfold at_coord. rewrite HR by exact Hc.
      cbn [base_flag]. unfold flag_at, at_coord.
      assert (E0 : comp ax c / (length perc - 1) = 0).
      { apply Nat.div_small. pose proof (in_shape_comp ax _ _ Hc) as Hk.
        rewrite cell_shape_comp, Hdims, comp_setc in Hk. lia. }
      rewrite E0.
      destruct (nth_error gg _) as [x|] eqn:Ex; [reflexivity|]. exfalso.
      apply nth_error_None in Ex.
      assert (Hsh : in_shape (cell_shape (ss_dims sa)) (setc ax 0 c)).
      { rewrite <- (setc_comp ax (cell_shape (ss_dims sa))).
        rewrite Hdims, cell_shape_setc in Hc.
        apply (in_shape_swap ax _ _ _ c _ Hc); [rewrite setc_setc; auto|]. rewrite cell_shape_comp. lia. }
      apply fidx_lt in Hsh. lia.
    - injection Hgh as <-. split; [apply repeat_length|]. cbn [base_flag]. unfold at_coord.
      apply nth_error_repeat_lt. apply fidx_lt; auto. }
  destruct Lgh as [Lgh Egh].
  unfold at_coord in *. rewrite mask_set_nth_error by (rewrite map_length; congruence).
  rewrite nth_error_map, Hw. cbn [option_map]. split.
  - intros ->. rewrite Rabs_R0. destruct (Reqb 0 0) eqn:E; [reflexivity|].
    exfalso. unfold Reqb in E. destruct (Req_EM_T 0 0) in E; [discriminate|congruence].
  - intros Hn. destruct (Reqb (Rabs w) 0) eqn:E; [|exact Egh].
    exfalso. unfold Reqb in E. destruct (Req_EM_T (Rabs w) 0) as [E0|] in E; [|discriminate].
    revert E0. apply Rabs_no_R0. exact Hn.
Qed.

Section Structured.
Context {D : Type} (num : Z -> D) (volumes : shape3 -> list pt -> list R).
Context (ax : nat) (Hax : ax <= 2) (d : shape3) (Hu : unit_along ax d).
Context (name : string) (N1 : name <> "ColumnId"%string) (N2 : name <> "LayerId"%string)
  (N3 : name <> "CellGroup"%string).
Notation ops := (sops num).
Notation extr := (extr volumes).

(* where a cell and its data come from *)
Lemma cell_origin o i1 rest bs groups n g : rest <> [] ->
  Forall (fun it => it_trans it = false) rest ->
  Forall (fun i => wf_base d (it_mesh i)) (i1 :: rest) ->
  gen_loop ops o name extr (fun _ _ _ _ => Err NotImplementedError) 0 0 [] i1 rest = Ok (bs, groups, n) ->
  merge_structured bs (Some ax) = Ok g ->
  exists nsubs, layer_counts rest nsubs /\ n = list_sum nsubs /\ sg_dims g = setc ax (S n) d /\
    (forall k, In k (map fst (sg_cd g)) <->
       In k ["ColumnId"; "LayerId"; name; "CellGroup"]%string \/
       forall j a b, nth_error (i1 :: rest) j = Some a -> nth_error rest j = Some b ->
         In k (map fst (ss_cd (sb_surf (it_mesh a))))) /\
    forall c, in_shape (cell_shape (sg_dims g)) c ->
      exists j a b arr perc b0, layer_in nsubs (comp ax c) j /\
        nth_error (i1 :: rest) j = Some a /\ nth_error rest j = Some b /\
        wf_base d (it_mesh a) /\ wf_base d (it_mesh b) /\
        extr (set_cg ops arr (it_mesh a)) (it_mesh b) (it_res b) (it_method b) = Ok b0 /\
        resolution_to_perc (it_res b) (it_method b) = Ok perc /\ 2 <= length perc /\
        sg_dims b0 = setc ax (length perc) d /\
        let c' := setc ax (comp ax c - list_sum (firstn j nsubs)) c in
        in_shape (cell_shape (sg_dims b0)) c' /\
        (forall k x v, ~ In k ["ColumnId"; "LayerId"; name]%string ->
           In (k, x) (sg_cd g) -> In (k, v) (sg_cd b0) ->
           at_coord (cell_shape (sg_dims g)) x c = at_coord (cell_shape (sg_dims b0)) v c') /\
        at_coord (cell_shape (sg_dims g)) (sg_ghost g) c = at_coord (cell_shape (sg_dims b0)) (sg_ghost b0) c'.
Proof.
  intros Hne Ht Hw Hg Hm.
  destruct (blocks_inv num volumes ax Hax d Hu _ _ _ _ _ _ _ Ht Hw Hg) as (Hnum & nsubs & Ln & Lb & En & HB).
  assert (HW : forall j blk, nth_error bs j = Some blk -> wf_grid ax blk /\ exists nsub,
            nth_error nsubs j = Some nsub /\ 1 <= nsub /\ sg_dims blk = setc ax (S nsub) d).
  { intros j blk Hj. eapply (block_wf num volumes ax Hax d Hu name); eauto. }
  pose proof (blocks_offset num volumes ax Hax d Hu name i1 rest nsubs groups o bs N1 N2 N3 ltac:(lia) HB) as Hoff.
  destruct bs as [|b1 bs]; [destruct rest; [congruence|simpl in Lb; lia]|].
  rewrite merge_is_fold in Hm.
  assert (W1 : wf_grid ax b1) by (apply (HW 0 b1 eq_refl)).
  assert (Wl : Forall (wf_grid ax) bs).
  { rewrite Forall_forall. intros x Hx. apply In_nth_error in Hx as [k Hk]. apply (HW (S k) x Hk). }
  destruct (merge_fold_wf ax b1 bs g Hax W1 Wl Hm) as (Wg & Hdg & _).
  destruct (merge_fold_cells ax b1 bs g Hax W1 Wl Hm) as (HK & HC & HGh).
  destruct (HW 0 b1 eq_refl) as (_ & ns1 & Hns1 & _ & Hd1).
  assert (Hdims : sg_dims g = setc ax (S n) d).
  { rewrite Hdg, Hd1, setc_setc. f_equal. f_equal.
    rewrite Hoff by (simpl; lia). rewrite En. f_equal. apply firstn_all2.
    simpl in Lb. rewrite Ln, <- Lb. simpl. lia. }
  exists nsubs. split.
  { split; [auto|]. intros j b Hb. destruct (nth_error (b1 :: bs) j) as [blk|] eqn:Hj.
    - destruct (HB j blk Hj) as (a' & b' & arr & gj & gj' & b0 & perc & nsub & _ & Hb' & _ & _ & _ & _ & _ & _ & _ & _ & Hp & _ & E & Hns & _).
      rewrite Hb in Hb'. injection Hb' as <-. exists nsub. split; auto. exists perc. auto.
    - exfalso. apply nth_error_None in Hj. assert (j < length rest) by (apply nth_error_Some; congruence). lia. }
  split; [auto|]. split; [auto|].
  assert (HBk : forall j blk, nth_error (b1 :: bs) j = Some blk ->
    exists a b, nth_error (i1 :: rest) j = Some a /\ nth_error rest j = Some b /\
      forall k, In k (map fst (sg_cd blk)) <->
        In k ["ColumnId"; "LayerId"; name; "CellGroup"]%string \/ In k (map fst (ss_cd (sb_surf (it_mesh a))))).
  { intros j blk Hj.
    destruct (HB j blk Hj) as (a & b & arr & gj & gj' & b0 & perc & nsub & Ha & Hb & _ & _ & _ & _ & Wa & Wb & La & Hx & Hp & _ & E & _ & ->).
    exists a, b. repeat (split; [assumption|]). intros k.
    cbn [put_all numbered_ids fold_left fst snd put_ids sops sg_cd].
    rewrite !aput_fst.
    unfold Stack_proof.extr in Hx.
    destruct (vol_structured_block _ _ _ _ _ _ Hx (aput_nonempty _ _ _)) as (_ & _ & _ & _ & _ & Hk & _).
    rewrite Hk. cbn [set_cg sops sb_surf ss_cd]. rewrite aput_fst. cbn [In]. intuition. }
  split.
  { intros k. rewrite HK. split.
    - intros Hall.
      destruct (in_dec string_dec k ["ColumnId"; "LayerId"; name; "CellGroup"]%string) as [Hi|Hi]; [auto|].
      right. intros j a b Ha Hb.
      assert (Hj : j < length (b1 :: bs)) by (rewrite Lb; apply nth_error_Some; congruence).
      destruct (nth_error (b1 :: bs) j) as [blk|] eqn:Eb; [|apply nth_error_None in Eb; lia].
      destruct (HBk j blk Eb) as (a' & b' & Ha' & _ & Hk). rewrite Ha in Ha'. injection Ha' as <-.
      specialize (Hall blk (nth_error_In _ _ Eb)). apply Hk in Hall. tauto.
    - intros HH blk Hin. apply In_nth_error in Hin as [j Hj].
      destruct (HBk j blk Hj) as (a & b & Ha & Hb & Hk). apply Hk. destruct HH as [|HH]; [auto|right; eauto]. }
  intros c Hc.
  assert (Hn1 : 1 <= n).
  { rewrite En. destruct (HW 0 b1 eq_refl) as (_ & ns & Hns & Hpos & _).
    destruct nsubs as [|m ms]; [discriminate|]. cbn in Hns. injection Hns as ->. simpl. lia. }
  assert (Hl : comp ax c < n).
  { pose proof (in_shape_comp ax _ _ Hc) as H. rewrite cell_shape_comp, Hdims, comp_setc in H. lia. }
  rewrite En in Hl. destruct (layer_find _ _ Hl) as (j & Hj & Hin).
  destruct (nth_error (b1 :: bs) j) as [blk|] eqn:Hblk; [|apply nth_error_None in Hblk; lia].
  pose proof (HW j blk Hblk) as (Wb & ns & Hns & Hpos & Hdb).
  destruct (HB j blk Hblk) as (a & b & arr & gj & gj' & b0 & perc & nsub & Ha & Hb & Hi & G1 & G2 & G3 & Wa' & Wb' & La & Hx & Hp & Hp2 & E & Hns' & Eblk).
  rewrite Hns in Hns'. injection Hns' as <-.
  assert (Ed : sg_dims b0 = sg_dims blk) by (rewrite Eblk; reflexivity).
  assert (Egh : sg_ghost b0 = sg_ghost blk) by (rewrite Eblk; reflexivity).
  exists j, a, b, arr, perc, b0. repeat (split; [assumption|]).
  split. { rewrite Ed, Hdb. f_equal. lia. }
  cbv zeta.
  set (off := list_sum (firstn j nsubs)) in *.
  assert (Hrange : off <= comp ax c < off + ns).
  { unfold layer_in in Hin. rewrite (list_sum_firstn_S _ _ _ Hns) in Hin. exact Hin. }
  set (c' := setc ax (comp ax c - off) c).
  assert (Hc' : in_shape (cell_shape (setc ax (S ns) d)) c').
  { unfold c'. rewrite cell_shape_setc. rewrite Hdims, cell_shape_setc in Hc.
    assert (Z : setc ax 0 (cell_shape d) = setc ax 0 (setc ax (Nat.max 1 (S n - 1)) (cell_shape d)))
      by (rewrite setc_setc; auto).
    apply (in_shape_swap ax _ _ _ c _ Hc Z). lia. }
  assert (Hsh : shifted ax (offset ax (b1 :: bs) j) c' = c).
  { rewrite Hoff by lia. fold off. unfold shifted, c'. rewrite comp_setc, setc_setc.
    replace (off + (comp ax c - off)) with (comp ax c) by lia. apply setc_comp. }
  rewrite Ed, Hdb. split; [exact Hc'|]. rewrite <- Hdb in *.
  split.
  - intros k x v Hk Hx' Hv.
    assert (Hv' : In (k, v) (sg_cd blk)).
    { rewrite Eblk. cbn [put_all numbered_ids fold_left fst snd put_ids sops sg_cd].
      cbn [In] in Hk. apply aput_other; [intuition congruence|]. apply aput_other; [intuition congruence|].
      apply aput_other; [intuition congruence|]. exact Hv. }
    pose proof (HC _ _ j blk _ c' Hx' Hblk Hv' Hc') as E1. rewrite Hsh in E1. exact E1.
  - rewrite Egh. pose proof (HGh j blk c' Hblk Hc') as E1. rewrite Hsh in E1. exact E1.
Qed.
End Structured.
