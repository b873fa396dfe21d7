From Verif Require Import RealAux Perc_model Perc_spec Perc_proof Surface_model Surface_spec Surface_proof
  Volume_model Volume_spec Volume_proof Ring_proof UVol_proof UVol2_proof UVol3_proof
  SMerge_model SMerge_spec SMerge_proof Groups_model Groups_spec Groups_proof Groups2_proof
  Stack_model Stack_spec Cut_proof Gen_proof.
From Coq Require Import Lra.
Open Scope nat_scope.

(* ---- dictionaries of arrays ---- *)
Lemma aput_In {X} k (v : X) l : In (k, v) (aput k v l).
Proof.
  induction l as [|[k' v'] l IH]; simpl; auto.
  destruct (String.eqb_spec k k'); simpl; auto.
Qed.
Lemma aput_other {X} k (v : X) l k' v' : k' <> k -> In (k', v') (aput k v l) <-> In (k', v') l.
Proof.
  intros Hk. induction l as [|[k2 v2] l IH]; simpl.
  - split; [intros [[= <- <-]|[]]; congruence|intros []].
  - destruct (String.eqb_spec k k2) as [->|]; simpl; [|rewrite IH; tauto].
    split; (intros [[= <- <-]|H]; [congruence|auto]).
Qed.
Lemma aput_fst {X} k (v : X) l x : In x (map fst (aput k v l)) <-> x = k \/ In x (map fst l).
Proof.
  induction l as [|[k2 v2] l IH]; simpl; [intuition|].
  destruct (String.eqb_spec k k2) as [->|]; simpl; rewrite ?IH; intuition.
Qed.
Lemma aput_NoDup {X} k (v : X) l : NoDup (map fst l) -> NoDup (map fst (aput k v l)).
Proof.
  induction l as [|[k2 v2] l IH]; simpl; intros H; [repeat constructor; auto|].
  destruct (String.eqb_spec k k2) as [->|]; simpl; auto.
  inversion H; subst. constructor; auto. rewrite aput_fst. intros [E|E]; auto.
Qed.
Lemma aput_all {X} k (v : X) l (P : X -> Prop) : P v -> (forall k' v', In (k', v') l -> P v') ->
  forall k' v', In (k', v') (aput k v l) -> P v'.
Proof.
  intros Hv Hl k' v'. induction l as [|[k2 v2] l IH]; simpl.
  - intros [[= <- <-]|[]]; auto.
  - destruct (String.eqb k k2); simpl; intros [[= <- <-]|H]; auto.
    + eapply Hl; right; eauto.
    + eapply Hl; left; eauto.
    + apply IH; auto. intros; eapply Hl; right; eauto.
Qed.
Lemma aput_nonempty {X} k (v : X) l : aput k v l <> [].
Proof. destruct l as [|[? ?] ?]; simpl; [discriminate|]. destruct (String.eqb _ _); discriminate. Qed.

(* ---- lawful instances ---- *)
Lemma sops_lawful {D} (num : Z -> D) : lawful (sops num).
Proof. repeat split; cbn; intros; try (destruct m as [[] ? ?]; reflexivity); reflexivity. Qed.
Lemma uops_lawful {D} (num : Z -> D) : lawful (uops num).
Proof. repeat split; cbn; intros; try (destruct m as [[] ? ?]; reflexivity); reflexivity. Qed.
Lemma lops_lawful {D} (num : Z -> D) : lawful (lops num).
Proof. repeat split; cbn; intros; try (destruct m as [[] ? ? ?]; reflexivity); reflexivity. Qed.

(* ---- layers ---- *)
Lemma layer_find ns l : l < list_sum ns -> exists j, j < length ns /\ layer_in ns l j.
Proof.
  revert l; induction ns as [|n ns IH]; intros l; simpl; [lia|]. intros H.
  destruct (Nat.lt_ge_cases l n) as [Hl|Hl].
  - exists 0. split; [lia|]. unfold layer_in; simpl. lia.
  - destruct (IH (l - n)) as (j & Hj & Hin); [lia|]. exists (S j). split; [lia|].
    unfold layer_in in *. simpl in *. lia.
Qed.

Lemma list_sum_firstn_S ns j n : nth_error ns j = Some n ->
  list_sum (firstn (S j) ns) = list_sum (firstn j ns) + n.
Proof.
  revert j; induction ns as [|m ns IH]; intros [|j]; try discriminate.
  - cbn [nth_error]. intros [= ->]. simpl. lia.
  - cbn [nth_error]. intros H. specialize (IH j H).
    change (m + list_sum (firstn (S j) ns) = m + list_sum (firstn j ns) + n). lia.
Qed.

(* ---- one block ---- *)
Section Structured.
Context {D : Type} (num : Z -> D) (volumes : shape3 -> list pt -> list R).
Context (ax : nat) (Hax : ax <= 2) (d : shape3) (Hu : unit_along ax d).

Notation ops := (sops num).
Definition extr := (fun a b r m => generate_volume_structured volumes (@sb_surf D a) (sb_surf b) r m).

Lemma base_aligned m : wf_base d m -> aligned (gview ops m).
Proof.
  intros (E & _ & _ & _ & _ & _ & H). unfold aligned. cbn. rewrite E.
  destruct (sb_cg m) as [cg|]; auto. rewrite seq_length; auto.
Qed.

Lemma cells_times n : 2 <= n -> n_cells (setc ax n d) = (n - 1) * n_cells d.
Proof.
  intros Hn. destruct Hu as [H1 _]. destruct d as [[x y] z].
  unfold n_cells, cell_shape, setc, size3. destruct ax as [|[|[|]]]; simpl in H1; try lia; subst;
    rewrite (Nat.max_r 1 (n - 1)) by lia; simpl; nia.
Qed.

Lemma block_facts a b arr b0 r m name i off :
  wf_base d a -> wf_base d b -> length arr = n_cells d ->
  extr (set_cg ops arr a) b r m = Ok b0 ->
  exists perc, resolution_to_perc r m = Ok perc /\ 2 <= length perc /\
    ncB ops b0 = (length perc - 1) * n_cells d /\
    let blk := put_all ops (numbered_ids name i off (length perc - 1) (n_cells d)) b0 in
    sg_dims blk = setc ax (length perc) d /\
    wf_grid ax blk /\
    sg_pts blk = sg_pts b0 /\
    (name <> "ColumnId"%string -> name <> "LayerId"%string -> name <> "CellGroup"%string ->
     In ("ColumnId"%string, map num (tile (map Z.of_nat (seq 0 (n_cells d))) (length perc - 1))) (sg_cd blk) /\
     In ("LayerId"%string, map num (repeat_each (map Z.of_nat (seq off (length perc - 1))) (n_cells d))) (sg_cd blk) /\
     In (name, map num (repeat (Z.of_nat i) ((length perc - 1) * n_cells d))) (sg_cd blk) /\
     exists w, In ("CellGroup"%string, w) (sg_cd blk) /\
       forall c, in_shape (cell_shape (sg_dims blk)) c ->
         at_coord (cell_shape (sg_dims blk)) w c =
         at_coord (cell_shape d) (map num arr) (setc ax 0 c)).
Proof.
  intros Wa Wb Harr Hx.
  destruct Wa as (Da & Pa & Na & PDa & CDa & Ga & Cga). destruct Wb as (Db & Pb & _).
  unfold extr in Hx.
  destruct (unit_along_dim _ _ Hax Hu) as (_ & Hfu & D0 & D1 & D2).
  pose proof (vol_structured_block _ _ _ _ _ _ Hx (aput_nonempty _ _ _))
    as (perc & Hp & Hp2 & Hd & Hpl & Hk & Hl & Hg).
  cbn in Hd, Hk. rewrite Da, Hfu in Hd.
  exists perc. split; [auto|split; [auto|]].
  assert (Hn : n_cells (sg_dims b0) = (length perc - 1) * n_cells d) by (rewrite Hd; apply cells_times; auto).
  split; [exact Hn|].
  cbv zeta. cbn [put_all numbered_ids fold_left fst snd put_ids sops sg_dims sg_cd sg_pts sg_ghost].
  split; [auto|].
  assert (Lcol : length (map num (tile (map Z.of_nat (seq 0 (n_cells d))) (length perc - 1))) = n_cells (sg_dims b0)).
  { rewrite map_length, tile_length, map_length, seq_length; auto. }
  assert (Llay : length (map num (repeat_each (map Z.of_nat (seq off (length perc - 1))) (n_cells d))) = n_cells (sg_dims b0)).
  { rewrite map_length, repeat_each_length, map_length, seq_length; auto. }
  assert (Lit : length (map num (repeat (Z.of_nat i) ((length perc - 1) * n_cells d))) = n_cells (sg_dims b0)).
  { rewrite map_length, repeat_length; auto. }
  split; [|split; [auto|]].
  - apply wf_unfold. cbn [sg_dims sg_pts sg_cd sg_ghost]. repeat split; auto.
    + intros a' Ha'. rewrite Hd. destruct (Nat.eq_dec a' ax) as [->|Hne].
      * rewrite comp_setc. lia.
      * destruct d as [[x y] z], ax as [|[|[|]]], a' as [|[|[|]]]; simpl in *; lia.
    + rewrite Hd, comp_setc. auto.
    + do 3 apply aput_NoDup. rewrite Hk. apply aput_NoDup. auto.
    + apply (aput_all _ _ _ (fun v => length v = n_cells (sg_dims b0))); auto.
      apply (aput_all _ _ _ (fun v => length v = n_cells (sg_dims b0))); auto.
      apply (aput_all _ _ _ (fun v => length v = n_cells (sg_dims b0))); auto.
  - intros N1 N2 N3.
    split; [apply aput_other; [auto|]; apply aput_other; [discriminate|]; apply aput_In|].
    split; [apply aput_other; [auto|]; apply aput_In|].
    split; [apply aput_In|].
    destruct (vol_structured_data_axis _ _ _ _ _ _ "CellGroup"%string (map num arr) ax Hx Hax) as [_ HC].
    { cbn. rewrite Da. apply Hu. }
    destruct HC as (w & Hw & Hc); [cbn; apply aput_In|].
    exists w. split.
    + apply aput_other; [auto|]; apply aput_other; [discriminate|]; apply aput_other; [discriminate|]; auto.
    + intros c Hin. unfold at_coord. rewrite Hc by auto. cbn. rewrite Da. reflexivity.
Qed.

(* coordinates of a block *)
Lemma block_points a b arr b0 r m perc :
  wf_base d a -> wf_base d b -> extr (set_cg ops arr a) b r m = Ok b0 ->
  resolution_to_perc r m = Ok perc ->
  forall c t, in_shape (sg_dims b0) c -> nth_error perc (comp ax c) = Some t ->
    exists p q, nth_error (ss_pts (sb_surf a)) (fidx d (setc ax 0 c)) = Some p /\
      nth_error (ss_pts (sb_surf b)) (fidx d (setc ax 0 c)) = Some q /\
      at_coord (sg_dims b0) (sg_pts b0) c = Some (lerp t p q).
Proof.
  intros Wa Wb Hx Hp c t Hc Ht.
  destruct Wa as (Da & Pa & _). destruct Wb as (Db & Pb & _).
  destruct (unit_along_dim _ _ Hax Hu) as (_ & Hfu & _).
  unfold extr in Hx.
  assert (Pa' : length (ss_pts (sb_surf (set_cg ops arr a))) = size3 (ss_dims (sb_surf (set_cg ops arr a))))
    by (cbn; rewrite Da; exact Pa).
  destruct (vol_structured_coords _ _ _ _ _ _ Pa' Hx)
    as (axis & perc' & Hp' & _ & Ha' & Hone & Hd & _ & Hco).
  rewrite Hp in Hp'. injection Hp' as <-. cbn in Hone, Hd, Hco. rewrite Da in *.
  assert (axis = ax) as ->.
  { destruct (Nat.eq_dec axis ax) as [|Hne]; auto.
    destruct Hu as [_ H2]. specialize (H2 axis Ha' Hne). lia. }
  rewrite Db in Hco. apply Hco; auto.
Qed.

(* ---- the whole stack ---- *)
Lemma wf_only i j : only_points ops i j -> wf_base d (it_mesh i) ->
  length (points ops j) = size3 d -> wf_base d (it_mesh j).
Proof.
  intros (E & _) (A1 & A2 & A3 & A4 & A5 & A6 & A7) Hl. rewrite E. cbn.
  unfold wf_base; cbn. repeat split; auto.
Qed.

Lemma wf_after_cut bu i1 rest js :
  Forall (fun i => wf_base d (it_mesh i)) (i1 :: rest) ->
  cut_loop ops ax bu i1 rest = Ok js ->
  Forall2 (only_points ops) (i1 :: rest) js /\ Forall (fun i => wf_base d (it_mesh i)) js.
Proof.
  intros Hw Hc.
  destruct (cut_loop_lengths ops (sops_lawful num) ax bu rest i1 js (size3 d)) as [H1 H2]; auto.
  { intros i Hi. rewrite Forall_forall in Hw. apply (Hw i Hi). }
  split; auto. rewrite Forall_forall in *. intros j Hj.
  apply In_nth_error in Hj as Hj'. destruct Hj' as [k Hk].
  assert (exists i, nth_error (i1 :: rest) k = Some i) as [i Hi].
  { destruct (nth_error (i1 :: rest) k) eqn:E; eauto. apply nth_error_None in E.
    apply Forall2_len in H1. assert (k < length js) by (apply nth_error_Some; congruence). lia. }
  destruct (Forall2_nth_error _ _ _ _ _ H1 Hi) as (j' & Hj1 & Ho). rewrite Hk in Hj1. injection Hj1 as <-.
  apply (wf_only i); auto. apply Hw. eapply nth_error_In; eauto.
Qed.

Lemma merge_is_fold (b : sgrid D) bs : merge_structured (b :: bs) (Some ax) = merge_fold ax b bs.
Proof. destruct bs; reflexivity. Qed.

Definition block_of name (i1 : item (sbase D)) rest (nsubs : list nat) groups (o : options) (j : nat) (blk : sgrid D) :=
  exists a b arr gj gj' b0 perc nsub,
    nth_error (i1 :: rest) j = Some a /\ nth_error rest j = Some b /\
    initialize_group_array o (gview ops (it_mesh a)) gj (it_group b) "" = Ok (arr, gj') /\
    numbered gj /\ numbered gj' /\ extends gj' groups /\
    wf_base d (it_mesh a) /\ wf_base d (it_mesh b) /\ length arr = n_cells d /\
    extr (set_cg ops arr (it_mesh a)) (it_mesh b) (it_res b) (it_method b) = Ok b0 /\
    resolution_to_perc (it_res b) (it_method b) = Ok perc /\ 2 <= length perc /\
    nsub = length perc - 1 /\ nth_error nsubs j = Some nsub /\
    blk = put_all ops (numbered_ids name j (list_sum (firstn j nsubs)) nsub (n_cells d)) b0.

Lemma blocks_inv o name i1 rest bs groups n :
  Forall (fun it => it_trans it = false) rest ->
  Forall (fun i => wf_base d (it_mesh i)) (i1 :: rest) ->
  gen_loop ops o name extr (fun _ _ _ _ => Err NotImplementedError) 0 0 [] i1 rest = Ok (bs, groups, n) ->
  numbered groups /\
  exists nsubs, length nsubs = length rest /\ length bs = length rest /\ n = list_sum nsubs /\
    forall j blk, nth_error bs j = Some blk -> block_of name i1 rest nsubs groups o j blk.
Proof.
  intros Ht Hw Hg.
  destruct (gen_loop_inv ops o name extr (fun _ _ _ _ => Err NotImplementedError) rest 0 0 [] i1 bs groups n)
    as (Hn & _ & nsubs & Ln & Lb & En & HJ); auto using numbered_nil.
  { eapply Forall_impl; [|exact Hw]. intros i Hi. apply base_aligned; auto. }
  split; auto. exists nsubs. repeat (split; [auto|]). simpl in En.
  intros j blk Hblk.
  assert (j < length rest) by (rewrite <- Lb; apply nth_error_Some; congruence).
  destruct (nth_error rest j) as [b|] eqn:Hb; [|apply nth_error_None in Hb; lia].
  destruct (nth_error (i1 :: rest) j) as [a|] eqn:Ha; [|apply nth_error_None in Ha; simpl in Ha; lia].
  destruct (HJ j a b Ha Hb) as (arr & gj & gj' & b0 & nsub & H1 & H2 & H3 & H4 & H5 & H6 & H7 & H8 & H9).
  rewrite Forall_forall in Hw.
  assert (Wa : wf_base d (it_mesh a)) by (apply Hw; eapply nth_error_In; eauto).
  assert (Wb : wf_base d (it_mesh b)) by (apply Hw; right; eapply nth_error_In; eauto).
  assert (La : length arr = n_cells d).
  { destruct (initialize_spec _ _ _ _ _ _ _ H2 (base_aligned _ Wa) H1) as (_ & _ & L & _).
    rewrite L. cbn. rewrite seq_length. destruct Wa as (-> & _); auto. }
  destruct (block_facts _ _ _ _ _ _ name 0 0 Wa Wb La H5) as (perc & Hp & Hp2 & Hc & _).
  cbn in H7, H8. destruct Wa as (Da & Wa'). rewrite Da in *.
  assert (nsub = length perc - 1).
  { cbn in Hc. rewrite Hc in H8. apply Nat.mul_cancel_r in H8; auto. }
  assert (Wa : wf_base d (it_mesh a)) by (split; auto).
  exists a, b, arr, gj, gj', b0, perc, nsub. repeat (split; [assumption|]).
  rewrite H9 in Hblk. injection Hblk as <-. cbn [sops ncM set_cg sb_surf ss_dims].
  rewrite Da. reflexivity.
Qed.

Lemma block_wf name i1 rest nsubs groups o j blk :
  name <> "ColumnId"%string -> name <> "LayerId"%string -> name <> "CellGroup"%string ->
  block_of name i1 rest nsubs groups o j blk ->
  wf_grid ax blk /\ exists nsub, nth_error nsubs j = Some nsub /\ 1 <= nsub /\
    sg_dims blk = setc ax (S nsub) d.
Proof.
  intros N1 N2 N3 (a & b & arr & gj & gj' & b0 & perc & nsub & Ha & Hb & Hi & G1 & G2 & G3 & Wa & Wb & La & Hx & Hp & Hp2 & En & Hn & ->).
  destruct (block_facts _ _ _ _ _ _ name j (list_sum (firstn j nsubs)) Wa Wb La Hx)
    as (perc' & Hp' & _ & _ & F). rewrite Hp in Hp'. injection Hp' as <-. cbv zeta in F.
  rewrite En. destruct F as (F1 & F2 & _). split; auto.
  exists (length perc - 1). rewrite <- En. repeat split; auto; [lia|].
  rewrite En, F1. f_equal. lia.
Qed.

Lemma blocks_offset name i1 rest nsubs groups o bs :
  name <> "ColumnId"%string -> name <> "LayerId"%string -> name <> "CellGroup"%string ->
  length bs = length nsubs ->
  (forall j blk, nth_error bs j = Some blk -> block_of name i1 rest nsubs groups o j blk) ->
  forall j, j <= length bs -> offset ax bs j = list_sum (firstn j nsubs).
Proof.
  intros N1 N2 N3 Hl Hb. unfold offset.
  assert (E : map (fun g => comp ax (sg_dims g) - 1) bs = nsubs).
  { apply nth_error_ext. intros k. rewrite nth_error_map.
    destruct (nth_error bs k) as [blk|] eqn:Ek; cbn [option_map].
    - destruct (block_wf name i1 rest nsubs groups o k blk) as (_ & nsub & Hns & _ & ->); auto.
      rewrite Hns, comp_setc. f_equal. lia.
    - symmetry. apply nth_error_None. apply nth_error_None in Ek. lia. }
  intros j Hj. rewrite <- firstn_map, E. reflexivity.
Qed.

(* structure of the generated mesh: where cell c comes from *)
Lemma generated_cells o name i1 rest bs groups n g :
  name <> "ColumnId"%string -> name <> "LayerId"%string -> name <> "CellGroup"%string ->
  rest <> [] ->
  Forall (fun it => it_trans it = false) rest ->
  Forall (fun i => wf_base d (it_mesh i)) (i1 :: rest) ->
  gen_loop ops o name extr (fun _ _ _ _ => Err NotImplementedError) 0 0 [] i1 rest = Ok (bs, groups, n) ->
  merge_structured bs (Some ax) = Ok g ->
  numbered groups /\
  exists nsubs, length nsubs = length rest /\ n = list_sum nsubs /\
    (forall j b, nth_error rest j = Some b -> exists ns, nth_error nsubs j = Some ns /\ layers_of b ns) /\
    sg_dims g = setc ax (S n) d /\
    exists col lay itm cg,
      In ("ColumnId"%string, col) (sg_cd g) /\ In ("LayerId"%string, lay) (sg_cd g) /\
      In (name, itm) (sg_cd g) /\ In ("CellGroup"%string, cg) (sg_cd g) /\
      forall c, in_shape (cell_shape (sg_dims g)) c ->
        exists j a b arr gj gj' nsub, layer_in nsubs (comp ax c) j /\
          nth_error (i1 :: rest) j = Some a /\ nth_error rest j = Some b /\
          initialize_group_array o (gview ops (it_mesh a)) gj (it_group b) "" = Ok (arr, gj') /\
          numbered gj /\ numbered gj' /\ extends gj' groups /\ length arr = n_cells d /\
          nth_error nsubs j = Some nsub /\
          let c' := setc ax (comp ax c - list_sum (firstn j nsubs)) c in
          let cs := cell_shape (setc ax (S nsub) d) in
          in_shape cs c' /\
          at_coord (cell_shape (sg_dims g)) col c =
            at_coord cs (map num (tile (map Z.of_nat (seq 0 (n_cells d))) nsub)) c' /\
          at_coord (cell_shape (sg_dims g)) lay c =
            at_coord cs (map num (repeat_each (map Z.of_nat (seq (list_sum (firstn j nsubs)) nsub)) (n_cells d))) c' /\
          at_coord (cell_shape (sg_dims g)) itm c =
            at_coord cs (map num (repeat (Z.of_nat j) (nsub * n_cells d))) c' /\
          at_coord (cell_shape (sg_dims g)) cg c =
            at_coord (cell_shape d) (map num arr) (setc ax 0 c).
Proof.
  intros N1 N2 N3 Hne Ht Hw Hg Hm.
  destruct (blocks_inv _ _ _ _ _ _ _ Ht Hw Hg) as (Hnum & nsubs & Ln & Lb & En & HB).
  split; auto. exists nsubs. split; [auto|split; [auto|]].
  assert (HW : forall j blk, nth_error bs j = Some blk -> wf_grid ax blk /\ exists nsub,
            nth_error nsubs j = Some nsub /\ 1 <= nsub /\ sg_dims blk = setc ax (S nsub) d).
  { intros j blk Hj. eapply block_wf; eauto. }
  pose proof (blocks_offset name i1 rest nsubs groups o bs N1 N2 N3 ltac:(lia) HB) as Hoff.
  destruct bs as [|b1 bs]; [destruct rest; [congruence|simpl in Lb; lia]|].
  rewrite merge_is_fold in Hm.
  assert (W1 : wf_grid ax b1) by (apply (HW 0 b1 eq_refl)).
  assert (Wl : Forall (wf_grid ax) bs).
  { rewrite Forall_forall. intros x Hx. apply In_nth_error in Hx as [k Hk]. apply (HW (S k) x Hk). }
  destruct (merge_fold_wf ax b1 bs g Hax W1 Wl Hm) as (Wg & Hdg & _).
  destruct (merge_fold_cells ax b1 bs g Hax W1 Wl Hm) as (HK & HC & _).
  destruct (HW 0 b1 eq_refl) as (_ & ns1 & Hns1 & _ & Hd1).
  assert (Hdims : sg_dims g = setc ax (S n) d).
  { rewrite Hdg, Hd1, setc_setc. f_equal. f_equal.
    rewrite Hoff by (simpl; lia). rewrite En. f_equal. apply firstn_all2.
    simpl in Lb. rewrite Ln, <- Lb. simpl. lia. }
  split.
  { intros j b Hb. destruct (nth_error (b1 :: bs) j) as [blk|] eqn:Hj.
    - destruct (HB j blk Hj) as (a' & b' & arr & gj & gj' & b0 & perc & nsub & _ & Hb' & _ & _ & _ & _ & _ & _ & _ & _ & Hp & _ & E & Hns & _).
      rewrite Hb in Hb'. injection Hb' as <-. exists nsub. split; auto. exists perc. auto.
    - exfalso. apply nth_error_None in Hj. assert (j < length rest) by (apply nth_error_Some; congruence). lia. }
  split; [auto|].
  assert (Keys : forall k, k = "ColumnId"%string \/ k = "LayerId"%string \/ k = name \/ k = "CellGroup"%string ->
            exists v, In (k, v) (sg_cd g)).
  { intros k Hk.
    assert (In k (map fst (sg_cd g))) as H.
    { apply HK. intros blk Hin. apply In_nth_error in Hin as [j Hj].
      destruct (HB j blk Hj) as (a & b & arr & gj & gj' & b0 & perc & nsub & _ & _ & _ & _ & _ & _ & Wa & Wb & La & Hx & Hp & _ & E & _ & ->).
      destruct (block_facts _ _ _ _ _ _ name j (list_sum (firstn j nsubs)) Wa Wb La Hx)
        as (perc' & Hp' & _ & _ & F). rewrite Hp in Hp'. injection Hp' as <-. cbv zeta in F. rewrite E.
      destruct F as (_ & _ & _ & F). destruct (F N1 N2 N3) as (F1 & F2 & F3 & w & F4 & _).
      apply in_map_iff. destruct Hk as [->|[->|[->| ->]]];
        [eexists; (split; [|exact F1])|eexists; (split; [|exact F2])|
         eexists; (split; [|exact F3])|eexists; (split; [|exact F4])]; reflexivity. }
    apply in_map_iff in H as ([k' v] & E & H). simpl in E; subst. eauto. }
  destruct (Keys "ColumnId"%string) as [col Hcol]; [tauto|].
  destruct (Keys "LayerId"%string) as [lay Hlay]; [tauto|].
  destruct (Keys name) as [itm Hitm]; [tauto|].
  destruct (Keys "CellGroup"%string) as [cg Hcg]; [tauto|].
  exists col, lay, itm, cg. repeat (split; [auto|]).
  intros c Hc.
  assert (Hn1 : 1 <= n).
  { rewrite En. destruct (HW 0 b1 eq_refl) as (_ & ns & Hns & Hpos & _).
    destruct nsubs as [|m ms]; [discriminate|]. cbn in Hns. injection Hns as ->. simpl. lia. }
  assert (Hl : comp ax c < n).
  { pose proof (in_shape_comp ax _ _ Hc) as H. rewrite cell_shape_comp, Hdims, comp_setc in H. lia. }
  rewrite En in Hl. destruct (layer_find _ _ Hl) as (j & Hj & Hin).
  destruct (nth_error (b1 :: bs) j) as [blk|] eqn:Hblk; [|apply nth_error_None in Hblk; lia].
  pose proof (HW j blk Hblk) as (Wb & ns & Hns & Hpos & Hdb).
  destruct (HB j blk Hblk) as (a & b & arr & gj & gj' & b0 & perc & nsub & Ha & Hb & Hi & G1 & G2 & G3 & Wa' & Wb' & La & Hx & Hp & Hp2 & E & Hns' & Eblk).
  rewrite Hns in Hns'. injection Hns' as <-.
  exists j, a, b, arr, gj, gj', ns. repeat (split; [assumption|]). cbv zeta.
  set (off := list_sum (firstn j nsubs)) in *.
  assert (Hrange : off <= comp ax c < off + ns).
  { unfold layer_in in Hin. rewrite (list_sum_firstn_S _ _ _ Hns) in Hin. exact Hin. }
  set (c' := setc ax (comp ax c - off) c).
  assert (Hc' : in_shape (cell_shape (setc ax (S ns) d)) c').
  { unfold c'. rewrite cell_shape_setc. rewrite Hdims, cell_shape_setc in Hc.
    assert (Z : setc ax 0 (cell_shape d) = setc ax 0 (setc ax (Nat.max 1 (S n - 1)) (cell_shape d)))
      by (rewrite setc_setc; auto).
    apply (in_shape_swap ax _ _ _ c _ Hc Z). lia. }
  assert (Hsh : shifted ax (offset ax (b1 :: bs) j) c' = c).
  { rewrite Hoff by lia. fold off. unfold shifted, c'. rewrite comp_setc, setc_setc.
    replace (off + (comp ax c - off)) with (comp ax c) by lia. apply setc_comp. }
  destruct (block_facts _ _ _ _ _ _ name j off Wa' Wb' La Hx)
    as (perc' & Hp' & _ & _ & F). rewrite Hp in Hp'. injection Hp' as <-. cbv zeta in F.
  rewrite <- E in F. rewrite <- Eblk in F. destruct F as (_ & _ & _ & F).
  destruct (F N1 N2 N3) as (F1 & F2 & F3 & w & F4 & F5). rewrite Hdb in F5.
  split; [auto|].
  rewrite <- Hdb in *.
  pose proof (HC _ _ j blk _ c' Hcol Hblk F1 Hc') as E1.
  pose proof (HC _ _ j blk _ c' Hlay Hblk F2 Hc') as E2.
  pose proof (HC _ _ j blk _ c' Hitm Hblk F3 Hc') as E3.
  pose proof (HC _ _ j blk _ c' Hcg Hblk F4 Hc') as E4.
  rewrite Hsh in E1, E2, E3, E4. rewrite F5 in E4 by auto.
  repeat (split; [assumption|]). rewrite E4. unfold c'. rewrite setc_setc. reflexivity.
Qed.
End Structured.
